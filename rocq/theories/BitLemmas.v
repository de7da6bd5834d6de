(** Bit-level arithmetic facts on Z shared by the proofs. *)
From Coq Require Import ZArith Lia Bool.
Open Scope Z_scope.

Lemma testbit_above v k n : 0 <= v < 2 ^ k -> k <= n -> Z.testbit v n = false.
Proof.
  intros Hv Hn. destruct (Z.eq_dec v 0) as [->|]; [apply Z.bits_0|].
  assert (0 <= k) by (destruct (Z_lt_le_dec k 0); [rewrite Z.pow_neg_r in Hv by lia; lia|lia]).
  apply Z.bits_above_log2; [lia|]. apply Z.lt_le_trans with k; [|lia].
  apply Z.log2_lt_pow2; lia.
Qed.

Lemma land_shiftl_low a b k : 0 <= k -> 0 <= b < 2 ^ k -> Z.land (Z.shiftl a k) b = 0.
Proof.
  intros Hk Hb. apply Z.bits_inj'; intros n Hn. rewrite Z.land_spec, Z.bits_0.
  destruct (Z.ltb_spec n k).
  - rewrite Z.shiftl_spec_low by lia. reflexivity.
  - rewrite (testbit_above b k n) by lia. apply andb_false_r.
Qed.

Lemma lor_shiftl_add a b k : 0 <= k -> 0 <= b < 2 ^ k -> Z.lor (Z.shiftl a k) b = a * 2 ^ k + b.
Proof.
  intros Hk Hb. pose proof (land_shiftl_low a b k Hk Hb) as H.
  rewrite <- Z.lxor_lor by exact H. rewrite <- Z.add_nocarry_lxor by exact H.
  rewrite Z.shiftl_mul_pow2 by lia. reflexivity.
Qed.

Lemma lor_mul_add a b k : 0 <= k -> 0 <= b < 2 ^ k -> Z.lor (a * 2 ^ k) b = a * 2 ^ k + b.
Proof. intros. rewrite <- lor_shiftl_add by assumption. rewrite Z.shiftl_mul_pow2 by lia. reflexivity. Qed.

Lemma lor_add_mul a b k : 0 <= k -> 0 <= b < 2 ^ k -> Z.lor b (a * 2 ^ k) = a * 2 ^ k + b.
Proof. intros. rewrite Z.lor_comm. apply lor_mul_add; assumption. Qed.

Lemma lxor_range a b k : 0 <= k -> 0 <= a < 2 ^ k -> 0 <= b < 2 ^ k -> 0 <= Z.lxor a b < 2 ^ k.
Proof.
  intros Hk Ha Hb.
  assert (H0 : 0 <= Z.lxor a b) by (apply Z.lxor_nonneg; lia).
  split; [assumption|].
  destruct (Z.eq_dec (Z.lxor a b) 0) as [E|E]; [lia|].
  apply Z.log2_lt_pow2; [lia|].
  destruct (Z.eq_dec k 0) as [->|]; [replace a with 0 in * by (cbn in Ha; lia); replace b with 0 in * by (cbn in Hb; lia); cbn in E; lia|].
  eapply Z.le_lt_trans; [apply Z.log2_lxor; lia|].
  apply Z.max_lub_lt.
  - destruct (Z.eq_dec a 0) as [->|]; [change (Z.log2 0) with 0; lia|apply Z.log2_lt_pow2; lia].
  - destruct (Z.eq_dec b 0) as [->|]; [change (Z.log2 0) with 0; lia|apply Z.log2_lt_pow2; lia].
Qed.

Lemma lor_range a b k : 0 <= k -> 0 <= a < 2 ^ k -> 0 <= b < 2 ^ k -> 0 <= Z.lor a b < 2 ^ k.
Proof.
  intros Hk Ha Hb.
  assert (H0 : 0 <= Z.lor a b) by (apply Z.lor_nonneg; lia).
  split; [assumption|].
  destruct (Z.eq_dec (Z.lor a b) 0) as [E|E]; [lia|].
  apply Z.log2_lt_pow2; [lia|].
  rewrite Z.log2_lor by lia.
  destruct (Z.eq_dec k 0) as [->|]; [replace a with 0 in * by (cbn in Ha; lia); replace b with 0 in * by (cbn in Hb; lia); cbn in E; lia|].
  apply Z.max_lub_lt.
  - destruct (Z.eq_dec a 0) as [->|]; [change (Z.log2 0) with 0; lia|apply Z.log2_lt_pow2; lia].
  - destruct (Z.eq_dec b 0) as [->|]; [change (Z.log2 0) with 0; lia|apply Z.log2_lt_pow2; lia].
Qed.

Lemma land_range a b k : 0 <= k -> 0 <= a < 2 ^ k -> 0 <= b -> 0 <= Z.land a b < 2 ^ k.
Proof.
  intros Hk Ha Hb.
  assert (H0 : 0 <= Z.land a b) by (apply Z.land_nonneg; lia).
  split; [assumption|].
  destruct (Z.eq_dec (Z.land a b) 0) as [E|E]; [lia|].
  apply Z.log2_lt_pow2; [lia|].
  destruct (Z.eq_dec a 0) as [->|]; [rewrite Z.land_0_l in E; lia|].
  eapply Z.le_lt_trans; [apply Z.log2_land; lia|].
  apply Z.le_lt_trans with (Z.log2 a); [lia|]. apply Z.log2_lt_pow2; lia.
Qed.

(** bitwise operations split along a boundary *)
Lemma lxor_split a b x y k : 0 <= k -> 0 <= a < 2 ^ k -> 0 <= b < 2 ^ k ->
  Z.lxor (a + 2 ^ k * x) (b + 2 ^ k * y) = Z.lxor a b + 2 ^ k * Z.lxor x y.
Proof.
  intros Hk Ha Hb. pose proof (lxor_range a b k Hk Ha Hb) as Hx.
  rewrite (Z.add_comm a), (Z.add_comm b), (Z.add_comm (Z.lxor a b)), !(Z.mul_comm (2 ^ k)).
  rewrite <- !lor_shiftl_add by assumption.
  apply Z.bits_inj'; intros n Hn.
  rewrite !Z.lxor_spec, !Z.lor_spec, Z.lxor_spec.
  destruct (Z.ltb_spec n k).
  - rewrite !Z.shiftl_spec_low by lia. reflexivity.
  - rewrite !Z.shiftl_spec by lia. rewrite Z.lxor_spec, (testbit_above a k n), (testbit_above b k n) by lia.
    rewrite !orb_false_r. reflexivity.
Qed.

Lemma lor_split a b x y k : 0 <= k -> 0 <= a < 2 ^ k -> 0 <= b < 2 ^ k ->
  Z.lor (a + 2 ^ k * x) (b + 2 ^ k * y) = Z.lor a b + 2 ^ k * Z.lor x y.
Proof.
  intros Hk Ha Hb. pose proof (lor_range a b k Hk Ha Hb) as Hx.
  rewrite (Z.add_comm a), (Z.add_comm b), (Z.add_comm (Z.lor a b)), !(Z.mul_comm (2 ^ k)).
  rewrite <- !lor_shiftl_add by assumption.
  apply Z.bits_inj'; intros n Hn.
  rewrite !Z.lor_spec.
  destruct (Z.ltb_spec n k).
  - rewrite !Z.shiftl_spec_low by lia. reflexivity.
  - rewrite !Z.shiftl_spec by lia. rewrite Z.lor_spec, (testbit_above a k n), (testbit_above b k n) by lia.
    rewrite !orb_false_r. reflexivity.
Qed.

Lemma land_split a b x y k : 0 <= k -> 0 <= a < 2 ^ k -> 0 <= b < 2 ^ k ->
  Z.land (a + 2 ^ k * x) (b + 2 ^ k * y) = Z.land a b + 2 ^ k * Z.land x y.
Proof.
  intros Hk Ha Hb. pose proof (land_range a b k Hk Ha ltac:(lia)) as Hx.
  rewrite (Z.add_comm a), (Z.add_comm b), (Z.add_comm (Z.land a b)), !(Z.mul_comm (2 ^ k)).
  rewrite <- !lor_shiftl_add by assumption.
  apply Z.bits_inj'; intros n Hn.
  rewrite !Z.land_spec, !Z.lor_spec, !Z.land_spec.
  destruct (Z.ltb_spec n k).
  - rewrite !Z.shiftl_spec_low by lia. reflexivity.
  - rewrite !Z.shiftl_spec by lia. rewrite Z.land_spec, (testbit_above a k n), (testbit_above b k n) by lia.
    rewrite !orb_false_r. reflexivity.
Qed.
