(** Packaged statements used by NumProperties. *)
From Coq Require Import List ZArith Bool Lia PeanoNat Znumtheory.
From Coq Require Import ZifyBool ZifyNat ZifyN.
From Verif Require Import Outcome LoopModel WordsModel WordsSpec
  UtilsSpec BigintModel BigintSpec BigintProofs BigintClaims NumModel NumProofs NumPow NumLcm.
Import ListNotations.
Open Scope Z_scope.

(** C19 *)
Lemma modinv_claim c y x m : valid c y -> valid c x -> valid c m -> 0 < value x -> 1 < value m ->
  room c (Nat.max (size x) (size m) + 1) ->
  exists o, modinv c y x m = Ok o /\
  (Z.gcd (value x) (value m) = 1 ->
     exists r, o = Some r /\ valid c r /\ 0 <= value r < value m /\ (value x * value r) mod value m = 1) /\
  (Z.gcd (value x) (value m) <> 1 -> o = None).
Proof.
  intros Hy Hx Hm Px Pm Hr. destruct (modinv_spec c y x m (valid_storage _ _ Hy) Hx Hm Px Pm Hr) as (o & E & H).
  exists o. split; [exact E|]. destruct o as [r|].
  - destruct H as (H1 & H2 & H3). split; [eauto|]. intros Hg. exfalso. apply Hg.
    (* an inverse exists, so the gcd is one *)
    pose proof (Z.div_mod (value x * value r) (value m) ltac:(lia)) as D. rewrite H3 in D.
    pose proof (Z.gcd_divide_l (value x) (value m)) as (a & Ea). pose proof (Z.gcd_divide_r (value x) (value m)) as (b & Eb).
    set (g := Z.gcd (value x) (value m)) in *. pose proof (Z.gcd_nonneg (value x) (value m)). fold g in H.
    assert (Hd : (g | 1)).
    { exists (a * value r - b * (value x * value r / value m)). rewrite Z.mul_sub_distr_r.
      replace (a * value r * g) with (a * g * value r) by ring. rewrite <- Ea.
      replace (b * (value x * value r / value m) * g) with (b * g * (value x * value r / value m)) by ring. rewrite <- Eb. lia. }
    apply Z.divide_1_r in Hd. lia.
  - split; [intros Hg; contradiction|reflexivity].
Qed.
Lemma modinv_unique_claim m x y z : 1 < m -> 0 <= y < m -> 0 <= z < m -> (x * y) mod m = 1 -> (x * z) mod m = 1 -> y = z.
Proof.
  intros Hm Hy Hz E1 E2.
  assert (E : y mod m = z mod m).
  { assert (A : (y * (x * z)) mod m = y mod m) by (rewrite Z.mul_mod, E2, Z.mul_1_r, Z.mod_mod by lia; reflexivity).
    assert (C : (z * (x * y)) mod m = z mod m) by (rewrite Z.mul_mod, E1, Z.mul_1_r, Z.mod_mod by lia; reflexivity).
    rewrite <- A, <- C. f_equal. ring. }
  rewrite !Z.mod_small in E by lia. exact E.
Qed.
Lemma modinv_zero_claim c y x m : valid c y -> valid c x -> valid c m -> value x = 0 -> 1 < value m ->
  modinv c y x m = Ok None /\ op_modinv c x m = Abort.
Proof.
  intros Hy Hx Hm Ex Pm. unfold op_modinv, modinv. rewrite !(is_zero_value c), !(is_one_value c), Ex by assumption.
  replace (value m =? 0) with false by lia. replace (value m =? 1) with false by lia. split; reflexivity.
Qed.
Lemma modinv_zero_modulus_claim c y x m : valid c m -> value m = 0 -> modinv c y x m = Abort.
Proof. intros Hm E. unfold modinv. rewrite (is_zero_value c m Hm), E. reflexivity. Qed.
(** modulus one *)
Lemma modinv_one_refute : exists x m r, produced (Flex 4) x /\ produced (Flex 4) m /\ value m = 1 /\
  modinv (Flex 4) (zero (Flex 4)) x m = Ok (Some r) /\ ~ (0 <= value r < value m).
Proof.
  exists (of_int (Flex 4) 5), (of_int (Flex 4) 1). eexists. split; [apply P_int; cbn; lia|]. split; [apply P_int; cbn; lia|].
  split; [reflexivity|]. split; [vm_compute; reflexivity|]. vm_compute. intros (_ & H). discriminate H.
Qed.

(** C20 *)
Lemma gcd_claim c x y : valid c x -> valid c y -> 0 <= value x -> 0 <= value y ->
  exists r, gcd c x y = Ok r /\ valid c r /\ 0 <= value r /\
    (value r | value x) /\ (value r | value y) /\ (forall d, (d | value x) -> (d | value y) -> (d | value r)).
Proof.
  intros Hx Hy Px Py. destruct (gcd_spec c x y Hx Hy) as (r & E & Hr & Er & Pr). specialize (Pr Px Py). rewrite Z.abs_eq in Er by lia.
  exists r. split; [exact E|]. split; [exact Hr|]. split; [exact Pr|]. rewrite Er.
  split; [apply Z.gcd_divide_l|]. split; [apply Z.gcd_divide_r|]. intros d. apply Z.gcd_greatest.
Qed.
Lemma lcm_claim c z x y : valid c z -> valid c x -> valid c y -> 0 <= value x -> 0 <= value y ->
  (value x <> 0 \/ value y <> 0) -> room c (size x + size y) ->
  ~ (2 ^ 32 <= Z.gcd (value x) (value y) /\ (Z.log2 (Z.gcd (value x) (value y)) + 1) mod 32 = 0 /\
     2 ^ (Z.log2 (Z.gcd (value x) (value y)) + 1) <= value x) ->
  exists r, lcm c z x y = Ok r /\ valid c r /\ 0 <= value r /\
    (value x | value r) /\ (value y | value r) /\ (forall k, (value x | k) -> (value y | k) -> (value r | k)).
Proof.
  intros Hz Hx Hy Px Py Hn Hr Hcl. destruct (lcm_spec c z x y (valid_storage _ _ Hz) Hx Hy Px Py Hn Hr Hcl) as (r & E & Hv & Er).
  exists r. split; [exact E|]. split; [exact Hv|]. rewrite Er. split; [apply Z.lcm_nonneg|].
  split; [apply Z.divide_lcm_l|]. split; [apply Z.divide_lcm_r|]. intros k. apply Z.lcm_least.
Qed.

(** C21 *)
Lemma pow_claim n z x y : valid (Flex n) z -> valid (Flex n) x -> valid (Flex n) y -> neg y = false ->
  exists r, pow (Flex n) z x y = Ok (Some r) /\ valid (Flex n) r /\ value r = value x ^ value y.
Proof.
  intros Hz Hx Hy Hn.
  assert (Py : 0 <= value y) by (pose proof (magnitude_range _ _ Hy); rewrite value_sgn, Hn; cbn; lia).
  pose proof (pow_spec (Flex n) z x y (valid_storage _ _ Hz) Hx Hy Py Hn) as H.
  destruct (pow (Flex n) z x y) as [[r|]| | |]; try contradiction; [exists r; tauto|]. destruct H as (k & Hk). exfalso. apply Hk. exact I.
Qed.
Lemma pow_i64_claim n z x k : valid (Flex n) z -> valid (Flex n) x -> 0 <= k < 2 ^ 63 ->
  exists r, pow_i64 (Flex n) z x k = Ok (Some r) /\ valid (Flex n) r /\ value r = value x ^ k.
Proof.
  intros Hz Hx Hk. pose proof (pow_i64_spec (Flex n) z x k (valid_storage _ _ Hz) Hx Hk) as H.
  destruct (pow_i64 (Flex n) z x k) as [[r|]| | |]; try contradiction; [exists r; tauto|]. destruct H as (m & Hm). exfalso. apply Hm. exact I.
Qed.
(** at any capacity: failure is reported, success is exact *)
Lemma pow_sound_claim c z x y r : valid c z -> valid c x -> valid c y -> neg y = false ->
  pow c z x y = Ok (Some r) -> valid c r /\ value r = value x ^ value y.
Proof.
  intros Hz Hx Hy Hn E.
  assert (Py : 0 <= value y) by (pose proof (magnitude_range _ _ Hy); rewrite value_sgn, Hn; cbn; lia).
  pose proof (pow_spec c z x y (valid_storage _ _ Hz) Hx Hy Py Hn) as H. rewrite E in H. exact H.
Qed.
Lemma pow_negative_claim c z x y : neg y = true -> pow c z x y = Ok None.
Proof. intros H. unfold pow. rewrite H. reflexivity. Qed.

Lemma modexp_claim c z x y m : valid c z -> valid c x -> valid c y -> valid c m -> 0 <= value x -> neg y = false -> 0 < value m ->
  room c (2 * Nat.max (size x) (size m)) -> (2 <= value y \/ (value x < value m /\ 1 < value m)) ->
  exists r, modexp c z x y m = Ok (Some r) /\ valid c r /\ value r = value x ^ value y mod value m.
Proof.
  intros Hz Hx Hy Hm Px Hn Pm Hr Hc. pose proof (modexp_spec c z x y m (valid_storage _ _ Hz) Hx Hy Hm Px Hn Pm) as H.
  assert (Py : 0 <= value y) by (pose proof (magnitude_range _ _ Hy); rewrite value_sgn, Hn; cbn; lia).
  destruct (modexp c z x y m) as [[r|]| | |]; try contradiction. exists r. split; [reflexivity|].
  destruct H as (Hv & Nr & Er & H2 & H1 & H0). split; [exact Hv|]. rewrite <- Er. symmetry. apply Z.mod_small. split; [exact Nr|].
  destruct Hc as [Hc|[Hc1 Hc2]]; [auto|]. destruct (Z.eq_dec (value y) 0) as [E|E]; [rewrite H0 by exact E; lia|].
  destruct (Z.eq_dec (value y) 1) as [E'|E']; [rewrite H1 by exact E'; lia|]. apply H2. lia.
Qed.
Lemma modexp_word_claim c z x w m : valid c z -> valid c x -> 0 <= w < 2 ^ 32 -> valid c m -> 0 <= value x -> 0 < value m ->
  room c (2 * Nat.max (size x) (size m)) -> (2 <= w \/ (value x < value m /\ 1 < value m)) ->
  exists r, modexp_word c z x w m = Ok (Some r) /\ valid c r /\ value r = value x ^ w mod value m.
Proof.
  intros Hz Hx Hw Hm Px Pm Hr Hc. pose proof (modexp_word_spec c z x w m (valid_storage _ _ Hz) Hx Hw Hm Px Pm) as H.
  destruct (modexp_word c z x w m) as [[r|]| | |]; try contradiction. exists r. split; [reflexivity|].
  destruct H as (Hv & Nr & Er & H2 & H1 & H0). split; [exact Hv|]. rewrite <- Er. symmetry. apply Z.mod_small. split; [exact Nr|].
  destruct Hc as [Hc|[Hc1 Hc2]]; [auto|]. destruct (Z.eq_dec w 0) as [E|E]; [rewrite H0 by exact E; lia|].
  destruct (Z.eq_dec w 1) as [E'|E']; [rewrite H1 by exact E'; lia|]. apply H2. lia.
Qed.
Lemma modexp_one_refute : exists x y m r, produced (Flex 4) x /\ produced (Flex 4) y /\ produced (Flex 4) m /\
  value y = 1 /\ 0 < value m /\ modexp (Flex 4) (zero (Flex 4)) x y m = Ok (Some r) /\ value r <> value x ^ value y mod value m.
Proof.
  exists (of_int (Flex 4) 10), (of_int (Flex 4) 1), (of_int (Flex 4) 7). eexists. do 3 (split; [apply P_int; cbn; lia|]).
  split; [reflexivity|]. split; [reflexivity|]. split; [vm_compute; reflexivity|]. vm_compute. discriminate.
Qed.
Lemma modexp_zero_refute : exists x y m r, produced (Flex 4) x /\ produced (Flex 4) y /\ produced (Flex 4) m /\
  value y = 0 /\ value m = 1 /\ modexp (Flex 4) (zero (Flex 4)) x y m = Ok (Some r) /\ value r <> value x ^ value y mod value m.
Proof.
  exists (of_int (Flex 4) 10), (of_int (Flex 4) 0), (of_int (Flex 4) 1). eexists. do 3 (split; [apply P_int; cbn; lia|]).
  split; [reflexivity|]. split; [reflexivity|]. split; [vm_compute; reflexivity|]. vm_compute. discriminate.
Qed.
