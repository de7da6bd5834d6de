From Coq Require Import List ZArith Bool Lia PeanoNat Znumtheory.
From Coq Require Import ZifyBool ZifyNat ZifyN.
From Verif Require Import Outcome LoopModel LoopProofs BitLemmas WordsModel WordsSpec WordsProofs DivProofs
  UtilsSpec BigintModel BigintSpec BigintProofs BigintBits BigintBytes BigintClosure BigintClaims NumModel.
Import ListNotations.
Open Scope Z_scope.

Lemma abs_value_bound c x : valid c x -> Z.abs (value x) < 2 ^ (32 * Z.of_nat (size x)).
Proof. intros H. rewrite <- (abs_magnitude c x H), <- Bn_pow2. apply (magnitude_range c x H). Qed.

Lemma fuel_bound c x : valid c x -> Z.abs (value x) < 2 ^ Z.of_nat (32 * size x + 1).
Proof.
  intros H. pose proof (abs_value_bound c x H).
  pose proof (Z.pow_le_mono_r 2 (32 * Z.of_nat (size x)) (Z.of_nat (32 * size x + 1)) ltac:(lia) ltac:(lia)). lia.
Qed.

Lemma is_zero_value c x : valid c x -> is_zero x = (value x =? 0).
Proof. intros H. rewrite (is_zero_spec c x H). pose proof (value_zero_iff x). lia. Qed.

Lemma zero_valid c x : valid c x -> valid c (zero c).
Proof. intros H. apply zero_spec. eapply valid_room1; exact H. Qed.
Lemma zero_storage c x : valid c x -> storage_ok c (zero c).
Proof. intros H. apply valid_storage. eapply zero_valid; exact H. Qed.

Lemma size_le c x y : valid c x -> valid c y -> Z.abs (value x) <= Z.abs (value y) -> (size x <= size y)%nat.
Proof.
  intros Hx Hy H. pose proof Hy as (_ & Hs & _). apply (size_le_iff c x (size y) Hx ltac:(lia)).
  pose proof (magnitude_range c y Hy). rewrite (abs_magnitude c) in * by assumption. lia.
Qed.

(** *** gcd *)
Lemma gcd_rem a b : b <> 0 -> Z.gcd b (Z.rem a b) = Z.gcd a b.
Proof.
  intros H. pose proof (Z.quot_rem a b H). rewrite (Z.gcd_comm a b). replace (Z.rem a b) with (a + (- Z.quot a b) * b) by lia. apply Z.gcd_add_mult_diag_r.
Qed.

Lemma gcd_spec c x y : valid c x -> valid c y ->
  exists r, gcd c x y = Ok r /\ valid c r /\ Z.abs (value r) = Z.gcd (value x) (value y) /\
    (0 <= value x -> 0 <= value y -> 0 <= value r).
Proof.
  intros Hx Hy. unfold gcd.
  apply (run_loop_ind (gcd_step c)
    (fun st => valid c (fst st) /\ valid c (snd st) /\ Z.gcd (value (fst st)) (value (snd st)) = Z.gcd (value x) (value y) /\
               (0 <= value x -> 0 <= value y -> 0 <= value (fst st) /\ 0 <= value (snd st)))
    (fun o => exists r, o = Ok r /\ valid c r /\ Z.abs (value r) = Z.gcd (value x) (value y) /\ (0 <= value x -> 0 <= value y -> 0 <= value r))
    (fun st => Z.abs (value (snd st)))).
  - intros. lia.
  - intros [u v] (Hu & Hv & Hg & Hp). cbn [fst snd gcd_step] in *. rewrite (is_zero_value c v Hv).
    destruct (Z.eqb_spec (value v) 0) as [E|E].
    + exists u. split; [reflexivity|]. split; [exact Hu|]. split; [|intros; apply Hp; assumption].
      rewrite <- Hg, E, Z.gcd_0_r. reflexivity.
    + destruct (mod_r_spec c v u v (valid_storage _ _ Hv) Hu Hv E) as (r & -> & Hr & Er). cbn [fst snd].
      split; [|rewrite Er; apply Z.rem_bound_abs; exact E].
      split; [exact Hv|]. split; [exact Hr|]. split; [rewrite Er, gcd_rem by exact E; exact Hg|].
      intros P1 P2. destruct (Hp P1 P2). split; [assumption|]. rewrite Er. apply Z.rem_nonneg; assumption.
  - cbn [fst snd]. auto.
  - cbn [fst snd]. apply (fuel_bound c); assumption.
Qed.

(** *** modinv *)
Lemma is_one_value c x : valid c x -> is_one x = (value x =? 1).
Proof. intros H. apply (is_one_spec c); exact H. Qed.

Lemma of_int1 c x : valid c x -> valid c (of_int c 1) /\ value (of_int c 1) = 1 /\ size (of_int c 1) = 1%nat.
Proof.
  intros H. destruct (assign_int_spec c (fresh c) 1 (storage0_ok c) (valid_room1 c x H)) as (A & E & _ & S & _); [rewrite B_val; lia|]. auto.
Qed.

(** sizes of factors of a bounded product *)
Lemma size_product c x y K : valid c x -> valid c y -> value x <> 0 -> value y <> 0 ->
  Z.abs (value x * value y) < Bn K -> (1 <= K)%nat -> (size x + size y <= K + 1)%nat.
Proof.
  intros Hx Hy Nx Ny Hb HK.
  assert (L : forall u, valid c u -> value u <> 0 -> Bn (size u - 1) <= Z.abs (value u)).
  { intros u Hu Nu. pose proof Hu as (_ & Hs & _). destruct (Nat.eq_dec (size u) 1) as [E|E].
    - rewrite E. change (Bn (1 - 1)) with 1. lia.
    - rewrite <- (abs_magnitude c u Hu). apply (magnitude_lower c u Hu). lia. }
  pose proof (L x Hx Nx) as L1. pose proof (L y Hy Ny) as L2. rewrite Z.abs_mul in Hb.
  pose proof Hx as (_ & Sx & _). pose proof Hy as (_ & Sy & _).
  pose proof (Bn_pos (size x - 1)). pose proof (Bn_pos (size y - 1)).
  assert (Hm : Bn (size x - 1) * Bn (size y - 1) < Bn K) by nia.
  rewrite <- Bn_add in Hm. destruct (Nat.le_gt_cases K (size x - 1 + (size y - 1))) as [Hle|Hgt]; [|lia].
  pose proof (Bn_mono _ _ Hle). lia.
Qed.

Definition inv_ok (c : cap) (K : nat) (x m : bigint) (st : inv_state) : Prop :=
  let '(mkinv s t a b) := st in
  valid c s /\ valid c t /\ valid c a /\ valid c b /\
  value t < value s /\ 0 < value t /\ (size s <= K)%nat /\ (size t <= K)%nat /\
  1 <= value a /\ value b <= 0 /\ (value b = 0 -> value t = value m) /\
  value a * value t - value b * value s = value m /\
  (exists k, value a * value x = value s + k * value m) /\
  (exists k, value b * value x = value t + k * value m) /\
  Z.gcd (value s) (value t) = Z.gcd (value x) (value m).

Lemma add_if_neg_spec c a m K : valid c a -> valid c m -> 1 < value m -> room c (K + 1) ->
  (size m <= K)%nat -> value a <> 0 -> - value m < value a < value m ->
  valid c (add_if_neg c a m) /\ 0 <= value (add_if_neg c a m) < value m /\
  (value (add_if_neg c a m) - value a) mod value m = 0.
Proof.
  intros Ha Hm Hm1 Hr Hs Hnz Hb. unfold add_if_neg. pose proof (value_sgn a) as Ev. pose proof (magnitude_range c a Ha) as R.
  destruct (neg a); cbn [sgn] in Ev.
  - assert (Hsa : (size a <= size m)%nat) by (apply (size_le c); [assumption|assumption|lia]).
    destruct (add_spec c a a m (valid_storage _ _ Ha) Ha Hm) as (Hv & E).
    { eapply room_le; [exact Hr|]. lia. }
    split; [exact Hv|]. rewrite E. split; [lia|]. replace (value a + value m - value a) with (1 * value m) by lia. apply Z_mod_mult.
  - split; [exact Ha|]. split; [lia|]. rewrite Z.sub_diag. apply Z.mod_0_l. lia.
Qed.

(** a -= b * q in place *)
Lemma submul_spec c a b q K : valid c a -> valid c b -> valid c q -> room c (K + 1) -> (1 <= K)%nat ->
  Z.abs (value b * value q) < Bn K -> (value b = 0 -> (size q <= K)%nat) -> Z.abs (value a) < Bn K -> 0 < value q ->
  valid c (sub c a a (op_mul c b q)) /\ value (sub c a a (op_mul c b q)) = value a - value b * value q.
Proof.
  intros Ha Hb Hq Hr HK Hbq H0 Hak Hqp.
  assert (Hroom : room c (size b + size q)).
  { eapply room_le; [exact Hr|]. destruct (Z.eq_dec (value b) 0) as [E|E].
    - specialize (H0 E). pose proof Hb as (_ & Sb & _).
      assert (size b <= 1)%nat. { apply (size_le_iff c b 1 Hb); [lia|]. rewrite (proj1 (value_zero_iff b) E). apply Bn_pos. }
      lia.
    - apply (size_product c); try assumption; lia. }
  destruct (mul_spec c false false (zero c) b q) as (r & Er & Hvr & Evr); try assumption; try discriminate.
  { eapply zero_storage; exact Hb. }
  unfold op_mul. rewrite Er. cbn [snd].
  assert (Sr : (size r <= K)%nat). { apply (size_le_iff c r K Hvr HK). rewrite (abs_magnitude c) by assumption. rewrite Evr. exact Hbq. }
  assert (Sa : (size a <= K)%nat). { apply (size_le_iff c a K Ha HK). rewrite (abs_magnitude c) by assumption. exact Hak. }
  destruct (sub_spec c a a r (valid_storage _ _ Ha) Ha Hvr) as (Hv & E). { eapply room_le; [exact Hr|]. lia. }
  split; [exact Hv|]. rewrite E, Evr. reflexivity.
Qed.

Definition inv_result (c : cap) (x m : bigint) (o : pow_res) : Prop :=
  exists r, o = Ok r /\
  match r with
  | Some y => valid c y /\ 0 <= value y < value m /\ (value x * value y) mod value m = 1
  | None => Z.gcd (value x) (value m) <> 1
  end.


Lemma divmod_pos c x y : valid c x -> valid c y -> 0 < value y -> 0 <= value x ->
  exists q r, div_mod c (Some (zero c)) x x y = Ok (true, Some q, r) /\ valid c q /\ valid c r /\
    value q = value x / value y /\ value r = value x mod value y.
Proof.
  intros Hx Hy Py Px.
  destruct (div_mod_spec c (Some (zero c)) x x y (valid_storage _ _ Hx) Hx Hy ltac:(lia) (zero_storage c x Hx)) as (q' & r' & E & Hr & Er & Hq).
  destruct q' as [q|]; [|contradiction]. destruct Hq as (Hq & Eq). exists q, r'. rewrite Er, Eq.
  split; [exact E|]. split; [exact Hq|]. split; [exact Hr|]. split; [apply Z.quot_div_nonneg; lia|apply Z.rem_mod_nonneg; lia].
Qed.

(** arithmetic of one Euclidean step *)
Lemma ar_q s t q r : s = t * q + r -> 0 <= r < t -> t < s -> 1 <= q.
Proof. intros. destruct (Z_le_gt_dec 1 q); [assumption|]. assert (t * q <= 0) by (apply Z.mul_nonneg_nonpos; lia). lia. Qed.
Lemma ar_qs s t q r : s = t * q + r -> 0 <= r -> 0 < t -> 0 <= q -> q <= s.
Proof. intros. assert (1 * q <= t * q) by (apply Z.mul_le_mono_nonneg_r; lia). lia. Qed.
Lemma ar_b a b s t m : a * t - b * s = m -> 1 <= a -> b <= 0 -> 0 < t -> t < s -> - m < b.
Proof.
  intros. assert (1 * 1 <= a * t) by (apply Z.mul_le_mono_nonneg; lia).
  assert ((- b) * 1 <= (- b) * s) by (apply Z.mul_le_mono_nonneg_l; lia). lia.
Qed.
Lemma ar_a a b s t m : a * t - b * s = m -> 1 <= a -> b <= 0 -> 0 < t -> 0 <= s -> a <= m.
Proof.
  intros. assert (a * 1 <= a * t) by (apply Z.mul_le_mono_nonneg_l; lia).
  assert (0 <= (- b) * s) by (apply Z.mul_nonneg_nonneg; lia). lia.
Qed.
Lemma ar_a2 a b s t m : a * t - b * s = m -> 1 <= a -> b <= 0 -> 1 < t -> 0 <= s -> a < m.
Proof.
  intros. assert (a * 2 <= a * t) by (apply Z.mul_le_mono_nonneg_l; lia).
  assert (0 <= (- b) * s) by (apply Z.mul_nonneg_nonneg; lia). lia.
Qed.
Lemma ar_det a b s t q s' m : a * t - b * s = m -> s = t * q + s' -> (a - b * q) * t - b * s' = m.
Proof. intros <- ->. ring. Qed.
Lemma ar_det2 a b s t q t' m : a * t - b * s = m -> t = s * q + t' -> a * t' - (b - a * q) * s = m.
Proof. intros <- ->. ring. Qed.
Lemma ar_a1 a b q : 1 <= a -> b <= 0 -> 1 <= q -> 1 <= a - b * q.
Proof. intros. assert (0 <= (- b) * q) by (apply Z.mul_nonneg_nonneg; lia). lia. Qed.
Lemma ar_b1 a b q : 1 <= a -> b <= 0 -> 1 <= q -> b - a * q < 0.
Proof. intros. assert (1 * 1 <= a * q) by (apply Z.mul_le_mono_nonneg; lia). lia. Qed.
Lemma ar_bq a b q : 1 <= a -> b <= 0 -> 1 <= q -> Z.abs (b * q) <= a - b * q.
Proof. intros. assert (0 <= (- b) * q) by (apply Z.mul_nonneg_nonneg; lia). lia. Qed.
Lemma ar_cong a b x s t k1 k2 q s' m : a * x = s + k1 * m -> b * x = t + k2 * m -> s = t * q + s' ->
  (a - b * q) * x = s' + (k1 - q * k2) * m.
Proof. intros H1 H2 H3. rewrite Z.mul_sub_distr_r. replace (b * q * x) with (q * (b * x)) by ring. rewrite H1, H2, H3. ring. Qed.
Lemma ar_final a x y m k j : a * x = 1 + k * m -> y - a = j * m -> 1 < m -> (x * y) mod m = 1.
Proof.
  intros H1 H2 H3. replace (x * y) with (1 + (k + x * j) * m).
  - rewrite Z_mod_plus_full. apply Z.mod_1_l. lia.
  - replace y with (a + j * m) by lia. replace (x * (a + j * m)) with (a * x + x * j * m) by ring. rewrite H1. ring.
Qed.

Lemma modinv_step_spec c K x m st : valid c x -> valid c m -> 1 < value m -> room c (K + 1) -> (size m <= K)%nat ->
  inv_ok c K x m st ->
  match modinv_step c m st with
  | Next st' => inv_ok c K x m st' /\ value (iv_t st') < value (iv_t st)
  | Done o => inv_result c x m o
  end.
Proof.
  intros Hx Hm Hm1 Hroom HK. destruct st as [s t a b]. cbn [inv_ok modinv_step iv_t].
  intros (Hs & Ht & Ha & Hb & Hst & Ht0 & Ss & St & Ha1 & Hb0 & Hbt & Hdet & (k1 & Ek1) & (k2 & Ek2) & Hg).
  pose proof Hm as (_ & Sm & _).
  assert (HmK : value m < Bn K). { pose proof (proj1 (size_le_iff c m K Hm ltac:(lia)) HK) as H. rewrite (abs_magnitude c) in H by assumption. lia. }
  destruct (divmod_pos c s t Hs Ht Ht0 ltac:(lia)) as (q & s' & -> & Hq & Hs' & Eq & Es').
  rewrite (is_zero_value c s' Hs').
  pose proof (Z.div_mod (value s) (value t) ltac:(lia)) as Dst. pose proof (Z.mod_pos_bound (value s) (value t) ltac:(lia)) as Mst.
  rewrite <- Eq, <- Es' in Dst. rewrite <- Es' in Mst.
  pose proof (ar_q _ _ _ _ Dst Mst Hst) as Q1.
  assert (Hg' : Z.gcd (value s') (value t) = Z.gcd (value x) (value m)).
  { rewrite <- Hg, Es', Z.gcd_mod, Z.gcd_comm by lia. reflexivity. }
  destruct (Z.eqb_spec (value s') 0) as [E0|E0].
  - (* s became zero *)
    rewrite (is_one_value c t Ht). rewrite E0, Z.gcd_0_l, Z.abs_eq in Hg' by lia.
    destruct (Z.eqb_spec (value t) 1) as [E1|E1].
    + assert (Hbn : value b <> 0) by (intros H; specialize (Hbt H); lia).
      destruct (add_if_neg_spec c b m K Hb Hm Hm1 Hroom HK Hbn ltac:(pose proof (ar_b _ _ _ _ _ Hdet Ha1 Hb0 Ht0 Hst); lia)) as (Hv & Hrange & Hmod).
      eexists; split; [reflexivity|]. cbv beta iota. split; [exact Hv|]. split; [exact Hrange|].
      apply Z.mod_divide in Hmod; [|lia]. destruct Hmod as (j & Ej).
      rewrite E1 in Ek2. apply (ar_final _ _ _ _ _ _ Ek2 Ej Hm1).
    + eexists; split; [reflexivity|]. cbv beta iota. rewrite <- Hg'. exact E1.
  - (* a -= b q *)
    pose proof (ar_det _ _ _ _ _ _ _ Hdet Dst) as Hdet'. pose proof (ar_a1 _ _ _ Ha1 Hb0 Q1) as Ha'.
    pose proof (ar_bq _ _ _ Ha1 Hb0 Q1) as Abq0. pose proof (ar_a _ _ _ _ _ Hdet' Ha' Hb0 Ht0 ltac:(lia)) as Am.
    pose proof (ar_a _ _ _ _ _ Hdet Ha1 Hb0 Ht0 ltac:(lia)) as Am0.
    assert (Abq : Z.abs (value b * value q) < Bn K) by lia.
    destruct (submul_spec c a b q K Ha Hb Hq Hroom ltac:(lia) Abq) as (Hva & Eva); [| lia | lia |].
    { intros _. assert (size q <= size s)%nat; [|lia]. apply (size_le c); [assumption|assumption|]. pose proof (ar_qs _ _ _ _ Dst ltac:(lia) Ht0 ltac:(lia)). lia. }
    set (a' := sub c a a (op_mul c b q)) in *.
    pose proof (ar_cong _ _ _ _ _ _ _ _ _ _ Ek1 Ek2 Dst) as Eka. rewrite <- Eva in *.
    destruct (divmod_pos c t s' Ht Hs' ltac:(lia) ltac:(lia)) as (q2 & t' & -> & Hq2 & Ht' & Eq2 & Et').
    rewrite (is_zero_value c t' Ht').
    pose proof (Z.div_mod (value t) (value s') ltac:(lia)) as Dts. pose proof (Z.mod_pos_bound (value t) (value s') ltac:(lia)) as Mts.
    rewrite <- Eq2, <- Et' in Dts. rewrite <- Et' in Mts.
    pose proof (ar_q _ _ _ _ Dts Mts ltac:(lia)) as Q2.
    assert (Hg2 : Z.gcd (value s') (value t') = Z.gcd (value x) (value m)).
    { rewrite <- Hg', Et'. rewrite (Z.gcd_comm (value s') (value t mod value s')), Z.gcd_mod by lia. apply Z.gcd_comm || reflexivity. }
    destruct (Z.eqb_spec (value t') 0) as [E0'|E0'].
    + rewrite (is_one_value c s' Hs'). rewrite E0', Z.gcd_0_r, Z.abs_eq in Hg2 by lia.
      destruct (Z.eqb_spec (value s') 1) as [E1|E1].
      * destruct (add_if_neg_spec c a' m K Hva Hm Hm1 Hroom HK ltac:(lia) ltac:(pose proof (ar_a2 _ _ _ _ _ Hdet' Ha' Hb0 ltac:(lia) ltac:(lia)); lia)) as (Hv & Hrange & Hmod).
        eexists; split; [reflexivity|]. cbv beta iota. split; [exact Hv|]. split; [exact Hrange|].
        apply Z.mod_divide in Hmod; [|lia]. destruct Hmod as (j & Ej).
        rewrite E1 in Eka. apply (ar_final _ _ _ _ _ _ Eka Ej Hm1).
      * eexists; split; [reflexivity|]. cbv beta iota. rewrite <- Hg2. exact E1.
    + pose proof (ar_det2 _ _ _ _ _ _ _ Hdet' Dts) as Hdet2. pose proof (ar_b1 _ _ _ Ha' Hb0 Q2) as Hb'.
      pose proof (ar_b _ _ _ _ _ Hdet2 Ha' ltac:(lia) ltac:(lia) ltac:(lia)) as Bm.
      assert (P2 : 0 <= value a' * value q2) by (apply Z.mul_nonneg_nonneg; lia).
      destruct (submul_spec c b a' q2 K Hb Hva Hq2 Hroom ltac:(lia) ltac:(lia)) as (Hvb & Evb); [lia | lia | lia |].
      cbn [iv_t inv_ok]. split; [|lia].
      assert (Ss' : (size s' <= K)%nat) by (assert (size s' <= size s)%nat by (apply (size_le c); [assumption|assumption|lia]); lia).
      assert (St' : (size t' <= K)%nat) by (assert (size t' <= size t)%nat by (apply (size_le c); [assumption|assumption|lia]); lia).
      rewrite <- Evb in *.
      do 4 (split; [assumption|]). do 2 (split; [lia|]). do 2 (split; [assumption|]). split; [assumption|]. split; [lia|]. split; [lia|].
      split; [exact Hdet2|]. split; [eexists; exact Eka|].
      split; [eexists; rewrite Evb; apply (ar_cong _ _ _ _ _ _ _ _ _ _ Ek2 Eka Dts)|]. exact Hg2.
Qed.

Lemma modinv_spec c y x m : storage_ok c y -> valid c x -> valid c m -> 0 < value x -> 1 < value m ->
  room c (Nat.max (size x) (size m) + 1) -> inv_result c x m (modinv c y x m).
Proof.
  intros Hy Hx Hm Px Pm Hroom. unfold modinv. rewrite !(is_zero_value c), !(is_one_value c) by assumption.
  replace (value m =? 0) with false by lia. replace (value x =? 0) with false by lia. replace (value m =? 1) with false by lia. cbn [negb check bind].
  destruct (Z.eqb_spec (value x) 1) as [E1|E1].
  { eexists; split; [reflexivity|]. cbv beta iota.
    destruct (assign_int_spec c y 1 Hy (valid_room1 c x Hx)) as (A & E & _); [rewrite B_val; lia|].
    split; [exact A|]. rewrite E, E1. split; [lia|]. apply Z.mod_1_l. lia. }
  destruct (div_mod_spec c (Some (zero c)) (zero c) m x (zero_storage c x Hx) Hm Hx ltac:(lia) (zero_storage c x Hx)) as (q' & t & -> & Ht & Et & Hq).
  destruct q' as [q|]; [|contradiction]. destruct Hq as (Hq & Eq). cbn [bind]. rewrite (is_zero_value c t Ht).
  rewrite Z.quot_div_nonneg in Eq by lia. rewrite Z.rem_mod_nonneg in Et by lia.
  pose proof (Z.div_mod (value m) (value x) ltac:(lia)) as D. pose proof (Z.mod_pos_bound (value m) (value x) ltac:(lia)) as M.
  rewrite <- Eq, <- Et in D. rewrite <- Et in M.
  assert (Hg : Z.gcd (value x) (value t) = Z.gcd (value x) (value m)).
  { rewrite Et, (Z.gcd_comm (value x) (value m mod value x)), Z.gcd_mod by lia. apply Z.gcd_comm || reflexivity. }
  destruct (Z.eqb_spec (value t) 0) as [E0|E0].
  { eexists; split; [reflexivity|]. cbv beta iota. rewrite <- Hg, E0, Z.gcd_0_r. lia. }
  assert (Q0 : 0 <= value q) by (rewrite Eq; apply Z.div_pos; lia).
  apply (run_loop_ind (modinv_step c m) (inv_ok c (Nat.max (size x) (size m)) x m) (inv_result c x m) (fun st => value (iv_t st))).
  - intros [s0 t0 a0 b0] (_ & _ & _ & _ & _ & H & _). cbn [iv_t]. lia.
  - intros st Hst. apply (modinv_step_spec c (Nat.max (size x) (size m)) x m st); try assumption. lia.
  - destruct (of_int1 c x Hx) as (V1 & E11 & _). destruct (neg_op_spec c q Hq) as (Vn & En).
    cbn [inv_ok]. rewrite E11, En. do 4 (split; [assumption|]). split; [lia|]. split; [lia|]. split; [lia|].
    split; [assert (size t <= size x)%nat by (apply (size_le c); [assumption|assumption|lia]); lia|].
    split; [lia|]. split; [lia|]. split; [intros; assert (Eq0 : value q = 0) by lia; rewrite Eq0 in D; lia|]. split; [lia|].
    split; [exists 0; lia|]. split; [exists (-1); lia|]. exact Hg.
  - cbn [iv_t]. pose proof (fuel_bound c x Hx). lia.
Qed.
