(** modinv of a negative number (bigint.hpp:2187-2296): truncating division keeps the remainders
    s negative and t positive, so that the loop only ever recognises a gcd of one in t. *)
From Coq Require Import List ZArith Bool Lia PeanoNat Znumtheory.
From Coq Require Import ZifyBool ZifyNat ZifyN.
From Verif Require Import Outcome LoopModel LoopProofs BitLemmas WordsModel WordsSpec WordsProofs DivProofs
  UtilsSpec BigintModel BigintSpec BigintProofs BigintBits BigintBytes BigintClosure BigintClaims NumModel NumProofs NumClaims NegInvSpec.
Import ListNotations.
Open Scope Z_scope.

Lemma divisions_fun a b k k' : divisions a b k -> divisions a b k' -> k = k'.
Proof.
  intros H. revert k'. induction H as [a|a b k Pb H IH]; intros k' H'; inversion H'; subst; try lia.
  f_equal. apply IH. assumption.
Qed.
Lemma divisions_total a b : 0 <= b -> exists k, divisions a b k.
Proof.
  intros Hb. revert a. pattern b. apply Zlt_0_ind; [|exact Hb]. clear b Hb. intros b IH Hb a.
  destruct (Z.eq_dec b 0) as [->|N]; [exists 0%nat; constructor|].
  destruct (IH (a mod b) ltac:(pose proof (Z.mod_pos_bound a b); lia) b) as (k & Hk). exists (S k). constructor; [lia|exact Hk].
Qed.

(** a -= b * q in place, q of either sign *)
Lemma submul_any c a b q K : valid c a -> valid c b -> valid c q -> room c (K + 1) -> (1 <= K)%nat ->
  Z.abs (value b * value q) < Bn K -> (value b = 0 -> (size q <= K)%nat) -> Z.abs (value a) < Bn K -> value q <> 0 ->
  valid c (sub c a a (op_mul c b q)) /\ value (sub c a a (op_mul c b q)) = value a - value b * value q.
Proof.
  intros Ha Hb Hq Hr HK Hbq H0 Hak Hqp.
  assert (Hroom : room c (size b + size q)).
  { eapply room_le; [exact Hr|]. destruct (Z.eq_dec (value b) 0) as [E|E].
    - specialize (H0 E). pose proof Hb as (_ & Sb & _).
      assert (size b <= 1)%nat. { apply (size_le_iff c b 1 Hb); [lia|]. rewrite (proj1 (value_zero_iff b) E). apply Bn_pos. }
      lia.
    - apply (size_product c); try assumption; lia. }
  destruct (mul_spec c false false (zero c) b q) as (r & Er & Hvr & Evr); try assumption; try discriminate.
  { eapply zero_storage; exact Hb. }
  unfold op_mul. rewrite Er. cbn [snd].
  assert (Sr : (size r <= K)%nat). { apply (size_le_iff c r K Hvr HK). rewrite (abs_magnitude c) by assumption. rewrite Evr. exact Hbq. }
  assert (Sa : (size a <= K)%nat). { apply (size_le_iff c a K Ha HK). rewrite (abs_magnitude c) by assumption. exact Hak. }
  destruct (sub_spec c a a r (valid_storage _ _ Ha) Ha Hvr) as (Hv & E). { eapply room_le; [exact Hr|]. lia. }
  split; [exact Hv|]. rewrite E, Evr. reflexivity.
Qed.

(** dividing a negative by a positive number and the other way round *)
Lemma divmod_np c x y : valid c x -> valid c y -> 0 < value y -> value x <= 0 ->
  exists q r, div_mod c (Some (zero c)) x x y = Ok (true, Some q, r) /\ valid c q /\ valid c r /\
    - value q = (- value x) / value y /\ - value r = (- value x) mod value y.
Proof.
  intros Hx Hy Py Px.
  destruct (div_mod_spec c (Some (zero c)) x x y (valid_storage _ _ Hx) Hx Hy ltac:(lia) (zero_storage c x Hx)) as (q' & r' & E & Hr & Er & Hq).
  destruct q' as [q|]; [|contradiction]. destruct Hq as (Hq & Eq). exists q, r'. rewrite Er, Eq.
  split; [exact E|]. split; [exact Hq|]. split; [exact Hr|].
  rewrite <- Z.quot_div_nonneg, <- Z.rem_mod_nonneg by lia. rewrite Z.quot_opp_l, Z.rem_opp_l by lia. lia.
Qed.
Lemma divmod_pn c x y d : storage_ok c d -> valid c x -> valid c y -> value y < 0 -> 0 <= value x ->
  exists q r, div_mod c (Some (zero c)) d x y = Ok (true, Some q, r) /\ valid c q /\ valid c r /\
    - value q = value x / (- value y) /\ value r = value x mod (- value y).
Proof.
  intros Hd Hx Hy Py Px.
  destruct (div_mod_spec c (Some (zero c)) d x y Hd Hx Hy ltac:(lia) (zero_storage c x Hx)) as (q' & r' & E & Hr & Er & Hq).
  destruct q' as [q|]; [|contradiction]. destruct Hq as (Hq & Eq). exists q, r'. rewrite Er, Eq.
  split; [exact E|]. split; [exact Hq|]. split; [exact Hr|].
  rewrite <- Z.quot_div_nonneg, <- Z.rem_mod_nonneg by lia. rewrite Z.quot_opp_r, Z.rem_opp_r by lia. lia.
Qed.

Definition ninv_ok (c : cap) (K : nat) (x m : bigint) (st : inv_state) : Prop :=
  let '(mkinv s t a b) := st in
  valid c s /\ valid c t /\ valid c a /\ valid c b /\
  value t < - value s /\ 0 < value t /\ (size s <= K)%nat /\ (size t <= K)%nat /\
  1 <= value a /\ 0 <= value b /\ (value b = 0 -> value t = value m) /\
  value a * value t - (- value b) * (- value s) = value m /\
  (exists k, value a * value x = value s + k * value m) /\
  (exists k, value b * value x = value t + k * value m) /\
  Z.gcd (- value s) (value t) = Z.gcd (value x) (value m) /\
  (forall k, divisions (- value s) (value t) k -> exists k', divisions (value m) (- value x) k' /\ Nat.even k' = negb (Nat.even k)).

Definition ninv_result (c : cap) (x m : bigint) (o : pow_res) : Prop :=
  exists r k, o = Ok r /\ divisions (value m) (- value x) k /\
  match r with
  | Some y => valid c y /\ 0 <= value y < value m /\ (value x * value y) mod value m = 1 /\ Nat.even k = true
  | None => Z.gcd (value x) (value m) <> 1 \/ Nat.even k = false
  end.

Lemma modinv_step_neg c K x m st : valid c x -> valid c m -> 1 < value m -> room c (K + 1) -> (size m <= K)%nat ->
  ninv_ok c K x m st ->
  match modinv_step c m st with
  | Next st' => ninv_ok c K x m st' /\ value (iv_t st') < value (iv_t st)
  | Done o => ninv_result c x m o
  end.
Proof.
  intros Hx Hm Hm1 Hroom HK. destruct st as [s t a b]. cbn [ninv_ok modinv_step iv_t].
  intros (Hs & Ht & Ha & Hb & Hst & Ht0 & Ss & St & Ha1 & Hb0 & Hbt & Hdet & (k1 & Ek1) & (k2 & Ek2) & Hg & HD).
  pose proof Hm as (_ & Sm & _).
  assert (HmK : value m < Bn K). { pose proof (proj1 (size_le_iff c m K Hm ltac:(lia)) HK) as H. rewrite (abs_magnitude c) in H by assumption. lia. }
  destruct (divmod_np c s t Hs Ht Ht0 ltac:(lia)) as (q & s' & -> & Hq & Hs' & Eq & Es').
  rewrite (is_zero_value c s' Hs').
  pose proof (Z.div_mod (- value s) (value t) ltac:(lia)) as Dst. pose proof (Z.mod_pos_bound (- value s) (value t) ltac:(lia)) as Mst.
  rewrite <- Eq, <- Es' in Dst. rewrite <- Es' in Mst.
  pose proof (ar_q _ _ _ _ Dst Mst ltac:(lia)) as Q1.
  assert (Hg' : Z.gcd (- value s') (value t) = Z.gcd (value x) (value m)).
  { rewrite <- Hg, Es', Z.gcd_mod, Z.gcd_comm by lia. reflexivity. }
  destruct (Z.eqb_spec (value s') 0) as [E0|E0].
  - (* s became zero *)
    assert (Dk : divisions (- value s) (value t) 1). { constructor; [exact Ht0|]. rewrite <- Es', E0. constructor. }
    destruct (HD _ Dk) as (k' & Hk' & Ev).
    rewrite (is_one_value c t Ht). rewrite E0 in Hg'. change (- 0) with 0 in Hg'. rewrite Z.gcd_0_l, Z.abs_eq in Hg' by lia.
    destruct (Z.eqb_spec (value t) 1) as [E1|E1].
    + assert (Hbn : value b <> 0) by (intros H; specialize (Hbt H); lia).
      destruct (add_if_neg_spec c b m K Hb Hm Hm1 Hroom HK Hbn ltac:(pose proof (ar_b _ _ _ _ _ Hdet Ha1 ltac:(lia) Ht0 Hst); lia)) as (Hv & Hrange & Hmod).
      exists (Some (add_if_neg c b m)), k'; split; [reflexivity|]. split; [exact Hk'|]. cbv beta iota. split; [exact Hv|]. split; [exact Hrange|].
      split; [|exact Ev].
      apply Z.mod_divide in Hmod; [|lia]. destruct Hmod as (j & Ej).
      rewrite E1 in Ek2. apply (ar_final _ _ _ _ _ _ Ek2 Ej Hm1).
    + exists None, k'; split; [reflexivity|]. split; [exact Hk'|]. cbv beta iota. left. rewrite <- Hg'. exact E1.
  - (* a -= b q *)
    pose proof (ar_det _ _ _ _ _ _ _ Hdet Dst) as Hdet'. pose proof (ar_a1 (value a) (- value b) (- value q) Ha1 ltac:(lia) Q1) as Ha'.
    pose proof (ar_bq (value a) (- value b) (- value q) Ha1 ltac:(lia) Q1) as Abq0. pose proof (ar_a _ _ _ _ _ Hdet' Ha' ltac:(lia) Ht0 ltac:(lia)) as Am.
    pose proof (ar_a _ _ _ _ _ Hdet Ha1 ltac:(lia) Ht0 ltac:(lia)) as Am0.
    rewrite Z.mul_opp_opp in Abq0, Ha', Am, Hdet'.
    assert (Abq : Z.abs (value b * value q) < Bn K) by lia.
    destruct (submul_any c a b q K Ha Hb Hq Hroom ltac:(lia) Abq) as (Hva & Eva); [| lia | lia |].
    { intros _. assert (size q <= size s)%nat; [|lia]. apply (size_le c); [assumption|assumption|]. pose proof (ar_qs _ _ _ _ Dst ltac:(lia) Ht0 ltac:(lia)). lia. }
    set (a' := sub c a a (op_mul c b q)) in *.
    assert (Dst' : value s = value t * value q + value s') by lia.
    pose proof (ar_cong _ _ _ _ _ _ _ _ _ _ Ek1 Ek2 Dst') as Eka. rewrite <- Eva in *.
    destruct (divmod_pn c t s' t (valid_storage _ _ Ht) Ht Hs' ltac:(lia) ltac:(lia)) as (q2 & t' & -> & Hq2 & Ht' & Eq2 & Et').
    rewrite (is_zero_value c t' Ht').
    pose proof (Z.div_mod (value t) (- value s') ltac:(lia)) as Dts. pose proof (Z.mod_pos_bound (value t) (- value s') ltac:(lia)) as Mts.
    rewrite <- Eq2, <- Et' in Dts. rewrite <- Et' in Mts.
    pose proof (ar_q _ _ _ _ Dts Mts ltac:(lia)) as Q2.
    assert (Hg2 : Z.gcd (- value s') (value t') = Z.gcd (value x) (value m)).
    { rewrite <- Hg', Et'. rewrite (Z.gcd_comm (- value s') (value t mod - value s')), Z.gcd_mod by lia. apply Z.gcd_comm || reflexivity. }
    assert (Dk : forall k, divisions (- value s') (value t') k -> divisions (- value s) (value t) (S (S k))).
    { intros k Hk. constructor; [exact Ht0|]. rewrite <- Es'. constructor; [lia|]. rewrite <- Et'. exact Hk. }
    destruct (Z.eqb_spec (value t') 0) as [E0'|E0'].
    + rewrite (is_one_value c s' Hs'). replace (value s' =? 1) with false by lia.
      specialize (Dk 0%nat). rewrite E0' in Dk. destruct (HD _ (Dk (D_end _))) as (k' & Hk' & Ev).
      exists None, k'. split; [reflexivity|]. split; [exact Hk'|]. right. exact Ev.
    + pose proof (ar_det2 _ _ _ _ _ _ _ Hdet' Dts) as Hdet2. pose proof (ar_b1 (value a') (- value b) (- value q2) Ha' ltac:(lia) Q2) as Hb'.
      pose proof (ar_b _ _ _ _ _ Hdet2 Ha' ltac:(lia) ltac:(lia) ltac:(lia)) as Bm.
      assert (P2 : 0 <= value a' * (- value q2)) by (apply Z.mul_nonneg_nonneg; lia).
      destruct (submul_any c b a' q2 K Hb Hva Hq2 Hroom ltac:(lia) ltac:(lia)) as (Hvb & Evb); [lia | lia | lia |].
      cbn [iv_t ninv_ok]. split; [|lia].
      assert (Ss' : (size s' <= K)%nat) by (assert (size s' <= size s)%nat by (apply (size_le c); [assumption|assumption|lia]); lia).
      assert (St' : (size t' <= K)%nat) by (assert (size t' <= size t)%nat by (apply (size_le c); [assumption|assumption|lia]); lia).
      set (b' := sub c b b (op_mul c a' q2)) in *.
      do 4 (split; [assumption|]). do 2 (split; [lia|]). do 2 (split; [assumption|]). split; [assumption|]. split; [lia|]. split; [lia|].
      split; [rewrite <- Hdet2; rewrite Evb; ring|]. split; [eexists; exact Eka|].
      assert (Dts' : value t = value s' * value q2 + value t') by lia.
      split; [eexists; rewrite Evb; apply (ar_cong _ _ _ _ _ _ _ _ _ _ Ek2 Eka Dts')|]. split; [exact Hg2|].
      intros k Hk. destruct (HD _ (Dk k Hk)) as (k' & Hk' & Ev). exists k'. split; [exact Hk'|]. exact Ev.
Qed.

Lemma modinv_neg_spec c y x m : storage_ok c y -> valid c x -> valid c m -> value x < 0 -> 1 < value m ->
  room c (Nat.max (size x) (size m) + 1) -> ninv_result c x m (modinv c y x m).
Proof.
  intros Hy Hx Hm Px Pm Hroom. unfold modinv. rewrite !(is_zero_value c), !(is_one_value c) by assumption.
  replace (value m =? 0) with false by lia. replace (value x =? 0) with false by lia. replace (value x =? 1) with false by lia. cbn [negb check bind].
  destruct (divmod_pn c m x (zero c) (zero_storage c x Hx) Hm Hx Px ltac:(lia)) as (q & t & -> & Hq & Ht & Eq & Et). cbn [bind].
  rewrite (is_zero_value c t Ht).
  pose proof (Z.div_mod (value m) (- value x) ltac:(lia)) as D. pose proof (Z.mod_pos_bound (value m) (- value x) ltac:(lia)) as M.
  rewrite <- Eq, <- Et in D. rewrite <- Et in M.
  assert (Hg : Z.gcd (- value x) (value t) = Z.gcd (value x) (value m)).
  { rewrite Et, (Z.gcd_comm (- value x) (value m mod - value x)), Z.gcd_mod by lia. rewrite Z.gcd_opp_l. reflexivity. }
  destruct (Z.eqb_spec (value t) 0) as [E0|E0].
  { exists None, 1%nat; split; [reflexivity|]. split; [constructor; [lia|]; rewrite <- Et, E0; constructor|]. right. reflexivity. }
  assert (Q0 : 0 <= - value q) by (rewrite Eq; apply Z.div_pos; lia).
  apply (run_loop_ind (modinv_step c m) (ninv_ok c (Nat.max (size x) (size m)) x m) (ninv_result c x m) (fun st => value (iv_t st))).
  - intros [s0 t0 a0 b0] (_ & _ & _ & _ & _ & H & _). cbn [iv_t]. lia.
  - intros st Hst. apply (modinv_step_neg c (Nat.max (size x) (size m)) x m st); try assumption. lia.
  - destruct (of_int1 c x Hx) as (V1 & E11 & _). destruct (neg_op_spec c q Hq) as (Vn & En).
    cbn [ninv_ok]. rewrite E11, En. do 4 (split; [assumption|]). split; [lia|]. split; [lia|]. split; [lia|].
    split; [assert (size t <= size x)%nat by (apply (size_le c); [assumption|assumption|lia]); lia|].
    split; [lia|]. split; [lia|]. split; [intros; assert (Eq0 : value q = 0) by lia; rewrite Eq0 in D; lia|]. split; [lia|].
    split; [exists 0; lia|]. split; [exists (-1); lia|]. split; [exact Hg|].
    intros k Hk. exists (S k). split; [constructor; [lia|]; rewrite <- Et; exact Hk|]. rewrite Nat.even_succ, <- Nat.negb_even. reflexivity.
  - cbn [iv_t]. pose proof (fuel_bound c x Hx). lia.
Qed.
