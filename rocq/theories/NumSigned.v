(** gcd, lcm and modinv with operands of either sign, jacobi with an even second argument. *)
From Coq Require Import List ZArith Bool Lia PeanoNat Znumtheory.
From Coq Require Import ZifyBool ZifyNat ZifyN.
From Verif Require Import Outcome LoopModel LoopProofs BitLemmas WordsModel WordsSpec WordsProofs DivProofs
  UtilsSpec BigintModel BigintSpec BigintProofs BigintBits BigintBytes BigintClosure BigintClaims NumModel NumProofs NumClaims NumLcm NegInvSpec NegInvProofs.
Import ListNotations.
Open Scope Z_scope.

(** *** gcd *)
Lemma gcd_nonpos c x y : valid c x -> valid c y -> value x <= 0 -> value y <= 0 ->
  exists r, gcd c x y = Ok r /\ valid c r /\ value r = - Z.gcd (value x) (value y).
Proof.
  intros Hx Hy Px Py. destruct (gcd_spec c x y Hx Hy) as (r0 & E0 & V0 & A0 & _).
  assert (H : exists r, gcd c x y = Ok r /\ value r <= 0).
  { unfold gcd. apply (run_loop_ind (gcd_step c)
    (fun st => valid c (fst st) /\ valid c (snd st) /\ value (fst st) <= 0 /\ value (snd st) <= 0)
    (fun o => exists r, o = Ok r /\ value r <= 0) (fun st => Z.abs (value (snd st)))).
    - intros. lia.
    - intros [u v] (Hu & Hv & Pu & Pv). cbn [fst snd gcd_step] in *. rewrite (is_zero_value c v Hv). destruct (Z.eqb_spec (value v) 0) as [E|E].
      + exists u. auto.
      + destruct (mod_r_spec c v u v (valid_storage _ _ Hv) Hu Hv E) as (r & -> & Hr & Er). cbn [fst snd].
        split; [|rewrite Er; apply Z.rem_bound_abs; exact E]. split; [exact Hv|]. split; [exact Hr|]. split; [exact Pv|]. rewrite Er. apply Z.rem_nonpos; assumption.
    - cbn [fst snd]. auto.
    - cbn [fst snd]. apply (fuel_bound c); assumption. }
  destruct H as (r & E & P). rewrite E0 in E. injection E as <-. exists r0. split; [exact E0|]. split; [exact V0|]. lia.
Qed.

(** *** lcm *)
Lemma lcm_any c z x y : valid c z -> valid c x -> valid c y -> (value x <> 0 \/ value y <> 0) -> room c (size x + size y) ->
  ~ (2 ^ 32 <= Z.gcd (value x) (value y) /\ (Z.log2 (Z.gcd (value x) (value y)) + 1) mod 32 = 0 /\
     2 ^ (Z.log2 (Z.gcd (value x) (value y)) + 1) <= Z.abs (value x)) ->
  exists r g, lcm c z x y = Ok r /\ gcd c x y = Ok g /\ valid c r /\ value g * value r = value x * value y /\ Z.abs (value r) = Z.lcm (value x) (value y).
Proof.
  intros Hz Hx Hy Hnz Hroom Hcl. unfold lcm. destruct (gcd_spec c x y Hx Hy) as (g & -> & Hg & Eg & _). cbn [bind].
  assert (Hg0 : value g <> 0). { intros H. rewrite H in Eg. symmetry in Eg. apply Z.gcd_eq_0 in Eg. lia. }
  destruct (div_q_spec c g x g (valid_storage _ _ Hg) Hx Hg Hg0) as (q & Eq & Hq & Evq).
  rewrite (div_in_place_harmless c x g q Hx Hg); [| |exact Eq].
  2: { destruct (clobbers x g) eqn:E; [|reflexivity]. exfalso. apply Hcl. apply (clobbers_value c x g Hx Hg) in E. rewrite Eg in E. exact E. }
  cbn [bind].
  assert (Dx : exists k, value x = k * value g).
  { destruct (Z.gcd_divide_l (value x) (value y)) as (k & Ek). rewrite <- Eg in Ek. destruct (Z.abs_spec (value g)) as [[_ A]|[_ A]]; rewrite A in Ek; [exists k; exact Ek|exists (- k); lia]. }
  destruct Dx as (k & Ek). assert (Eqk : value q = k). { rewrite Evq, Ek. apply Z.quot_mul. exact Hg0. }
  assert (Sq : (size q <= size x)%nat). { apply (size_le c); [assumption|assumption|]. rewrite Eqk, Ek, Z.abs_mul. rewrite <- (Z.mul_1_r (Z.abs k)) at 1. apply Z.mul_le_mono_nonneg_l; lia. }
  destruct (mul_spec c false false z q y (valid_storage _ _ Hz) Hq Hy) as (r & -> & Hr & Er); try discriminate.
  { eapply room_le; [exact Hroom|]. lia. }
  exists r, g. split; [reflexivity|]. split; [reflexivity|]. split; [exact Hr|].
  assert (Eqn : value g * value r = value x * value y) by (rewrite Er, Eqk, Ek; ring). split; [exact Eqn|].
  assert (P : Z.gcd (value x) (value y) * Z.lcm (value x) (value y) = Z.abs (value x * value y)).
  { unfold Z.lcm. destruct (Z.gcd_divide_r (value x) (value y)) as (j & Ej).
    remember (Z.gcd (value x) (value y)) as d eqn:Ed. assert (Dp : 0 < d) by lia. clear - Ej Dp. rewrite Ej, Z.div_mul by lia. rewrite !Z.abs_mul. rewrite (Z.abs_eq d) by lia. ring. }
  rewrite <- Eqn, Z.abs_mul, Eg in P. apply Z.mul_reg_l with (2 := eq_sym P). lia.
Qed.
Lemma lcm_nonpos c z x y : valid c z -> valid c x -> valid c y -> value x < 0 -> value y < 0 -> room c (size x + size y) ->
  ~ (2 ^ 32 <= Z.gcd (value x) (value y) /\ (Z.log2 (Z.gcd (value x) (value y)) + 1) mod 32 = 0 /\
     2 ^ (Z.log2 (Z.gcd (value x) (value y)) + 1) <= Z.abs (value x)) ->
  exists r, lcm c z x y = Ok r /\ valid c r /\ value r = - Z.lcm (value x) (value y).
Proof.
  intros Hz Hx Hy Px Py Hr Hc. destruct (lcm_any c z x y Hz Hx Hy ltac:(lia) Hr Hc) as (r & g & E & Eg & V & P & A). exists r. split; [exact E|]. split; [exact V|].
  destruct (gcd_nonpos c x y Hx Hy ltac:(lia) ltac:(lia)) as (g' & Eg' & _ & Vg). rewrite Eg in Eg'. injection Eg' as <-.
  pose proof (Z.gcd_nonneg (value x) (value y)) as G0. assert (N : 0 < value x * value y) by (apply Z.mul_neg_neg; assumption).
  assert (value g < 0). { destruct (Z.eq_dec (value g) 0) as [Z0|]; [rewrite Z0 in P; lia|lia]. }
  assert (value r < 0). { destruct (Z.lt_ge_cases (value r) 0) as [Hn|Hn]; [exact Hn|]. pose proof (Z.mul_nonpos_nonneg (value g) (value r) ltac:(lia) ltac:(lia)). lia. } lia.
Qed.

(** *** modinv, modulus negative *)
Definition pinv_ok (c : cap) (K : nat) (x m : bigint) (st : inv_state) : Prop :=
  let '(mkinv s t a b) := st in
  valid c s /\ valid c t /\ valid c a /\ valid c b /\
  - value t < value s /\ value t < 0 /\ (size s <= K)%nat /\ (size t <= K)%nat /\
  1 <= value a /\ 0 <= value b /\
  value a * (- value t) - (- value b) * value s = - value m /\
  (exists k, value a * value x = value s + k * value m) /\
  (exists k, value b * value x = value t + k * value m) /\
  Z.gcd (value s) (value t) = Z.gcd (value x) (value m) /\
  (forall k, divisions (value s) (- value t) k -> exists k', divisions (- value m) (value x) k' /\ Nat.even k' = negb (Nat.even k)).

Definition pinv_result (c : cap) (x m : bigint) (o : pow_res) : Prop :=
  exists r k, o = Ok r /\ divisions (- value m) (value x) k /\
  match r with
  | Some y => valid c y /\ 0 <= value y < - value m /\ (value x * value y) mod (- value m) = 1 /\ Nat.even k = false
  | None => Z.gcd (value x) (value m) <> 1 \/ Nat.even k = true
  end.

Lemma divmod_pn' c x y : valid c x -> valid c y -> value y < 0 -> 0 <= value x ->
  exists q r, div_mod c (Some (zero c)) x x y = Ok (true, Some q, r) /\ valid c q /\ valid c r /\
    - value q = value x / (- value y) /\ value r = value x mod (- value y).
Proof. intros Hx. apply (divmod_pn c x y x (valid_storage _ _ Hx) Hx). Qed.
Lemma divmod_np' c x y d : storage_ok c d -> valid c x -> valid c y -> 0 < value y -> value x <= 0 ->
  exists q r, div_mod c (Some (zero c)) d x y = Ok (true, Some q, r) /\ valid c q /\ valid c r /\
    - value q = (- value x) / value y /\ - value r = (- value x) mod value y.
Proof.
  intros Hd Hx Hy Py Px.
  destruct (div_mod_spec c (Some (zero c)) d x y Hd Hx Hy ltac:(lia) (zero_storage c x Hx)) as (q' & r' & E & Hr & Er & Hq).
  destruct q' as [q|]; [|contradiction]. destruct Hq as (Hq & Eq). exists q, r'. rewrite Er, Eq.
  split; [exact E|]. split; [exact Hq|]. split; [exact Hr|].
  rewrite <- Z.quot_div_nonneg, <- Z.rem_mod_nonneg by lia. rewrite Z.quot_opp_l, Z.rem_opp_l by lia. lia.
Qed.

Lemma modinv_step_negm c K x m st : valid c x -> valid c m -> value m < -1 -> room c (K + 1) -> (size m <= K)%nat ->
  pinv_ok c K x m st ->
  match modinv_step c m st with
  | Next st' => pinv_ok c K x m st' /\ - value (iv_t st') < - value (iv_t st)
  | Done o => pinv_result c x m o
  end.
Proof.
  intros Hx Hm Hm1 Hroom HK. destruct st as [s t a b]. cbn [pinv_ok modinv_step iv_t].
  intros (Hs & Ht & Ha & Hb & Hst & Ht0 & Ss & St & Ha1 & Hb0 & Hdet & (k1 & Ek1) & (k2 & Ek2) & Hg & HD).
  pose proof Hm as (_ & Sm & _).
  assert (HmK : - value m < Bn K). { pose proof (proj1 (size_le_iff c m K Hm ltac:(lia)) HK) as H. rewrite (abs_magnitude c) in H by assumption. lia. }
  destruct (divmod_pn' c s t Hs Ht Ht0 ltac:(lia)) as (q & s' & -> & Hq & Hs' & Eq & Es').
  rewrite (is_zero_value c s' Hs').
  pose proof (Z.div_mod (value s) (- value t) ltac:(lia)) as Dst. pose proof (Z.mod_pos_bound (value s) (- value t) ltac:(lia)) as Mst.
  rewrite <- Eq, <- Es' in Dst. rewrite <- Es' in Mst.
  pose proof (ar_q _ _ _ _ Dst Mst ltac:(lia)) as Q1.
  assert (Hg' : Z.gcd (value s') (value t) = Z.gcd (value x) (value m)).
  { rewrite <- Hg, Es', <- (Z.gcd_opp_r (value s mod - value t)), Z.gcd_mod, Z.gcd_opp_l, Z.gcd_comm by lia. reflexivity. }
  destruct (Z.eqb_spec (value s') 0) as [E0|E0].
  - assert (Dk : divisions (value s) (- value t) 1). { constructor; [lia|]. rewrite <- Es', E0. constructor. }
    destruct (HD _ Dk) as (k' & Hk' & Ev).
    rewrite (is_one_value c t Ht). replace (value t =? 1) with false by lia.
    exists None, k'. split; [reflexivity|]. split; [exact Hk'|]. right. exact Ev.
  - pose proof (ar_det _ _ _ _ _ _ _ Hdet Dst) as Hdet'. pose proof (ar_a1 (value a) (- value b) (- value q) Ha1 ltac:(lia) Q1) as Ha'.
    pose proof (ar_bq (value a) (- value b) (- value q) Ha1 ltac:(lia) Q1) as Abq0. pose proof (ar_a _ _ _ _ _ Hdet' Ha' ltac:(lia) ltac:(lia) ltac:(lia)) as Am.
    pose proof (ar_a _ _ _ _ _ Hdet Ha1 ltac:(lia) ltac:(lia) ltac:(lia)) as Am0.
    rewrite Z.mul_opp_opp in Abq0, Ha', Am, Hdet'.
    assert (Abq : Z.abs (value b * value q) < Bn K) by lia.
    destruct (submul_any c a b q K Ha Hb Hq Hroom ltac:(lia) Abq) as (Hva & Eva); [| lia | lia |].
    { intros _. assert (size q <= size s)%nat; [|lia]. apply (size_le c); [assumption|assumption|]. pose proof (ar_qs _ _ _ _ Dst ltac:(lia) ltac:(lia) ltac:(lia)). lia. }
    set (a' := sub c a a (op_mul c b q)) in *.
    assert (Dst' : value s = value t * value q + value s') by lia.
    pose proof (ar_cong _ _ _ _ _ _ _ _ _ _ Ek1 Ek2 Dst') as Eka. rewrite <- Eva in *.
    destruct (divmod_np' c t s' t (valid_storage _ _ Ht) Ht Hs' ltac:(lia) ltac:(lia)) as (q2 & t' & -> & Hq2 & Ht' & Eq2 & Et').
    rewrite (is_zero_value c t' Ht').
    pose proof (Z.div_mod (- value t) (value s') ltac:(lia)) as Dts. pose proof (Z.mod_pos_bound (- value t) (value s') ltac:(lia)) as Mts.
    rewrite <- Eq2, <- Et' in Dts. rewrite <- Et' in Mts.
    pose proof (ar_q _ _ _ _ Dts Mts ltac:(lia)) as Q2.
    assert (Hg2 : Z.gcd (value s') (value t') = Z.gcd (value x) (value m)).
    { rewrite <- Hg', <- (Z.gcd_opp_r (value s') (value t')), Et', Z.gcd_comm, Z.gcd_mod by lia. apply Z.gcd_opp_r. }
    assert (Dk : forall k, divisions (value s') (- value t') k -> divisions (value s) (- value t) (S (S k))).
    { intros k Hk. constructor; [lia|]. rewrite <- Es'. constructor; [lia|]. rewrite <- Et'. exact Hk. }
    destruct (Z.eqb_spec (value t') 0) as [E0'|E0'].
    + specialize (Dk 0%nat). rewrite E0' in Dk. destruct (HD _ (Dk (D_end _))) as (k' & Hk' & Ev).
      rewrite E0', Z.gcd_0_r, Z.abs_eq in Hg2 by lia. rewrite (is_one_value c s' Hs'). destruct (Z.eqb_spec (value s') 1) as [E1|E1].
      * assert (Na : neg a' = false). { destruct (neg a') eqn:Na; [|reflexivity]. exfalso. pose proof (magnitude_range c a' Hva). rewrite value_sgn, Na in Ha'. cbn in Ha'. lia. }
        unfold add_if_neg. rewrite Na. exists (Some a'), k'. split; [reflexivity|]. split; [exact Hk'|]. cbv beta iota. split; [exact Hva|].
        assert (Lt : value a' < - value m).
        { destruct (Z.eq_dec (value a') (- value m)) as [Ee|]; [|lia]. exfalso. rewrite E1 in Hdet', Eka.
          assert (De : (value m | 1)). { exists (- value x - (k1 - k2 * value q)). rewrite Ee in Eka. lia. } apply Z.divide_1_r in De. lia. }
        split; [lia|]. split; [|exact Ev].
        rewrite E1 in Eka. replace (value x * value a') with (1 + (- (k1 - k2 * value q)) * (- value m)) by lia. rewrite Z.mod_add by lia. apply Z.mod_small. lia.
      * exists None, k'. split; [reflexivity|]. split; [exact Hk'|]. left. rewrite <- Hg2. exact E1.
    + pose proof (ar_det2 _ _ _ _ _ _ _ Hdet' Dts) as Hdet2. pose proof (ar_b1 (value a') (- value b) (- value q2) Ha' ltac:(lia) Q2) as Hb'.
      pose proof (ar_b _ _ _ _ _ Hdet2 Ha' ltac:(lia) ltac:(lia) ltac:(lia)) as Bm.
      assert (P2 : 0 <= value a' * (- value q2)) by (apply Z.mul_nonneg_nonneg; lia).
      destruct (submul_any c b a' q2 K Hb Hva Hq2 Hroom ltac:(lia) ltac:(lia)) as (Hvb & Evb); [lia | lia | lia |].
      cbn [iv_t pinv_ok]. split; [|lia].
      assert (Ss' : (size s' <= K)%nat) by (assert (size s' <= size s)%nat by (apply (size_le c); [assumption|assumption|lia]); lia).
      assert (St' : (size t' <= K)%nat) by (assert (size t' <= size t)%nat by (apply (size_le c); [assumption|assumption|lia]); lia).
      set (b' := sub c b b (op_mul c a' q2)) in *.
      do 4 (split; [assumption|]). do 2 (split; [lia|]). do 2 (split; [assumption|]). split; [assumption|]. split; [lia|].
      split; [rewrite <- Hdet2; rewrite Evb; ring|]. split; [eexists; exact Eka|].
      assert (Dts' : value t = value s' * value q2 + value t') by lia.
      split; [eexists; rewrite Evb; apply (ar_cong _ _ _ _ _ _ _ _ _ _ Ek2 Eka Dts')|]. split; [exact Hg2|].
      intros k Hk. destruct (HD _ (Dk k Hk)) as (k' & Hk' & Ev). exists k'. split; [exact Hk'|]. exact Ev.
Qed.

Lemma modinv_negm_spec c y x m : valid c y -> valid c x -> valid c m -> 0 < value x -> value m < -1 ->
  room c (Nat.max (size x) (size m) + 1) -> pinv_result c x m (modinv c y x m).
Proof.
  intros Hy Hx Hm Px Pm Hroom. unfold modinv. rewrite !(is_zero_value c), !(is_one_value c) by assumption.
  replace (value m =? 0) with false by lia. replace (value x =? 0) with false by lia. replace (value m =? 1) with false by lia. cbn [negb check bind].
  destruct (Z.eqb_spec (value x) 1) as [X1|X1].
  { destruct (assign_int_spec c y 1 (valid_storage _ _ Hy) (valid_room1 c x Hx)) as (A & E & _); [rewrite B_val; lia|].
    exists (Some (assign_int y 1)), 1%nat. split; [reflexivity|]. rewrite X1. split; [constructor; [lia|]; rewrite Z.mod_1_r; constructor|]. cbv beta iota. rewrite E.
    split; [exact A|]. split; [lia|]. split; [apply Z.mod_small; lia|reflexivity]. }
  destruct (divmod_np' c m x (zero c) (zero_storage c x Hx) Hm Hx Px ltac:(lia)) as (q & t & -> & Hq & Ht & Eq & Et). cbn [bind].
  rewrite (is_zero_value c t Ht).
  pose proof (Z.div_mod (- value m) (value x) ltac:(lia)) as D. pose proof (Z.mod_pos_bound (- value m) (value x) ltac:(lia)) as M.
  rewrite <- Eq, <- Et in D. rewrite <- Et in M.
  assert (Hg : Z.gcd (value x) (value t) = Z.gcd (value x) (value m)).
  { rewrite <- Z.gcd_opp_r, Et, (Z.gcd_comm (value x)), Z.gcd_mod, Z.gcd_opp_r by lia. reflexivity. }
  destruct (Z.eqb_spec (value t) 0) as [E0|E0].
  { exists None, 1%nat; split; [reflexivity|]. split; [constructor; [lia|]; rewrite <- Et, E0; constructor|]. left. rewrite <- Hg, E0, Z.gcd_0_r. lia. }
  assert (Q0 : 0 <= - value q) by (rewrite Eq; apply Z.div_pos; lia).
  apply (run_loop_ind (modinv_step c m) (pinv_ok c (Nat.max (size x) (size m)) x m) (pinv_result c x m) (fun st => - value (iv_t st))).
  - intros [s0 t0 a0 b0] (_ & _ & _ & _ & _ & H & _). cbn [iv_t]. lia.
  - intros st Hst. apply (modinv_step_negm c (Nat.max (size x) (size m)) x m st); try assumption. lia.
  - destruct (of_int1 c x Hx) as (V1 & E11 & _). destruct (neg_op_spec c q Hq) as (Vn & En).
    cbn [pinv_ok]. rewrite E11, En. do 4 (split; [assumption|]). split; [lia|]. split; [lia|]. split; [lia|].
    split; [assert (size t <= size x)%nat by (apply (size_le c); [assumption|assumption|lia]); lia|].
    split; [lia|]. split; [lia|]. split; [lia|].
    split; [exists 0; lia|]. split; [exists (-1); lia|]. split; [exact Hg|].
    intros k Hk. exists (S k). split; [constructor; [lia|]; rewrite <- Et; exact Hk|]. rewrite Nat.even_succ, <- Nat.negb_even. reflexivity.
  - cbn [iv_t]. pose proof (fuel_bound c x Hx). lia.
Qed.

(** *** modinv, both negative *)
Lemma modinv_both_negative c y x m : valid c x -> valid c m -> value x < 0 -> value m < 0 -> modinv c y x m = Ok None.
Proof.
  intros Hx Hm Px Pm. unfold modinv. rewrite !(is_zero_value c), !(is_one_value c) by assumption.
  replace (value m =? 0) with false by lia. replace (value x =? 0) with false by lia. replace (value x =? 1) with false by lia. cbn [negb check bind].
  assert (DM : forall d a b, storage_ok c d -> valid c a -> valid c b -> value a < 0 -> value b < 0 ->
    exists q r, div_mod c (Some (zero c)) d a b = Ok (true, Some q, r) /\ valid c r /\ value r <= 0 /\ Z.abs (value r) < Z.abs (value b)).
  { intros d a b Hd Ha Hb Pa Pb. destruct (div_mod_spec c (Some (zero c)) d a b Hd Ha Hb ltac:(lia) (zero_storage c x Hx)) as (q' & r' & E & Hr & Er & Hq).
    destruct q' as [q|]; [|contradiction]. exists q, r'. split; [exact E|]. split; [exact Hr|]. rewrite Er. split; [apply Z.rem_nonpos; lia|apply Z.rem_bound_abs; lia]. }
  destruct (DM (zero c) m x (zero_storage c x Hx) Hm Hx Pm Px) as (q & t & -> & Ht & Pt & Bt). cbn [bind]. rewrite (is_zero_value c t Ht). destruct (Z.eqb_spec (value t) 0) as [E0|E0]; [reflexivity|].
  apply (run_loop_ind (modinv_step c m) (fun st => valid c (iv_s st) /\ valid c (iv_t st) /\ value (iv_s st) < 0 /\ value (iv_t st) < 0) (fun o => o = Ok None) (fun st => Z.abs (value (iv_t st)))).
  - intros. lia.
  - intros [s t1 a b] (Vs & Vt & Ps & Pt1). cbn [iv_s iv_t modinv_step] in *. destruct (DM s s t1 (valid_storage _ _ Vs) Vs Vt Ps Pt1) as (q1 & s' & -> & Vs' & Ps' & Bs').
    rewrite (is_zero_value c s' Vs'). destruct (Z.eqb_spec (value s') 0) as [E1|E1].
    + rewrite (is_one_value c t1 Vt). replace (value t1 =? 1) with false by lia. reflexivity.
    + destruct (DM t1 t1 s' (valid_storage _ _ Vt) Vt Vs' Pt1 ltac:(lia)) as (q2 & t' & -> & Vt' & Pt' & Bt').
      rewrite (is_zero_value c t' Vt'). destruct (Z.eqb_spec (value t') 0) as [E2|E2].
      * rewrite (is_one_value c s' Vs'). replace (value s' =? 1) with false by lia. reflexivity.
      * cbn [iv_s iv_t]. split; [do 2 (split; [assumption|]); split; lia|lia].
  - cbn [iv_s iv_t]. do 2 (split; [assumption|]); split; lia.
  - cbn [iv_t]. pose proof (fuel_bound c x Hx). lia.
Qed.
