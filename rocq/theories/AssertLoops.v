(** Builds with assertions: gcd, jacobi, modinv, to_naf, pow, modexp and lcm. *)
From Coq Require Import List ZArith Bool Lia PeanoNat Znumtheory.
From Coq Require Import ZifyBool ZifyNat ZifyN.
From Verif Require Import Outcome LoopModel LoopProofs BitLemmas WordsModel WordsSpec WordsProofs DivProofs
  UtilsSpec BigintModel BigintSpec BigintProofs BigintBits BigintBytes BigintClosure BigintClaims NumModel NumProofs NumPow NumLcm NumClaims
  AssertModel AssertSpec AssertProofs AssertRefine AssertSim.
Import ListNotations.
Open Scope Z_scope.

(** two loops with equal steps on an invariant *)
Lemma loop2_eq {S A} (d f : S -> loopres S A) (I : S -> Prop) :
  (forall s, I s -> d s = f s) -> (forall s s', I s -> f s = Next s' -> I s') ->
  forall k s, I s -> loop2 k d s = loop2 k f s /\ (forall s', loop2 k f s = Next s' -> I s').
Proof.
  intros H1 H2. induction k as [|k IH]; intros s Hs; cbn [loop2]; [split; [apply H1; exact Hs|intros s'; apply H2; exact Hs]|].
  destruct (IH s Hs) as (-> & P). destruct (loop2 k f s) as [s1|r]; [|split; [reflexivity|discriminate]]. apply IH. apply P. reflexivity.
Qed.
Lemma run_eq {S A} (d f : S -> loopres S (outcome A)) (I : S -> Prop) k s :
  (forall s, I s -> d s = f s) -> (forall s s', I s -> f s = Next s' -> I s') -> I s -> run_loop k d s = run_loop k f s.
Proof. intros H1 H2 Hs. unfold run_loop. destruct (loop2_eq d f I H1 H2 k s Hs) as (-> & _). reflexivity. Qed.
Lemma run_done {S A} (f : S -> loopres S (outcome A)) (I : S -> Prop) (P : outcome A -> Prop) k s :
  (forall s s', I s -> f s = Next s' -> I s') -> (forall s o, I s -> f s = Done o -> P o) -> P NoFuel -> I s -> P (run_loop k f s).
Proof.
  intros H1 H2 H3. unfold run_loop. assert (G : forall k s, I s -> match loop2 k f s with Next s' => I s' | Done o => P o end).
  { clear k s. induction k as [|k IH]; intros s Hs; cbn [loop2].
    - destruct (f s) eqn:E; [eapply H1; eassumption|eapply H2; eassumption].
    - pose proof (IH s Hs) as Q. destruct (loop2 k f s); [apply IH; exact Q|exact Q]. }
  intros Hs. pose proof (G k s Hs) as Q. destruct (loop2 k f s); [exact H3|exact Q].
Qed.

(** *** gcd *)
Definition both (c : cap) (s : bigint * bigint) : Prop := valid c (fst s) /\ valid c (snd s).
Lemma d_gcd_eq c x y : valid c x -> valid c y -> d_gcd c x y = gcd c x y.
Proof.
  intros Hx Hy. unfold d_gcd, gcd. apply (run_eq _ _ (both c)); [| |split; assumption].
  - intros [u v] (Hu & Hv). cbn [fst snd] in *. unfold d_gcd_step, gcd_step. destruct (is_zero v); [reflexivity|].
    rewrite (d_mod_r_eq c v u v (valid_storage _ _ Hv) Hu Hv). destruct (mod_r c v u v) as [[b r]| | |]; reflexivity.
  - intros [u v] s' (Hu & Hv). cbn [fst snd] in *. unfold gcd_step. rewrite (is_zero_value c v Hv). destruct (Z.eqb_spec (value v) 0); [discriminate|].
    destruct (mod_r_spec c v u v (valid_storage _ _ Hv) Hu Hv ltac:(assumption)) as (r & -> & Vr & _). intros E. injection E as <-. split; assumption.
Qed.

(** *** jacobi *)
Lemma d_ctz_eq c x : valid c x -> d_count_trailing_zero c x = count_trailing_zero x.
Proof.
  intros Hx. unfold d_count_trailing_zero, count_trailing_zero. apply (run_eq _ _ (fun s => valid c (fst s))); [| |exact Hx].
  - intros [u s] Hu. cbn [fst] in *. unfold d_ctz_step, ctz_step. destruct (is_even u); [|reflexivity]. rewrite (d_shr_eq c u u 1 Hu ltac:(lia)). reflexivity.
  - intros [u s] s' Hu. cbn [fst] in *. unfold ctz_step. destruct (is_even u); [|discriminate]. intros E. injection E as <-. cbn [fst]. apply (shr1_val c u Hu).
Qed.
Lemma ctz_valid c x x' s : valid c x -> count_trailing_zero x = Ok (x', s) -> valid c x'.
Proof.
  intros Hx. assert (H : (fun o => forall x' s, o = Ok (x', s) -> valid c x') (count_trailing_zero x)); [|intros E; eapply H; exact E].
  unfold count_trailing_zero. apply (run_done _ (fun s => valid c (fst s))); [| |discriminate|exact Hx].
  - intros [u t] s' Hu. cbn [fst] in *. unfold ctz_step. destruct (is_even u); [|discriminate]. intros E. injection E as <-. cbn [fst]. apply (shr1_val c u Hu).
  - intros [u t] o Hu. cbn [fst] in *. unfold ctz_step. destruct (is_even u); [discriminate|]. intros E. injection E as <-. intros x1 s1 E. injection E as <- <-. exact Hu.
Qed.
Lemma compares1_ok x y : y <> - 2 ^ 31 -> d_compares1 x y = Ok (compares1 x y).
Proof. intros N. unfold d_compares1, invalid_var. rewrite (proj2 (Z.eqb_neq _ _) N). reflexivity. Qed.

Lemma swap_valid c m n r : valid c m -> valid c n -> mod_r c (zero c) n m = Ok r -> valid c (snd r).
Proof.
  intros Hm Hn E. destruct (Z.eq_dec (value m) 0) as [E0|E0].
  - unfold mod_r in E. rewrite (div_mod_by_zero c None (zero c) n m Hn Hm E0) in E. discriminate E.
  - destruct (mod_r_spec c (zero c) n m (zero_storage c n Hn) Hn Hm E0) as (r' & E' & V & _). rewrite E' in E. injection E as <-. exact V.
Qed.
Definition jv (c : cap) (s : bigint * bigint * Z * bool) : Prop := let '(u, v, _, _) := s in valid c u /\ valid c v.
Lemma d_jacobi_step_eq c s : jv c s -> d_jacobi_step c s = jacobi_step c s.
Proof.
  destruct s as [[[m n] j] start]. intros (Hm & Hn). unfold d_jacobi_step, jacobi_step. rewrite (d_mod_r_eq c (zero c) n m (zero_storage c n Hn) Hn Hm).
  destruct start; cbn [bind].
  - rewrite (d_ctz_eq c m Hm). destruct (count_trailing_zero m) as [[u s]| | |]; reflexivity.
  - destruct (mod_r c (zero c) n m) as [r| | |] eqn:E; cbn [bind step_of]; try reflexivity. pose proof (swap_valid c m n r Hm Hn E) as Vr.
    rewrite (d_ctz_eq c (snd r) Vr). destruct (count_trailing_zero (snd r)) as [[u s]| | |]; reflexivity.
Qed.
Lemma jacobi_step_valid c s s' : jv c s -> jacobi_step c s = Next s' -> jv c s'.
Proof.
  destruct s as [[[m n] j] start]. intros (Hm & Hn). unfold jacobi_step. destruct start.
  - destruct (count_trailing_zero m) as [[u s]| | |] eqn:Ec; try discriminate. destruct (_ =? 0); [discriminate|]. intros E. injection E as <-. split; [exact (ctz_valid c _ _ _ Hm Ec)|exact Hn].
  - destruct (mod_r c (zero c) n m) as [r| | |] eqn:E; cbn [bind]; try discriminate. pose proof (swap_valid c m n r Hm Hn E) as Vr.
    destruct (count_trailing_zero (snd r)) as [[u s]| | |] eqn:Ec; try discriminate. destruct (_ =? 0); [discriminate|]. intros E'. injection E' as <-. split; [exact (ctz_valid c _ _ _ Vr Ec)|exact Hm].
Qed.
Lemma d_jacobi_eq c m n : valid c m -> valid c n -> Z.odd (value n) = true -> d_jacobi c m n = jacobi c m n.
Proof.
  intros Hm Hn O. unfold d_jacobi, jacobi. rewrite (is_odd_spec c n Hn), O. cbn [check bind]. destruct (is_one n); [reflexivity|].
  rewrite compares1_ok by lia. cbn [bind]. assert (N0 : value n <> 0) by (intros E; rewrite E in O; discriminate O).
  destruct ((compares1 m 0 <? 0) || (compare m n >? 0)).
  - rewrite (d_quot_rem_r c m m n (valid_storage _ _ Hm) Hm Hn N0). destruct (quot_rem_spec c None m m n (valid_storage _ _ Hm) Hm Hn N0 I) as (q' & r & -> & Vr & _). cbn [bind snd]. revert Vr. generalize r. clear m Hm r q'. intros m Hm.
    destruct (is_zero m); [reflexivity|]. destruct (is_one m); [reflexivity|]. rewrite (d_gcd_eq c m n Hm Hn). destruct (gcd c m n) as [g| | |]; cbn [bind]; try reflexivity.
    rewrite compares1_ok by lia. cbn [bind]. destruct (negb _); [reflexivity|]. apply (run_eq _ _ (jv c)).
    + apply d_jacobi_step_eq.
    + apply jacobi_step_valid.
    + split; assumption.
  - cbn [bind].
    destruct (is_zero m); [reflexivity|]. destruct (is_one m); [reflexivity|]. rewrite (d_gcd_eq c m n Hm Hn). destruct (gcd c m n) as [g| | |]; cbn [bind]; try reflexivity.
    rewrite compares1_ok by lia. cbn [bind]. destruct (negb _); [reflexivity|]. apply (run_eq _ _ (jv c)).
    + apply d_jacobi_step_eq.
    + apply jacobi_step_valid.
    + split; assumption.
Qed.

(** *** modinv: the room that the release build needs is enough *)
Lemma d_submul_eq c a b q K : valid c a -> valid c b -> valid c q -> room c (K + 1) -> (1 <= K)%nat ->
  Z.abs (value b * value q) < Bn K -> (value b = 0 -> (size q <= K)%nat) -> Z.abs (value a) < Bn K -> 0 < value q ->
  d_op_mul c b q = Ok (op_mul c b q) /\ d_sub c a a (op_mul c b q) = Ok (sub c a a (op_mul c b q)).
Proof.
  intros Ha Hb Hq Hr HK Hbq H0 Hak Hqp.
  assert (Hroom : room c (size b + size q)).
  { eapply room_le; [exact Hr|]. destruct (Z.eq_dec (value b) 0) as [E|E].
    - specialize (H0 E). assert (size b <= 1)%nat. { apply (size_le_iff c b 1 Hb); [lia|]. rewrite (proj1 (value_zero_iff b) E). apply Bn_pos. } lia.
    - apply (size_product c); try assumption; lia. }
  destruct (op_mul_val c b q Hb Hq Hroom) as (Hvr & Evr). split; [unfold d_op_mul, d_mul, op_mul; rewrite (can_true _ _ Hroom); reflexivity|].
  assert (Sr : (size (op_mul c b q) <= K)%nat). { apply (size_le_iff c _ K Hvr HK). rewrite (abs_magnitude c) by assumption. rewrite Evr. exact Hbq. }
  assert (Sa : (size a <= K)%nat). { apply (size_le_iff c a K Ha HK). rewrite (abs_magnitude c) by assumption. exact Hak. }
  unfold d_sub. rewrite d_add_signed_eq by assumption. rewrite can_true by (eapply room_le; [exact Hr|lia]). rewrite orb_true_r. reflexivity.
Qed.
Lemma d_add_if_neg_eq c a m K : valid c a -> valid c m -> room c (K + 1) -> (size m <= K)%nat -> - value m < value a < value m -> d_add_if_neg c a m = Ok (add_if_neg c a m).
Proof.
  intros Ha Hm Hr Hs Hb. unfold d_add_if_neg, add_if_neg. destruct (neg a); [|reflexivity]. unfold d_add, add. rewrite d_add_signed_eq by assumption.
  assert (Hsa : (size a <= size m)%nat) by (apply (size_le c); [assumption|assumption|lia]). rewrite can_true by (eapply room_le; [exact Hr|lia]). rewrite orb_true_r. reflexivity.
Qed.
Lemma d_modinv_step_eq c K x m st : valid c x -> valid c m -> 1 < value m -> room c (K + 1) -> (size m <= K)%nat ->
  inv_ok c K x m st -> d_modinv_step c m st = modinv_step c m st.
Proof.
  intros Hx Hm Hm1 Hroom HK. destruct st as [s t a b]. cbn [inv_ok d_modinv_step modinv_step iv_t].
  intros (Hs & Ht & Ha & Hb & Hst & Ht0 & Ss & St & Ha1 & Hb0 & Hbt & Hdet & (k1 & Ek1) & (k2 & Ek2) & Hg).
  pose proof Hm as (_ & Sm & _).
  assert (HmK : value m < Bn K). { pose proof (proj1 (size_le_iff c m K Hm ltac:(lia)) HK) as H. rewrite (abs_magnitude c) in H by assumption. lia. }
  rewrite (d_div_mod_eq c (Some (zero c)) s s t (valid_storage _ _ Hs) Hs Ht (zero_storage c s Hs)).
  destruct (divmod_pos c s t Hs Ht Ht0 ltac:(lia)) as (q & s' & -> & Hq & Hs' & Eq & Es'). cbn [bind].
  rewrite (is_zero_value c s' Hs').
  pose proof (Z.div_mod (value s) (value t) ltac:(lia)) as Dst. pose proof (Z.mod_pos_bound (value s) (value t) ltac:(lia)) as Mst.
  rewrite <- Eq, <- Es' in Dst. rewrite <- Es' in Mst.
  pose proof (ar_q _ _ _ _ Dst Mst Hst) as Q1.
  destruct (Z.eqb_spec (value s') 0) as [E0|E0].
  - destruct (is_one t) eqn:E1; [|reflexivity]. rewrite (d_add_if_neg_eq c b m K Hb Hm Hroom HK); [reflexivity|].
    pose proof (ar_b _ _ _ _ _ Hdet Ha1 Hb0 Ht0 Hst). lia.
  - pose proof (ar_det _ _ _ _ _ _ _ Hdet Dst) as Hdet'. pose proof (ar_a1 _ _ _ Ha1 Hb0 Q1) as Ha'.
    pose proof (ar_bq _ _ _ Ha1 Hb0 Q1) as Abq0. pose proof (ar_a _ _ _ _ _ Hdet' Ha' Hb0 Ht0 ltac:(lia)) as Am.
    pose proof (ar_a _ _ _ _ _ Hdet Ha1 Hb0 Ht0 ltac:(lia)) as Am0.
    assert (Abq : Z.abs (value b * value q) < Bn K) by lia.
    assert (Sq : value b = 0 -> (size q <= K)%nat).
    { intros _. assert (size q <= size s)%nat; [|lia]. apply (size_le c); [assumption|assumption|]. pose proof (ar_qs _ _ _ _ Dst ltac:(lia) Ht0 ltac:(lia)). lia. }
    destruct (submul_spec c a b q K Ha Hb Hq Hroom ltac:(lia) Abq Sq ltac:(lia) ltac:(lia)) as (Hva & Eva).
    destruct (d_submul_eq c a b q K Ha Hb Hq Hroom ltac:(lia) Abq Sq ltac:(lia) ltac:(lia)) as (-> & D2). cbn [bind]. rewrite D2. cbn [bind].
    set (a' := sub c a a (op_mul c b q)) in *. rewrite <- Eva in *.
    rewrite (d_div_mod_eq c (Some (zero c)) t t s' (valid_storage _ _ Ht) Ht Hs' (zero_storage c s Hs)).
    destruct (divmod_pos c t s' Ht Hs' ltac:(lia) ltac:(lia)) as (q2 & t' & -> & Hq2 & Ht' & Eq2 & Et'). cbn [bind].
    rewrite (is_zero_value c t' Ht').
    pose proof (Z.div_mod (value t) (value s') ltac:(lia)) as Dts. pose proof (Z.mod_pos_bound (value t) (value s') ltac:(lia)) as Mts.
    rewrite <- Eq2, <- Et' in Dts. rewrite <- Et' in Mts.
    pose proof (ar_q _ _ _ _ Dts Mts ltac:(lia)) as Q2.
    destruct (Z.eqb_spec (value t') 0) as [E0'|E0'].
    + destruct (is_one s') eqn:E1; [|reflexivity]. rewrite (d_add_if_neg_eq c a' m K Hva Hm Hroom HK); [reflexivity|].
      pose proof (ar_a2 _ _ _ _ _ Hdet' Ha' Hb0 ltac:(lia) ltac:(lia)). lia.
    + pose proof (ar_det2 _ _ _ _ _ _ _ Hdet' Dts) as Hdet2. pose proof (ar_b1 _ _ _ Ha' Hb0 Q2) as Hb'.
      pose proof (ar_b _ _ _ _ _ Hdet2 Ha' ltac:(lia) ltac:(lia) ltac:(lia)) as Bm.
      assert (P2 : 0 <= value a' * value q2) by (apply Z.mul_nonneg_nonneg; lia).
      destruct (d_submul_eq c b a' q2 K Hb Hva Hq2 Hroom ltac:(lia) ltac:(lia) ltac:(lia) ltac:(lia) ltac:(lia)) as (-> & D3). cbn [bind]. rewrite D3. reflexivity.
Qed.
Lemma d_modinv_eq c y x m : storage_ok c y -> valid c x -> valid c m -> 0 < value x -> 1 < value m ->
  room c (Nat.max (size x) (size m) + 1) -> d_modinv c y x m = modinv c y x m.
Proof.
  intros Hy Hx Hm Px Pm Hroom. unfold d_modinv, modinv. rewrite !(is_zero_value c), !(is_one_value c) by assumption.
  replace (value m =? 0) with false by lia. replace (value x =? 0) with false by lia. replace (value m =? 1) with false by lia. cbn [negb check bind].
  destruct (Z.eqb_spec (value x) 1) as [E1|E1]; [rewrite d_assign_int_ok; [reflexivity|apply (valid_room1 c x Hx)|lia]|].
  rewrite (d_div_mod_eq c (Some (zero c)) (zero c) m x (zero_storage c x Hx) Hm Hx (zero_storage c x Hx)).
  destruct (div_mod_spec c (Some (zero c)) (zero c) m x (zero_storage c x Hx) Hm Hx ltac:(lia) (zero_storage c x Hx)) as (q' & t & -> & Ht & Et & Hq).
  destruct q' as [q|]; [|contradiction]. destruct Hq as (Hq & Eq). cbn [bind]. rewrite (is_zero_value c t Ht).
  rewrite Z.quot_div_nonneg in Eq by lia. rewrite Z.rem_mod_nonneg in Et by lia.
  pose proof (Z.div_mod (value m) (value x) ltac:(lia)) as D. pose proof (Z.mod_pos_bound (value m) (value x) ltac:(lia)) as M.
  rewrite <- Eq, <- Et in D. rewrite <- Et in M.
  assert (Hg : Z.gcd (value x) (value t) = Z.gcd (value x) (value m)).
  { rewrite Et, (Z.gcd_comm (value x) (value m mod value x)), Z.gcd_mod by lia. apply Z.gcd_comm || reflexivity. }
  destruct (Z.eqb_spec (value t) 0) as [E0|E0]; [reflexivity|].
  assert (Q0 : 0 <= value q) by (rewrite Eq; apply Z.div_pos; lia).
  apply (run_eq _ _ (inv_ok c (Nat.max (size x) (size m)) x m)).
  - intros st Hst. apply (d_modinv_step_eq c (Nat.max (size x) (size m)) x m st); try assumption. lia.
  - intros st st' Hst E. pose proof (modinv_step_spec c (Nat.max (size x) (size m)) x m st Hx Hm Pm Hroom ltac:(lia) Hst) as P. rewrite E in P. apply P.
  - destruct (of_int1 c x Hx) as (V1 & E11 & _). destruct (neg_op_spec c q Hq) as (Vn & En).
    cbn [inv_ok]. rewrite E11, En. do 4 (split; [assumption|]). split; [lia|]. split; [lia|]. split; [lia|].
    split; [assert (size t <= size x)%nat by (apply (size_le c); [assumption|assumption|lia]); lia|].
    split; [lia|]. split; [lia|]. split; [intros; assert (Eq0 : value q = 0) by lia; rewrite Eq0 in D; lia|]. split; [lia|].
    split; [exists 0; lia|]. split; [exists (-1); lia|]. exact Hg.
Qed.
Lemma d_modinv_exact c y x m : valid c y -> valid c x -> valid c m -> 0 < value x -> 1 < value m ->
  (d_modinv c y x m = Abort /\ ~ room c (Nat.max (size x) (size m) + 1)) \/ exists o, d_modinv c y x m = Ok o /\ inverse_of c (value x) (value m) o.
Proof.
  intros Hy Hx Hm Px Pm. destruct (room_dec c (Nat.max (size x) (size m) + 1)) as [R|R].
  - right. rewrite (d_modinv_eq c y x m (valid_storage _ _ Hy) Hx Hm Px Pm R). destruct (modinv_claim c y x m Hy Hx Hm Px Pm R) as (o & E & P). exists o. split; [exact E|exact P].
  - pose proof (lift_tie c x Hx) as Tx. pose proof (lift_tie c m Hm) as Tm. pose proof (lift_tie c y Hy) as Ty.
    pose proof (sim_modinv c y (lift y) x (lift x) m (lift m) (valid_storage _ _ Hy) (valid_storage _ _ (tie_snd _ _ _ Ty)) Tx Tm) as H.
    assert (Ex : value (lift x) = value x) by (symmetry; apply Tx). assert (Em : value (lift m) = value m) by (symmetry; apply Tm).
    destruct (modinv_claim F (lift y) (lift x) (lift m) (tie_snd _ _ _ Ty) (tie_snd _ _ _ Tx) (tie_snd _ _ _ Tm) ltac:(lia) ltac:(lia) I) as (o' & E & P1 & P2). rewrite E, Ex, Em in *.
    destruct (d_modinv c y x m) as [o| | |]; cbn [sim] in H; [|left; auto|discriminate H|discriminate H]. right. destruct H as (o1 & Eo & T). injection Eo as <-. exists o. split; [reflexivity|]. split; intros G.
    + destruct (P1 G) as (r' & -> & Vr & Rr & Er). destruct o as [r|]; [|contradiction]. cbn [otie] in T. exists r. split; [reflexivity|]. destruct T as (V & _ & Ev & _). rewrite Ev. split; [exact V|]. split; assumption.
    + rewrite (P2 G) in T. destruct o; [contradiction|reflexivity].
Qed.

(** *** to_naf *)
Lemma d_naf_step_eq c x s : valid c x -> room c (size x + 1) ->
  (let '(num, acc) := s in valid c num /\ neg num = false /\ 0 <= value num <= value x) -> d_naf_step c s = naf_step c s.
Proof.
  intros Hx R. destruct s as [num acc]. intros (Hv & Hn & Hval). unfold d_naf_step, naf_step. destruct (_ >? 0) eqn:G; [|reflexivity].
  assert (Hsz : (size num <= size x)%nat) by (apply (size_le c); [assumption|assumption|lia]).
  assert (Hrm : room c (size num + 1)) by (eapply room_le; [exact R|lia]).
  destruct (is_odd num) eqn:O.
  - rewrite (d_mods1_eq c (zero c) num 4 Hv) by (unfold int32; lia).
    destruct (mods1_spec c (zero c) num 4 (zero_storage c x Hx) Hv ltac:(unfold int32; lia) ltac:(lia)) as (m & -> & Hm & Em & _). cbn [bind].
    rewrite Z.rem_mod_nonneg in Em by lia. pose proof (Z.mod_pos_bound (value num) 4 ltac:(lia)) as Hmod.
    rewrite (get_int32_spec c m Hm) by (change (2 ^ 31) with 2147483648; lia). rewrite Em. set (m4 := value num mod 4) in *.
    destruct (subs1_spec c true num num (2 - m4) (valid_storage _ _ Hv) Hv ltac:(unfold int32; lia) Hrm ltac:(auto)) as (Hvs & _).
    assert (D : d_subs1 c true num num (2 - m4) = Ok (subs1 c true num num (2 - m4))).
    { destruct (b_subs1 c true num num (2 - m4)) as [E|E]; [|exact E]. exfalso.
      destruct (d_subs1_ok c true num num (2 - m4) (valid_storage _ _ Hv) Hv ltac:(unfold int32; lia) ltac:(auto)) as (P & _). destruct (P ltac:(split; [change (2 ^ 31) with 2147483648; lia|auto])) as (r & E' & _). congruence. }
    rewrite D. cbn [bind]. rewrite (d_shr_eq c _ _ 1 Hvs ltac:(lia)). reflexivity.
  - rewrite (d_shr_eq c num num 1 Hv ltac:(lia)). reflexivity.
Qed.
Lemma naf_step_inv c x s s' : valid c x -> room c (size x + 1) ->
  (let '(num, acc) := s in valid c num /\ neg num = false /\ 0 <= value num <= value x) -> naf_step c s = Next s' ->
  (let '(num, acc) := s' in valid c num /\ neg num = false /\ 0 <= value num <= value x).
Proof.
  intros Hx R. destruct s as [num acc]. intros (Hv & Hn & Hval). unfold naf_step.
  pose proof (compareu1_spec c num 0 Hv ltac:(rewrite B_val; lia) ltac:(auto)) as C. unfold cmp_result in C.
  destruct (Z.gtb_spec (compareu1 num 0) 0) as [G|G]; [|discriminate].
  assert (Hsz : (size num <= size x)%nat) by (apply (size_le c); [assumption|assumption|lia]).
  assert (Hrm : room c (size num + 1)) by (eapply room_le; [exact R|lia]).
  rewrite (is_odd_spec c num Hv). destruct (Z.odd (value num)) eqn:O.
  - destruct (mods1_spec c (zero c) num 4 (zero_storage c x Hx) Hv ltac:(unfold int32; lia) ltac:(lia)) as (m & -> & Hm & Em & _).
    rewrite Z.rem_mod_nonneg in Em by lia. pose proof (Z.mod_pos_bound (value num) 4 ltac:(lia)) as Hmod.
    rewrite (get_int32_spec c m Hm) by (change (2 ^ 31) with 2147483648; lia). rewrite Em. set (m4 := value num mod 4) in *. pose proof (Z.div_mod (value num) 4 ltac:(lia)) as Edm. fold m4 in Edm.
    assert (H13 : m4 = 1 \/ m4 = 3). { apply Zodd_bool_iff in O. apply Zodd_equiv in O. destruct O as (k & Ek). lia. }
    assert (I32 : int32 (2 - m4)) by (unfold int32; change (2 ^ 31) with 2147483648; lia).
    destruct (subs1_spec c true num num (2 - m4) (valid_storage _ _ Hv) Hv I32 Hrm ltac:(auto)) as (Hvs & Evs).
    pose proof (subs1_neg c num (2 - m4) Hv Hn ltac:(lia) I32 Hrm) as Ns. set (n1 := subs1 c true num num (2 - m4)) in *. destruct (shr1_val c n1 Hvs) as (V2 & E2 & N2). set (n2 := shr n1 n1 1) in *. intros E. injection E as <-. split; [exact V2|]. split; [exact (N2 Ns)|].
    rewrite E2, Evs, Z.quot_div_nonneg by lia. split; [apply Z.div_pos; lia|]. apply Z.le_trans with (value num); [|lia]. apply Z.div_le_upper_bound; lia.
  - destruct (shr1_val c num Hv) as (V2 & E2 & N2). set (n2 := shr num num 1) in *. intros E. injection E as <-. split; [exact V2|]. split; [exact (N2 Hn)|].
    rewrite E2, Z.quot_div_nonneg by lia. split; [apply Z.div_pos; lia|]. apply Z.le_trans with (value num); [|lia]. apply Z.div_le_upper_bound; lia.
Qed.
Lemma d_to_naf_eq c x : valid c x -> neg x = false -> room c (size x + 1) -> d_to_naf c x = to_naf c x.
Proof.
  intros Hx N R. unfold d_to_naf, to_naf. rewrite (d_bit_length_eq c x Hx). cbn [bind].
  apply (run_eq _ _ (fun s => let '(num, acc) := s in valid c num /\ neg num = false /\ 0 <= value num <= value x)).
  - intros s Hs. apply (d_naf_step_eq c x s Hx R Hs).
  - intros s s' Hs E. apply (naf_step_inv c x s s' Hx R Hs E).
  - pose proof (magnitude_range c x Hx). split; [exact Hx|]. split; [exact N|]. rewrite value_sgn, N. cbn [sgn]. lia.
Qed.
Lemma d_to_naf_exact c x : valid c x -> neg x = false ->
  (d_to_naf c x = Abort /\ ~ room c (size x + 1)) \/ exists l, d_to_naf c x = Ok l /\ is_naf l (value x).
Proof.
  intros Hx N. destruct (room_dec c (size x + 1)) as [R|R].
  - right. rewrite (d_to_naf_eq c x Hx N R). destruct (to_naf_spec c x Hx N R) as (l & E & P). exists l. split; assumption.
  - pose proof (sim_naf c x Hx N) as H. pose proof (lift_tie c x Hx) as T. destruct (to_naf_spec F (lift x) (tie_snd _ _ _ T) N I) as (l & E & P).
    rewrite E in H. destruct (d_to_naf c x) as [l'| | |]; cbn [sim] in H; [|left; auto|discriminate H|discriminate H]. right. destruct H as (l1 & E1 & ->). injection E1 as <-. exists l.
    split; [reflexivity|]. replace (value x) with (value (lift x)) by (symmetry; apply T). exact P.
Qed.
