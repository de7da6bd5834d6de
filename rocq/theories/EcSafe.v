(** The point arithmetic is defined on all objects with reduced coordinates, whether or not they are points of
    the curve. *)
From Coq Require Import List ZArith Znumtheory Bool Lia.
From Verif Require Import Outcome LoopModel LoopProofs UtilsModel UtilsSpec WordsModel WordsSpec WordsProofs BigintModel BigintSpec BigintProofs BigintBits BigintBytes BigintClosure BigintClaims NumModel NumProofs FpModel FpSpec FpProofs FpClaims EcGroup EcGroupProofs ZpField EcModel EcSpec EcExact EcFeSpec EcTransfer EcScalar EcClaims.
Import ListNotations.
Open Scope Z_scope.

(** *** over the exact field *)
Section X.
Variable F : fieldT.
Variable E : coeffs (exact_ops F).
Notation O := (exact_ops F).
Lemma bind_some {A B} (o : outcome A) (f : A -> outcome B) : (exists R, o = Ok R) -> (forall v, exists R, f v = Ok R) -> exists R, bind o f = Ok R.
Proof. intros (v & ->) H. apply H. Qed.
Ltac tot := repeat match goal with
  | |- exists R, bind _ _ = Ok R => apply bind_some
  | |- forall _, _ => intros
  | |- exists R, (if ?b then _ else _) = Ok R => destruct b
  | |- exists R, (let _ := _ in _) = Ok R => cbv zeta
  | |- exists R, _ = Ok R => solve [eexists; reflexivity]
  end.
Lemma jac_doubled_some P : exists R, jac_doubled O E P = Ok R.
Proof. unfold jac_doubled. destruct P as [[[x y] z]|]; [tot|eexists; reflexivity]. Qed.
Lemma proj_doubled_some P : exists R, proj_doubled O E P = Ok R.
Proof. unfold proj_doubled. destruct P as [[[x y] z]|]; [tot|eexists; reflexivity]. Qed.
Lemma addex_some P z z' u1 u2 s1 s2 : exists R, jac_addex O E P z z' u1 u2 s1 s2 = Ok R.
Proof. unfold jac_addex. tot; apply jac_doubled_some. Qed.
Lemma jac_add_some P Q : exists R, jac_add O E P Q = Ok R.
Proof. unfold jac_add, jac_add_z_1, jac_add_z2_1, jac_add_ne. destruct P as [[[x y] z]|], Q as [[[x' y'] z']|]; cbn [is_identity3]; tot; apply addex_some. Qed.
Lemma proj_add_some P Q : exists R, proj_add O E P Q = Ok R.
Proof. unfold proj_add. destruct P as [[[x y] z]|], Q as [[[x' y'] z']|]; cbn [is_identity3]; tot; apply proj_doubled_some. Qed.
End X.
Section XA.
Variable F : fieldT.
Variable E : coeffs (exact_ops F).
Notation O := (exact_ops F).
Hypothesis two_ne : (1 + 1)%f <> (0%f : F).
Add Field FldS : (f_theory F).
Lemma div_some (x y : F) : y <> 0%f -> exists R, o_div O x y = Ok R.
Proof. intros H. cbn. destruct (feq_dec y 0%f); [contradiction|]. eexists. reflexivity. Qed.
Ltac tot := repeat match goal with
  | |- exists R, bind (o_div _ _ _) _ = Ok R => apply bind_some; [apply div_some|intros]
  | |- exists R, bind (bind _ _) _ = Ok R => fail 1
  | |- exists R, bind _ _ = Ok R => apply bind_some; [solve [eexists; reflexivity]|intros]
  | |- exists R, (let _ := _ in _) = Ok R => cbv zeta
  | |- exists R, _ = Ok R => solve [eexists; reflexivity]
  end.
Lemma aff_doubled_some P : exists R, aff_doubled O E P = Ok R.
Proof.
  destruct P as [[x y]|]; [|eexists; reflexivity]. unfold aff_doubled. destruct (_ || _) eqn:H; [eexists; reflexivity|]. apply orb_false_iff in H. destruct H as [_ H].
  cbn [bind o_add o_sub o_mul o_sqr o_neg o_addk o_mulk o_muli exact_ops]. cbn [o_is_zero exact_ops] in H. apply (fb_false F) in H.
  apply bind_some; [apply div_some|intros; eexists; reflexivity]. intros K. assert (K' : ((1 + 1) * y)%f = (0%f : F)) by (rewrite <- K; cbn; ring).
  apply (mul_ne F (1 + 1)%f y two_ne H). exact K'.
Qed.
Lemma aff_add_some P Q : exists R, aff_add O E P Q = Ok R.
Proof.
  unfold aff_add. destruct (aff_is_identity O P) eqn:HP; [eexists; reflexivity|]. destruct (aff_is_identity O Q) eqn:HQ; [eexists; reflexivity|].
  destruct P as [[x y]|]; [|discriminate]. destruct Q as [[x' y']|]; [|discriminate]. cbn [bind o_sub exact_ops].
  destruct (o_is_zero O _) eqn:Z0; [destruct (o_eqb O y y'); [apply aff_doubled_some|eexists; reflexivity]|]. cbn [o_is_zero exact_ops] in Z0. apply (fb_false F) in Z0.
  apply bind_some; [apply div_some; exact Z0|]. intros s. cbn [bind o_sqr o_sub o_mul exact_ops]. eexists. reflexivity.
Qed.
End XA.
(** *** the algorithms *)
Lemma rnaf_digits c x : valid c x -> 0 <= value x -> room c (size x + 1) ->
  exists l, to_rnaf c x = Ok l /\ naf_value (rev l) = value x /\ Forall (fun d => d = -1 \/ d = 0 \/ d = 1) l.
Proof.
  intros V P R. destruct (neg x) eqn:N.
  - exists []. split; [|split; [|constructor]].
    + unfold to_rnaf, to_naf, run_loop. assert (H : forall k, loop2 k (naf_step c) (x, []) = Done (Ok [])); [|rewrite H; reflexivity].
      assert (S0 : naf_step c (x, []) = Done (Ok [])) by (cbn [naf_step]; unfold compareu1; rewrite N; reflexivity).
      induction k as [|k IH]; cbn [loop2]; [exact S0|]. rewrite IH. reflexivity.
    + pose proof (magnitude_range c x V). rewrite value_sgn, N in *. cbn [BigintProofs.sgn rev naf_value] in *. lia.
  - destruct (naf_claim c x V N R) as (l & _ & E & (A & B & _)). exists (rev l). split; [exact E|]. rewrite rev_involutive. split; [exact A|]. apply Forall_rev. exact B.
Qed.
Section TOT.
Variable PT : Type.
Variable good : PT -> Prop.
Variables (add : PT -> PT -> outcome PT) (dbl inv : PT -> outcome PT) (is_id : PT -> bool) (idn : PT).
Hypothesis idn_good : good idn.
Hypothesis add_good : forall p q, good p -> good q -> exists r, add p q = Ok r /\ good r.
Hypothesis dbl_good : forall p, good p -> exists r, dbl p = Ok r /\ good r.
Hypothesis inv_good : forall p, good p -> exists r, inv p = Ok r /\ good r.
Lemma ladder_good c s p : valid c s -> 0 <= value s -> good p -> exists r, run_loop (32 * size s + 1) (ladder_step add dbl) (s, idn, p) = Ok r /\ good r.
Proof.
  intros Hs S0 Hp.
  apply (run_loop_ind (ladder_step add dbl) (fun st => let '(s', r, t) := st in valid c s' /\ 0 <= value s' /\ good r /\ good t) (fun o => exists r, o = Ok r /\ good r) (fun st => value (fst (fst st)))).
  - intros [[s' r] t] (_ & H & _). exact H.
  - intros [[s' r] t] (Vs & P0 & Hr & Ht). unfold ladder_step.
    pose proof (compares1_spec c s' 0 Vs ltac:(unfold int32; lia)) as CMP. unfold cmp_result in CMP.
    destruct (Z.eqb_spec (compares1 s' 0) 0) as [Z0|Z0]; [eauto|].
    assert (V0 : 0 < value s') by lia. destruct (shr_claim c s' s' 1 Vs Vs ltac:(lia)) as (V1 & E1). rewrite Z.quot_div_nonneg in E1 by lia. change (2 ^ 1) with 2 in E1.
    assert (D : 0 <= value s' / 2 < value s') by (split; [apply Z.div_pos; lia|apply Z.div_lt; lia]).
    destruct (dbl_good _ Ht) as (t2 & Dt & Rt). destruct (is_odd s').
    + destruct (add_good _ _ Hr Ht) as (r2 & -> & Rr). cbn [bind]. rewrite Dt. cbn [bind fst]. rewrite E1. split; [|lia]. split; [exact V1|]. split; [lia|]. auto.
    + cbn [bind]. rewrite Dt. cbn [bind fst]. rewrite E1. split; [|lia]. split; [exact V1|]. split; [lia|]. auto.
  - split; [exact Hs|]. split; [exact S0|]. auto.
  - cbn [fst]. pose proof (magnitude_range c s Hs) as MR. rewrite value_sgn in S0 |- *. rewrite Bn_pow2 in MR.
    assert (LE : 2 ^ (32 * Z.of_nat (size s)) <= 2 ^ Z.of_nat (32 * size s + 1)) by (apply Z.pow_le_mono_r; lia).
    destruct (neg s); cbn [BigintProofs.sgn] in *; lia.
Qed.
Lemma naf_loop_good p pneg : good p -> good pneg -> forall l r, good r -> exists r', naf_loop add dbl p pneg l r = Ok r' /\ good r'.
Proof.
  intros Hp Hn. induction l as [|d l IH]; intros r Hr; cbn [naf_loop]; [eauto|]. destruct (dbl_good r Hr) as (r1 & -> & H1). cbn [bind].
  assert (K : exists r2, (if 0 <? d then add r1 p else if d <? 0 then add r1 pneg else Ok r1) = Ok r2 /\ good r2) by (destruct (0 <? d); [apply add_good; assumption|destruct (d <? 0); [apply add_good; assumption|eauto]]).
  destruct K as (r2 & -> & H2). cbn [bind]. apply IH. exact H2.
Qed.
Lemma mul_cases_good c loop p s : valid c s -> good p -> (forall p s', size s' = size s -> valid c s' -> 0 < value s' -> good p -> exists r, loop p s' = Ok r /\ good r) ->
  exists r, mul_cases idn is_id inv loop p s = Ok r /\ good r.
Proof.
  intros V Hp L. unfold mul_cases. rewrite (is_one_value c s V), (is_zero_value c s V). destruct (_ || _); [eauto|]. destruct (Z.eqb_spec (value s) 0) as [E0|E0]; [eauto|].
  pose proof (compares1_spec c s 0 V ltac:(unfold int32; lia)) as CMP. unfold cmp_result in CMP. destruct (Z.ltb_spec (compares1 s 0) 0) as [Lt|Ge].
  - destruct (inv_good _ Hp) as (n & -> & Hn). cbn [bind]. unfold op_neg. destruct (neg_op_spec c s V) as (Vn & En). destruct (_ || _); [eauto|]. destruct (is_zero _); [eauto|].
    apply (L n (neg_op s) eq_refl Vn ltac:(lia) Hn).
  - apply L; auto. lia.
Qed.
Lemma shamir_good p q pn qn pnqn pqn pqni pnqni : good p -> good q -> good pn -> good qn -> good pnqn -> good pqn -> good pqni -> good pnqni ->
  forall la lb r, good r -> exists r', shamir_loop add dbl p q pn qn pnqn pqn pqni pnqni la lb r = Ok r' /\ good r'.
Proof.
  intros. revert lb r H7. induction la as [|x la IH]; intros [|y lb] r Hr; cbn [shamir_loop]; eauto. destruct (dbl_good r Hr) as (r1 & -> & H1'). cbn [bind].
  match goal with |- exists r', bind ?o _ = _ /\ _ => assert (K : exists r2, o = Ok r2 /\ good r2) end.
  { destruct (x =? 0), (y =? 0), (x <? 0), (y <? 0); eauto using add_good. }
  destruct K as (r2 & -> & H2'). cbn [bind]. apply IH. exact H2'.
Qed.
Lemma mul_add_good c x p y q : valid c x -> valid c y -> 0 <= value x -> 0 <= value y -> room c (size x + 1) -> room c (size y + 1) -> good p -> good q ->
  exists r, mul_add_fast idn inv add dbl c x p y q = Ok r /\ good r.
Proof.
  intros Vx Vy Px Py Rx Ry Hp Hq. unfold mul_add_fast.
  destruct (rnaf_digits c x Vx Px Rx) as (la & -> & _). cbn [bind]. destruct (rnaf_digits c y Vy Py Ry) as (lb & -> & _). cbn [bind].
  destruct (inv_good _ Hp) as (pn & -> & Hpn). cbn [bind]. destruct (inv_good _ Hq) as (qn & -> & Hqn). cbn [bind].
  destruct (add_good _ _ Hpn Hqn) as (pnqn & -> & H1). cbn [bind]. destruct (add_good _ _ Hp Hqn) as (pqn & -> & H2). cbn [bind].
  destruct (inv_good _ H2) as (pqni & -> & H3). cbn [bind]. destruct (inv_good _ H1) as (pnqni & -> & H4). cbn [bind].
  apply shamir_good; auto.
Qed.
End TOT.

(** *** objects *)
Section OBJ.
Variable c : cap.
Variable p : bigint.
Variable Pp : prime (value p).
Variables a b : bigint.
Hypothesis Hp : modulus_ok c p.
Hypothesis p3 : 3 < value p.
Hypothesis Ha : reduced c p a.
Hypothesis Hb : reduced c p b.
Variables fz0 fm3 : bool.
Notation F := (GFp p Pp).
Notation O := (fe_ops c p).
Notation E := (mkcoeffs O a b fz0 fm3).
Lemma two_ne' : (1 + 1)%f <> (0%f : F).
Proof.
  intros H. apply (f_equal zval) in H. change ((1 mod value p + 1 mod value p) mod value p = 0 mod value p) in H.
  rewrite !Z.mod_1_l, Z.mod_0_l, Z.mod_small in H by lia. lia.
Qed.
Lemma lift2' o1 o2 : orel (R2 c p Pp) o1 o2 -> (exists R, o2 = Ok R) -> exists R, o1 = Ok R /\ good2 c p R.
Proof. intros H (R & ->). destruct H as (u & -> & G & _). eauto. Qed.
Lemma lift3' o1 o2 : orel (R3 c p Pp) o1 o2 -> (exists R, o2 = Ok R) -> exists R, o1 = Ok R /\ good3 c p R.
Proof. intros H (R & ->). destruct H as (u & -> & G & _). eauto. Qed.
Lemma liftb' (o1 o2 : outcome bool) : orel eq o1 o2 -> (exists R, o2 = Ok R) -> exists R, o1 = Ok R.
Proof. intros H (R & ->). destruct H as (u & -> & _). eauto. Qed.
Notation conc2 := (EcClaims.conc2 p Pp). Notation conc3 := (EcClaims.conc3 p Pp).
Notation X := (E2 p Pp a b fz0 fm3).
Lemma r2 P : good2 c p P -> R2 c p Pp P (conc2 P). Proof. intros H. split; [exact H|reflexivity]. Qed.
Lemma r3 P : good3 c p P -> R3 c p Pp P (conc3 P). Proof. intros H. split; [exact H|reflexivity]. Qed.
Lemma aff_add_def P Q : good2 c p P -> good2 c p Q -> exists R, aff_add O E P Q = Ok R /\ good2 c p R.
Proof. intros HP HQ. apply (lift2' _ (aff_add (exact_ops F) X (conc2 P) (conc2 Q))); [apply aff_add_rel; auto using r2|apply aff_add_some, two_ne']. Qed.
Lemma aff_dbl_def P : good2 c p P -> exists R, aff_doubled O E P = Ok R /\ good2 c p R.
Proof. intros HP. apply (lift2' _ (aff_doubled (exact_ops F) X (conc2 P))); [apply aff_doubled_rel; auto using r2|apply aff_doubled_some, two_ne']. Qed.
Lemma aff_inv_def P : good2 c p P -> exists R, aff_inverted O P = Ok R /\ good2 c p R.
Proof. intros HP. apply (lift2' _ (aff_inverted (exact_ops F) (conc2 P))); [apply aff_inverted_rel; auto using r2|]. unfold aff_inverted. destruct (aff_is_identity _ _) eqn:H; [eauto|]. destruct (conc2 P) as [[x y]|]; [eexists; reflexivity|discriminate]. Qed.
Lemma aff_on_def P : good2 c p P -> exists v, aff_is_on_curve O E P = Ok v.
Proof. intros HP. apply (liftb' _ (aff_is_on_curve (exact_ops F) X (conc2 P))); [apply aff_on_rel; auto using r2|]. unfold aff_is_on_curve. destruct (aff_is_identity _ _) eqn:H; [eauto|]. destruct (conc2 P) as [[x y]|]; [eexists; reflexivity|discriminate]. Qed.
Lemma aff_mul_def P s : good2 c p P -> valid c s -> exists R, aff_mul O E P s = Ok R /\ good2 c p R.
Proof.
  intros HP V. unfold aff_mul, aff_loop. apply (mul_cases_good _ (good2 c p) (aff_add O E) (aff_doubled O E) (aff_inverted O) (aff_is_identity O) None I aff_add_def aff_dbl_def aff_inv_def c); auto. intros P' s' _ V' P0 HP'.
  apply (ladder_good _ (good2 c p) (aff_add O E) (aff_doubled O E) (aff_inverted O) (aff_is_identity O) None I aff_add_def aff_dbl_def aff_inv_def c); auto. lia.
Qed.
Lemma aff_mul_add_def x P y Q : good2 c p P -> good2 c p Q -> valid c x -> valid c y -> 0 <= value x -> 0 <= value y -> room c (size x + 1) -> room c (size y + 1) -> exists R, aff_mul_add O E c x P y Q = Ok R /\ good2 c p R.
Proof. intros. apply (mul_add_good _ (good2 c p) (aff_add O E) (aff_doubled O E) (aff_inverted O) None I aff_add_def aff_dbl_def aff_inv_def); auto. Qed.
Lemma proj_add_def P Q : good3 c p P -> good3 c p Q -> exists R, proj_add O E P Q = Ok R /\ good3 c p R.
Proof. intros HP HQ. apply (lift3' _ (proj_add (exact_ops F) X (conc3 P) (conc3 Q))); [apply proj_add_rel; auto using r3|apply proj_add_some]. Qed.
Lemma proj_dbl_def P : good3 c p P -> exists R, proj_doubled O E P = Ok R /\ good3 c p R.
Proof. intros HP. apply (lift3' _ (proj_doubled (exact_ops F) X (conc3 P))); [apply proj_doubled_rel; auto using r3|apply proj_doubled_some]. Qed.
Lemma inv3_def P : good3 c p P -> exists R, inverted3 O P = Ok R /\ good3 c p R.
Proof. intros HP. apply (lift3' _ (inverted3 (exact_ops F) (conc3 P))); [apply inverted3_rel; auto using r3|]. unfold inverted3. destruct (is_identity3 _ _) eqn:H; [eauto|]. destruct (conc3 P) as [[[x y] z]|]; [eexists; reflexivity|discriminate]. Qed.
Lemma proj_on_def P : good3 c p P -> exists v, proj_is_on_curve O E P = Ok v.
Proof. intros HP. apply (liftb' _ (proj_is_on_curve (exact_ops F) X (conc3 P))); [apply proj_on_rel; auto using r3|]. unfold proj_is_on_curve. destruct (is_identity3 _ _) eqn:H; [eauto|]. destruct (conc3 P) as [[[x y] z]|]; [eexists; reflexivity|discriminate]. Qed.
Lemma proj_mul_def P s : good3 c p P -> valid c s -> exists R, proj_mul O E P s = Ok R /\ good3 c p R.
Proof.
  intros HP V. unfold proj_mul, proj_loop. apply (mul_cases_good _ (good3 c p) (proj_add O E) (proj_doubled O E) (inverted3 O) (is_identity3 O) None I proj_add_def proj_dbl_def inv3_def c); auto. intros P' s' _ V' P0 HP'.
  apply (ladder_good _ (good3 c p) (proj_add O E) (proj_doubled O E) (inverted3 O) (is_identity3 O) None I proj_add_def proj_dbl_def inv3_def c); auto. lia.
Qed.
Lemma proj_mul_add_def x P y Q : good3 c p P -> good3 c p Q -> valid c x -> valid c y -> 0 <= value x -> 0 <= value y -> room c (size x + 1) -> room c (size y + 1) -> exists R, proj_mul_add O E c x P y Q = Ok R /\ good3 c p R.
Proof. intros. apply (mul_add_good _ (good3 c p) (proj_add O E) (proj_doubled O E) (inverted3 O) None I proj_add_def proj_dbl_def inv3_def); auto. Qed.
Hypothesis p8 : 8 < value p.
Lemma jac_add_def P Q : good3 c p P -> good3 c p Q -> exists R, jac_add O E P Q = Ok R /\ good3 c p R.
Proof. intros HP HQ. apply (lift3' _ (jac_add (exact_ops F) X (conc3 P) (conc3 Q))); [apply jac_add_rel; auto using r3|apply jac_add_some]. Qed.
Lemma jac_dbl_def P : good3 c p P -> exists R, jac_doubled O E P = Ok R /\ good3 c p R.
Proof. intros HP. apply (lift3' _ (jac_doubled (exact_ops F) X (conc3 P))); [apply jac_doubled_rel; auto using r3|apply jac_doubled_some]. Qed.
Lemma jac_on_def P : good3 c p P -> exists v, jac_is_on_curve O E P = Ok v.
Proof. intros HP. apply (liftb' _ (jac_is_on_curve (exact_ops F) X (conc3 P))); [apply jac_on_rel; auto using r3|]. unfold jac_is_on_curve. destruct (is_identity3 _ _) eqn:H; [eauto|]. destruct (conc3 P) as [[[x y] z]|]; [|discriminate]. destruct (o_is_one (exact_ops F) z); eexists; reflexivity. Qed.
Lemma start_good : good3 c p (Some (o_lit O 0, o_lit O 0, o_lit O 1)).
Proof. split; [apply (lit_rel c p Hp Pp p3 0); lia|]. split; [apply (lit_rel c p Hp Pp p3 0); lia|apply (lit_rel c p Hp Pp p3 1); lia]. Qed.
Lemma jac_mul_def P s : good3 c p P -> valid c s -> room c (size s + 1) -> exists R, jac_mul O E c P s = Ok R /\ good3 c p R.
Proof.
  intros HP V Rm. unfold jac_mul, jac_loop. apply (mul_cases_good _ (good3 c p) (jac_add O E) (jac_doubled O E) (inverted3 O) (is_identity3 O) None I jac_add_def jac_dbl_def inv3_def c); auto. intros P' s' Sz V' P0 HP'.
  destruct (inv3_def P' HP') as (N & -> & HN). cbn [bind]. rewrite <- Sz in Rm. destruct (rnaf_digits c s' V' ltac:(lia) Rm) as (l & -> & _). cbn [bind].
  apply (naf_loop_good _ (good3 c p) (jac_add O E) (jac_doubled O E) jac_add_def jac_dbl_def); auto using start_good.
Qed.
Lemma jac_mul_add_def x P y Q : good3 c p P -> good3 c p Q -> valid c x -> valid c y -> 0 <= value x -> 0 <= value y -> room c (size x + 1) -> room c (size y + 1) -> exists R, jac_mul_add O E c x P y Q = Ok R /\ good3 c p R.
Proof. intros. apply (mul_add_good _ (good3 c p) (jac_add O E) (jac_doubled O E) (inverted3 O) None I jac_add_def jac_dbl_def inv3_def); auto. Qed.
End OBJ.
