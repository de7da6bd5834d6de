(** The affine class on curves with b = 0. *)
From Coq Require Import Field List ZArith Znumtheory Bool Lia.
From Verif Require Import Outcome LoopModel WordsModel WordsSpec BigintModel BigintSpec BigintProofs BigintClaims NumModel NumProofs FpModel FpSpec FpProofs EcGroup EcGroupProofs ZpField EcModel EcSpec EcExact EcScalar EcFeSpec EcTransfer EcCurveModel EcClaims EcQuotSpec.
Import ListNotations.
Open Scope Z_scope.

(** ** the exact formulas, whatever b is *)
Section X.
Open Scope f_scope.
Variable F : fieldT.
Add Field FldQ : (f_theory F).
Variable E : coeffs (exact_ops F).
Let a : F := cv_a _ E.
Let b : F := cv_b _ E.
Hypothesis two_ne : (2 : F) <> 0.
Notation C := (on_curve a b).
Notation O := (exact_ops F).
Notation abs_aff := (@EcSpec.abs_aff F).
Ltac ev := cbn [bind o_add o_sub o_mul o_sqr o_neg o_addk o_mulk o_muli o_is_zero o_is_one o_eq0 o_eqb o_lit o_div o_inv exact_ops fz fpos EcModel.T].
Lemma abs_collapse x y : abs_aff (Some (x, y)) = collapse (Aff x y). Proof. reflexivity. Qed.
Lemma collapse_abs P : collapse (abs_aff P) = abs_aff P.
Proof. destruct P as [[x y]|]; [|reflexivity]. cbn. destruct (fb x 0 && fb y 0) eqn:K; [reflexivity|]. cbn. rewrite K. reflexivity. Qed.
Lemma aff_doubled_any P : C (abs_aff P) -> exists R, aff_doubled O E P = Ok R /\ abs_aff R = collapse (padd a (abs_aff P) (abs_aff P)).
Proof.
  intros H. destruct P as [[x y]|]; [|exists None; split; reflexivity].
  unfold aff_doubled. rewrite (aff_id F). destruct (abs_aff (Some (x, y))) as [|x' y'] eqn:A.
  - exists None. split; reflexivity.
  - apply (abs_aff_inv F) in A. injection A as <- <-. ev.
    destruct (fb y 0) eqn:Ey.
    + apply (fb_true F) in Ey. subst y. exists None. split; [reflexivity|]. cbn [EcSpec.abs_aff]. symmetry.
      cbn [padd]. destruct (feq_dec x x) as [_|n]; [|contradiction]. destruct (feq_dec 0 (- 0)) as [_|n]; [reflexivity|]. exfalso. apply n. ring.
    + apply (fb_false F) in Ey. cbn [orb]. replace (((2 : F) * 1) * y) with (2 * y) by ring.
      destruct (feq_dec (2 * y) 0) as [K|_]; [exfalso; apply (dbl_ne F two_ne y Ey K)|]. cbn [bind].
      eexists. split; [reflexivity|]. rewrite padd_tangent by assumption. unfold third.
      rewrite abs_collapse. f_equal. f_equal; fold a; field; auto.
Qed.
Lemma aff_add_any P Q : C (abs_aff P) -> C (abs_aff Q) -> exists R, aff_add O E P Q = Ok R /\ abs_aff R = collapse (padd a (abs_aff P) (abs_aff Q)).
Proof.
  intros HP HQ. unfold aff_add. rewrite !(aff_id F). destruct (abs_aff P) as [|x y] eqn:AP.
  { exists Q. split; [reflexivity|]. symmetry. apply collapse_abs. }
  destruct (abs_aff Q) as [|x' y'] eqn:AQ.
  { exists P. split; [reflexivity|]. rewrite padd_0_r, <- AP. symmetry. apply collapse_abs. }
  pose proof (abs_aff_inv F _ _ _ AP). pose proof (abs_aff_inv F _ _ _ AQ). subst P Q. ev.
  destruct (fb (x' - x) 0) eqn:Ex.
  - apply (fb_true F) in Ex. apply sub_0 in Ex. subst x'. destruct (fb y y') eqn:Ey.
    + apply (fb_true F) in Ey. subst y'. rewrite <- AP. apply aff_doubled_any. rewrite AP. exact HP.
    + apply (fb_false F) in Ey. exists None. split; [reflexivity|]. cbn. destruct (feq_dec x x) as [_|n]; [|contradiction].
      destruct (feq_dec y (- y')) as [_|n]; [reflexivity|]. exfalso. destruct (same_x F a b _ _ _ HP HQ); contradiction.
  - apply (fb_false F) in Ex. destruct (feq_dec (x' - x) 0) as [K|_]; [contradiction|]. cbn [bind].
    eexists. split; [reflexivity|]. assert (N : x <> x') by (intros K; apply Ex; rewrite K; ring).
    rewrite padd_chord by exact N. reflexivity.
Qed.
Lemma aff_sub_any P Q : C (abs_aff P) -> C (abs_aff Q) -> exists R, aff_sub O E P Q = Ok R /\ abs_aff R = collapse (padd a (abs_aff P) (popp (abs_aff Q))).
Proof.
  intros HP HQ. unfold aff_sub. destruct (aff_inverted_ok F Q) as (N & -> & EN). cbn [bind]. rewrite <- EN. apply aff_add_any; [exact HP|].
  rewrite EN. apply popp_curve. exact HQ.
Qed.
End X.

(** ** classes modulo the origin *)
Section CLS.
Variable F : fieldT.
Variables a b : F.
Hypothesis two_ne : (1 + 1)%f <> (0%f : F).
Hypothesis Hdisc : disc a b <> 0%f.
Hypothesis b0 : b = 0%f.
Add Field FldR : (f_theory F).
Notation C := (on_curve a b).
Notation "P ++ Q" := (padd a P Q).
Notation T := (@origin F).
Notation "P ~ Q" := (same_class a P Q) (at level 70).
Let curve := padd_curve F a b two_ne.
Let assoc := padd_assoc F a b two_ne Hdisc.
Let comm := padd_comm F a b.
Lemma T_curve : C T. Proof. cbn. rewrite b0. ring. Qed.
Lemma T_opp : popp T = T. Proof. cbn. unfold origin. f_equal. ring. Qed.
Lemma T_dbl : T ++ T = Inf. Proof. rewrite <- T_opp at 2. apply padd_opp_r. Qed.
Lemma T_shift P : C P -> (P ++ T) ++ T = P.
Proof. intros H. rewrite assoc, T_dbl, padd_0_r by auto using T_curve. reflexivity. Qed.
Lemma cls_refl P : P ~ P. Proof. left. reflexivity. Qed.
Lemma cls_sym P Q : C Q -> P ~ Q -> Q ~ P.
Proof. intros CQ [->| ->]; [left; reflexivity|right]. rewrite T_shift by assumption. reflexivity. Qed.
Lemma cls_trans P Q R : C R -> P ~ Q -> Q ~ R -> P ~ R.
Proof. intros CR [->| ->] [->| ->]; [left|right|right|left]; try reflexivity. apply T_shift. exact CR. Qed.
Lemma cls_add P Q P' Q' : C P' -> C Q' -> P ~ P' -> Q ~ Q' -> P ++ Q ~ P' ++ Q'.
Proof.
  intros CP CQ [->| ->] [->| ->]; pose proof T_curve as CT.
  - left. reflexivity.
  - right. rewrite assoc by auto. reflexivity.
  - right. rewrite (assoc P' T), (comm T), <- assoc by auto. reflexivity.
  - left. rewrite (assoc P' T), (comm Q' T), <- (assoc T T), T_dbl by auto. reflexivity.
Qed.
Lemma cls_opp P Q : C Q -> P ~ Q -> popp P ~ popp Q.
Proof. intros CQ [->| ->]; [left; reflexivity|right]. rewrite (opp_add F a b two_ne) by auto using T_curve. rewrite T_opp. reflexivity. Qed.
Lemma cls_inf P : P ~ Inf <-> P = Inf \/ P = T. Proof. unfold same_class. cbn. tauto. Qed.
Lemma cls_nmul n P Q : C P -> C Q -> P ~ Q -> nmul a n P ~ nmul a n Q.
Proof.
  intros CP CQ H. induction n as [|n IH]; cbn [nmul]; [left; reflexivity|]. apply cls_add; auto.
  apply (nmul_curve F a b two_ne). exact CQ.
Qed.
Lemma cls_zmul k P Q : C P -> C Q -> P ~ Q -> zmul a k P ~ zmul a k Q.
Proof.
  intros CP CQ H. unfold zmul. destruct (k <? 0); [apply cls_opp; [apply (nmul_curve F a b two_ne); exact CQ|]|]; apply cls_nmul; assumption.
Qed.
Lemma cls_curve P Q : C Q -> P ~ Q -> C P. Proof. intros CQ [->| ->]; auto using T_curve. Qed.
Lemma collapse_cls P : collapse P ~ P.
Proof.
  destruct P as [|x y]; [left; reflexivity|]. cbn. destruct (fb x 0%f) eqn:Ex; [|left; reflexivity]. destruct (fb y 0%f) eqn:Ey; cbn; [|left; reflexivity].
  right. apply fb_true in Ex, Ey. subst. symmetry. apply T_dbl.
Qed.
Lemma collapse_id P : P <> T -> collapse P = P.
Proof.
  intros H. destruct P as [|x y]; [reflexivity|]. cbn. destruct (fb x 0%f) eqn:Ex; [|reflexivity]. destruct (fb y 0%f) eqn:Ey; cbn; [|reflexivity].
  exfalso. apply H. apply fb_true in Ex, Ey. subst. reflexivity.
Qed.
Lemma collapse_T P : collapse P = Inf <-> P = Inf \/ P = T.
Proof.
  split.
  - intros H. destruct P as [|x y]; [left; reflexivity|right]. cbn in H. destruct (fb x 0%f) eqn:Ex; [|discriminate]. destruct (fb y 0%f) eqn:Ey; cbn in H; [|discriminate].
    apply fb_true in Ex, Ey. subst. reflexivity.
  - intros [->| ->]; [reflexivity|]. cbn. rewrite !fb_refl. reflexivity.
Qed.
Lemma abs_not_T P : abs_aff P <> T.
Proof.
  intros H. destruct P as [[x y]|]; cbn in H; [|discriminate]. destruct (fb x 0%f) eqn:Ex, (fb y 0%f) eqn:Ey; cbn in H; try discriminate;
  injection H as -> ->; rewrite fb_refl in *; discriminate.
Qed.
End CLS.

(** ** the objects *)
Section OBJ.
Variable c : cap.
Variable p : bigint.
Variable Pp : prime (value p).
Variables a b : bigint.
Hypothesis CO : curve_ok c p Pp a b.
Notation F := (GFp p Pp).
Notation O := (fe_ops c p).
Notation E := (coeffs_of c p a b).
Notation A := (kval p Pp a). Notation B := (kval p Pp b).
Notation on := (on_curve A B).
Notation fz0 := (is_zero a). Notation fm3 := (compare a (subs1 c false (zero c) p 3) =? 0).
Notation E2 := (EcTransfer.E2 p Pp a b fz0 fm3).
Notation aff_pt := (aff_pt p Pp).
Notation "P ~ Q" := (same_class A P Q) (at level 70).
Notation T := (@origin F).
Let tw := two_ne c p Pp a b CO.
Let hd := Hd c p Pp a b CO.
Lemma aff_add_all P Q : good2 c p P -> good2 c p Q -> on (aff_pt P) -> on (aff_pt Q) ->
  exists R, aff_add O E P Q = Ok R /\ good2 c p R /\ aff_pt R = collapse (padd A (aff_pt P) (aff_pt Q)).
Proof.
  intros GP GQ CP CQ. eapply lift2; [apply aff_add_rel; eauto using Hp, p3, Ha, Hb, good_R2|].
  apply (aff_add_any F E2 tw); assumption.
Qed.
Lemma aff_doubled_all P : good2 c p P -> on (aff_pt P) -> exists R, aff_doubled O E P = Ok R /\ good2 c p R /\ aff_pt R = collapse (padd A (aff_pt P) (aff_pt P)).
Proof.
  intros GP CP. eapply lift2; [apply aff_doubled_rel; eauto using Hp, p3, Ha, Hb, good_R2|].
  apply (aff_doubled_any F E2 tw); assumption.
Qed.
Lemma aff_sub_all P Q : good2 c p P -> good2 c p Q -> on (aff_pt P) -> on (aff_pt Q) ->
  exists R, aff_sub O E P Q = Ok R /\ good2 c p R /\ aff_pt R = collapse (padd A (aff_pt P) (popp (aff_pt Q))).
Proof.
  intros GP GQ CP CQ. eapply lift2; [apply aff_sub_rel; eauto using Hp, p3, Ha, Hb, good_R2|].
  apply (aff_sub_any F E2 tw); assumption.
Qed.
Hypothesis bz : value b = 0.
Lemma B0 : B = 0%f. Proof. unfold kval. rewrite bz. reflexivity. Qed.
Definition rel_cls (P : option (fe * fe)) (X : point F) : Prop := good2 c p P /\ aff_pt P ~ X /\ on X.
Lemma cls_on P X : rel_cls P X -> on (aff_pt P).
Proof. intros (_ & H & K). exact (cls_curve F A B tw B0 _ _ K H). Qed.
Lemma step_cls (o : outcome (option (fe * fe))) Y Z : on Y -> on Z -> Y ~ Z -> (exists R, o = Ok R /\ good2 c p R /\ aff_pt R = collapse Y) -> exists R, o = Ok R /\ rel_cls R Z.
Proof.
  intros CY CZ H (R & -> & G & X). exists R. split; [reflexivity|]. split; [exact G|]. split; [|exact CZ]. rewrite X.
  apply (cls_trans F A B tw hd B0) with Y; auto. apply (collapse_cls F A B tw hd B0).
Qed.
Lemma add_cls P Q X Y : rel_cls P X -> rel_cls Q Y -> exists R, aff_add O E P Q = Ok R /\ rel_cls R (padd A X Y).
Proof.
  intros HP HQ. pose proof (cls_on _ _ HP) as CP. pose proof (cls_on _ _ HQ) as CQ. destruct HP as (GP & KP & CX), HQ as (GQ & KQ & CY).
  apply step_cls with (padd A (aff_pt P) (aff_pt Q)); [apply (padd_curve F A B tw); auto|apply (padd_curve F A B tw); auto|apply (cls_add F A B tw hd B0); auto|].
  apply aff_add_all; assumption.
Qed.
Lemma dbl_cls P X : rel_cls P X -> exists R, aff_doubled O E P = Ok R /\ rel_cls R (padd A X X).
Proof.
  intros HP. pose proof (cls_on _ _ HP) as CP. destruct HP as (GP & KP & CX).
  apply step_cls with (padd A (aff_pt P) (aff_pt P)); [apply (padd_curve F A B tw); auto|apply (padd_curve F A B tw); auto|apply (cls_add F A B tw hd B0); auto|].
  apply aff_doubled_all; assumption.
Qed.
Lemma inv_cls P X : rel_cls P X -> exists R, aff_inverted O P = Ok R /\ rel_cls R (popp X).
Proof.
  intros (GP & KP & CX). destruct (aff_inverted_claim c p Pp a b CO P GP) as (R & -> & G & K). exists R. split; [reflexivity|]. split; [exact G|].
  rewrite K. split; [apply (cls_opp F A B tw B0); assumption|apply popp_curve; exact CX].
Qed.
Lemma id_cls P X k : rel_cls P X -> aff_is_identity O P = true -> rel_cls P (zmul A k X).
Proof.
  intros (GP & KP & CX) I. apply (aff_id_claim c p Pp a b CO P GP) in I. split; [exact GP|]. split; [|apply (zmul_curve F A B tw); exact CX].
  rewrite I in *. rewrite <- (zmul_inf F A k). apply (cls_zmul F A B tw hd B0); auto. exact Logic.I.
Qed.
Lemma aff_mul_cls P s : good2 c p P -> on (aff_pt P) -> valid c s ->
  exists R, aff_mul O E P s = Ok R /\ good2 c p R /\ on (aff_pt R) /\ aff_pt R ~ zmul A (value s) (aff_pt P).
Proof.
  intros GP CP Vs. unfold aff_mul, aff_loop.
  assert (H0 : rel_cls P (aff_pt P)) by (split; [exact GP|split; [left; reflexivity|exact CP]]).
  assert (HI : rel_cls None Inf) by (split; [exact Logic.I|split; [left; reflexivity|exact Logic.I]]).
  assert (HC : forall q X, rel_cls q X -> on X) by (intros q X (_ & _ & H); exact H).
  destruct (mul_ladder_ok F A B tw hd _ rel_cls (aff_add O E) (aff_doubled O E) (aff_inverted O) (aff_is_identity O) None HC HI id_cls add_cls dbl_cls inv_cls c P s (aff_pt P) Vs H0) as (R & K & HR).
  exists R. split; [exact K|]. split; [apply HR|]. split; [exact (cls_on _ _ HR)|apply HR].
Qed.
Lemma aff_mul_add_cls x P y Q : good2 c p P -> good2 c p Q -> on (aff_pt P) -> on (aff_pt Q) -> valid c x -> valid c y -> 0 <= value x -> 0 <= value y ->
  room c (size x + 1) -> room c (size y + 1) ->
  exists R, aff_mul_add O E c x P y Q = Ok R /\ good2 c p R /\ on (aff_pt R) /\ aff_pt R ~ padd A (zmul A (value x) (aff_pt P)) (zmul A (value y) (aff_pt Q)).
Proof.
  intros GP GQ CP CQ Vx Vy Px Py Rx Ry. unfold aff_mul_add.
  assert (H0 : rel_cls P (aff_pt P)) by (split; [exact GP|split; [left; reflexivity|exact CP]]).
  assert (H1 : rel_cls Q (aff_pt Q)) by (split; [exact GQ|split; [left; reflexivity|exact CQ]]).
  assert (HI : rel_cls None Inf) by (split; [exact Logic.I|split; [left; reflexivity|exact Logic.I]]).
  assert (HC : forall q X, rel_cls q X -> on X) by (intros q X (_ & _ & H); exact H).
  destruct (mul_add_ok F A B tw hd _ rel_cls (aff_add O E) (aff_doubled O E) (aff_inverted O) (aff_is_identity O) None HC HI id_cls add_cls dbl_cls inv_cls c x P y Q _ _ Vx Vy Px Py Rx Ry H0 H1) as (R & K & HR).
  exists R. split; [exact K|]. split; [apply HR|]. split; [exact (cls_on _ _ HR)|apply HR].
Qed.
Lemma aff_valid_cls n P : good2 c p P -> valid c n ->
  exists v, aff_is_valid O E n P = Ok v /\ (v = true <-> aff_pt P <> Inf /\ on (aff_pt P) /\ (zmul A (value n) (aff_pt P) = Inf \/ zmul A (value n) (aff_pt P) = T)).
Proof.
  intros GP Vn. unfold aff_is_valid, is_valid_with. pose proof (aff_id_claim c p Pp a b CO P GP) as I. destruct (aff_is_identity O P).
  { exists false. split; [reflexivity|]. split; [discriminate|]. intros (H & _). exfalso. apply H, I. reflexivity. }
  destruct (aff_on_claim c p Pp a b CO P GP) as ([|] & -> & H); cbn [bind negb].
  - assert (CP : on (aff_pt P)) by (apply H; reflexivity).
    destruct (aff_mul_cls P n GP CP Vn) as (Q & -> & G & CQ & X). cbn [bind]. exists (aff_is_identity O Q). split; [reflexivity|].
    rewrite (aff_id_claim c p Pp a b CO Q G). rewrite <- (cls_inf F A). pose proof (zmul_curve F A B tw (value n) (aff_pt P) CP) as CN. split.
    + intros Z. split; [|split; [exact CP|]]; [intros K; apply I in K; discriminate|]. rewrite Z in X. apply (cls_sym F A B tw hd B0); assumption.
    + intros (_ & _ & K). pose proof (cls_trans F A B tw hd B0 _ _ Inf Logic.I X K) as W. apply (cls_inf F A) in W. destruct W as [W|W]; [exact W|].
      exfalso. revert W. unfold EcFeSpec.aff_pt. apply abs_not_T.
  - exists false. split; [reflexivity|]. split; [discriminate|]. intros (_ & K & _). apply H in K. discriminate.
Qed.
(** exact results when the origin is not a multiple of the point *)
Section FREE.
Variable P0 : point F.
Hypothesis C0 : on P0.
Hypothesis free : forall k, zmul A k P0 <> T.
Definition rel_free (P : option (fe * fe)) (X : point F) : Prop := good2 c p P /\ aff_pt P = X /\ exists k, X = zmul A k P0.
Lemma free_curve P X : rel_free P X -> on X. Proof. intros (_ & _ & k & ->). apply (zmul_curve F A B tw). exact C0. Qed.
Lemma add_free P Q X Y : rel_free P X -> rel_free Q Y -> exists R, aff_add O E P Q = Ok R /\ rel_free R (padd A X Y).
Proof.
  intros HP HQ. pose proof (free_curve _ _ HP) as CX. pose proof (free_curve _ _ HQ) as CY. destruct HP as (GP & <- & j & EX), HQ as (GQ & <- & k & EY).
  destruct (aff_add_all P Q GP GQ CX CY) as (R & -> & G & K). exists R. split; [reflexivity|]. split; [exact G|].
  assert (S : padd A (aff_pt P) (aff_pt Q) = zmul A (j + k) P0) by (rewrite EX, EY; symmetry; apply (zmul_add F A B tw hd); exact C0).
  split; [|exists (j + k); exact S]. rewrite K. apply (collapse_id F A B tw hd B0). rewrite S. apply free.
Qed.
Lemma dbl_free P X : rel_free P X -> exists R, aff_doubled O E P = Ok R /\ rel_free R (padd A X X).
Proof.
  intros HP. pose proof (free_curve _ _ HP) as CX. destruct HP as (GP & <- & j & EX).
  destruct (aff_doubled_all P GP CX) as (R & -> & G & K). exists R. split; [reflexivity|]. split; [exact G|].
  assert (S : padd A (aff_pt P) (aff_pt P) = zmul A (j + j) P0) by (rewrite EX; symmetry; apply (zmul_add F A B tw hd); exact C0).
  split; [|exists (j + j); exact S]. rewrite K. apply (collapse_id F A B tw hd B0). rewrite S. apply free.
Qed.
Lemma inv_free P X : rel_free P X -> exists R, aff_inverted O P = Ok R /\ rel_free R (popp X).
Proof.
  intros (GP & <- & j & EX). destruct (aff_inverted_claim c p Pp a b CO P GP) as (R & -> & G & K). exists R. split; [reflexivity|]. split; [exact G|].
  split; [exact K|]. exists (- j). rewrite EX. symmetry. apply (zmul_opp F A B). exact C0.
Qed.
Lemma id_free P X k : rel_free P X -> aff_is_identity O P = true -> rel_free P (zmul A k X).
Proof.
  intros (GP & <- & j & EX) I. apply (aff_id_claim c p Pp a b CO P GP) in I. split; [exact GP|]. rewrite I, zmul_inf. split; [reflexivity|]. exists 0. reflexivity.
Qed.
End FREE.
Lemma aff_mul_free P s : good2 c p P -> on (aff_pt P) -> valid c s -> (forall k, zmul A k (aff_pt P) <> T) ->
  exists R, aff_mul O E P s = Ok R /\ good2 c p R /\ aff_pt R = zmul A (value s) (aff_pt P).
Proof.
  intros GP CP Vs FR. unfold aff_mul, aff_loop. set (rel := rel_free (aff_pt P)).
  assert (H0 : rel P (aff_pt P)) by (split; [exact GP|split; [reflexivity|exists 1; symmetry; apply zmul_1]]).
  assert (HI : rel None Inf) by (split; [exact Logic.I|split; [reflexivity|exists 0; reflexivity]]).
  destruct (mul_ladder_ok F A B tw hd _ rel (aff_add O E) (aff_doubled O E) (aff_inverted O) (aff_is_identity O) None (free_curve _ CP) HI (id_free _) (add_free _ CP FR) (dbl_free _ CP FR) (inv_free _ CP) c P s (aff_pt P) Vs H0) as (R & K & HR).
  exists R. split; [exact K|]. split; apply HR.
Qed.
(** a point of odd order has no multiple at the origin *)
Lemma odd_free X n : on X -> Z.odd n = true -> zmul A n X = Inf -> forall k, zmul A k X <> T.
Proof.
  intros CX On K k H. apply Z.odd_spec in On. destruct On as (m & ->).
  assert (Z1 : zmul A (2 * m + 1) (zmul A k X) = T).
  { rewrite H, (zmul_add F A B tw hd), Z.mul_comm, (zmul_mul F A B tw hd), zmul_1 by apply (T_curve F A B B0).
    replace (zmul A 2 T) with (padd A T T) by (change (zmul A 2 T) with (padd A T (padd A T Inf)); rewrite padd_0_r; reflexivity).
    rewrite (T_dbl F A), zmul_inf. reflexivity. }
  rewrite <- (zmul_mul F A B tw hd), Z.mul_comm, (zmul_mul F A B tw hd), K, zmul_inf in Z1 by exact CX. discriminate.
Qed.
End OBJ.
