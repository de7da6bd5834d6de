(** The point formulas over exact field arithmetic compute the group law. *)
From Coq Require Import Field Ring Setoid List ZArith Bool Lia.
From Verif Require Import Outcome EcGroup EcGroupProofs EcModel EcSpec.
Open Scope f_scope.

Section X.
Variable F : fieldT.
Add Field Fld2 : (f_theory F).
Variable E : coeffs (exact_ops F).
Let a : F := cv_a _ E.
Let b : F := cv_b _ E.
Hypothesis two_ne : (2 : F) <> 0.
Hypothesis Hdisc : disc a b <> 0.
Hypothesis Hzero : cv_a_is_zero _ E = true -> a = 0.
Hypothesis Hm3 : cv_a_is_minus_3 _ E = true -> a = - (3).
Notation C := (on_curve a b).
Notation O := (exact_ops F).
Notation abs_aff := (@EcSpec.abs_aff F). Notation abs_proj := (@EcSpec.abs_proj F). Notation abs_jac := (@EcSpec.abs_jac F).

Lemma fb_true (x y : F) : fb x y = true <-> x = y.
Proof. unfold fb. destruct (feq_dec x y); split; congruence. Qed.
Lemma fb_false (x y : F) : fb x y = false <-> x <> y.
Proof. unfold fb. destruct (feq_dec x y); split; congruence. Qed.
Lemma fb_refl (x : F) : fb x x = true. Proof. apply fb_true. reflexivity. Qed.
Lemma sub_eq0 (x y : F) : x - y = 0 <-> x = y.
Proof. split; [apply sub_0|intros ->; ring]. Qed.
Lemma one_ne : (1 : F) <> 0. Proof. apply (F_1_neq_0 (f_theory F)). Qed.
(** evaluation of the bind chains over exact arithmetic *)
Ltac ev := cbn [bind o_add o_sub o_mul o_sqr o_neg o_addk o_mulk o_muli o_is_zero o_is_one o_eq0 o_eqb o_lit o_div o_inv exact_ops fz fpos EcModel.T].

(** ** affine *)
Section AFF.
Hypothesis b_ne : b <> 0.
Lemma abs_00 x y : C (Aff x y) -> abs_aff (Some (x, y)) = Aff x y.
Proof.
  intros H. cbn. destruct (fb x 0) eqn:Ex, (fb y 0) eqn:Ey; try reflexivity. exfalso.
  apply fb_true in Ex, Ey. subst. cbn in H. apply b_ne.
  replace b with (0 * 0 * 0 + a * 0 + b) by ring. rewrite <- H. ring.
Qed.
Lemma aff_id P : aff_is_identity O P = match abs_aff P with Inf => true | Aff _ _ => false end.
Proof. destruct P as [[x y]|]; [|reflexivity]. cbn. destruct (fb x 0 && fb y 0); reflexivity. Qed.
Lemma abs_aff_inv P x y : abs_aff P = Aff x y -> P = Some (x, y).
Proof. destruct P as [[u v]|]; cbn; [|discriminate]. destruct (fb u 0 && fb v 0); [discriminate|]. intros [= -> ->]. reflexivity. Qed.
Lemma aff_doubled_ok P : C (abs_aff P) -> exists R, aff_doubled O E P = Ok R /\ abs_aff R = padd a (abs_aff P) (abs_aff P).
Proof.
  intros H. destruct P as [[x y]|]; [|exists None; split; reflexivity].
  unfold aff_doubled. rewrite aff_id. destruct (abs_aff (Some (x, y))) as [|x' y'] eqn:A.
  - exists None. split; reflexivity.
  - apply abs_aff_inv in A. injection A as <- <-. pose proof (padd_curve F a b two_ne _ _ H H) as H3. ev.
    destruct (fb y 0) eqn:Ey.
    + apply fb_true in Ey. subst y. exists None. split; [reflexivity|]. cbn [abs_aff]. symmetry.
      cbn [padd]. destruct (feq_dec x x) as [_|n]; [|contradiction]. destruct (feq_dec 0 (- 0)) as [_|n]; [reflexivity|]. exfalso. apply n. ring.
    + apply fb_false in Ey. cbn [orb]. replace (((2 : F) * 1) * y) with (2 * y) by ring.
      destruct (feq_dec (2 * y) 0) as [K|_]; [exfalso; apply (dbl_ne F two_ne y Ey K)|]. cbn [bind].
      eexists. split; [reflexivity|]. rewrite padd_tangent in H3 |- * by assumption. unfold third in *.
      rewrite <- abs_00 by exact H3. f_equal. f_equal. f_equal; fold a; field; auto.
Qed.
Lemma aff_add_ok P Q : C (abs_aff P) -> C (abs_aff Q) -> exists R, aff_add O E P Q = Ok R /\ abs_aff R = padd a (abs_aff P) (abs_aff Q).
Proof.
  intros HP HQ. unfold aff_add. rewrite !aff_id. destruct (abs_aff P) as [|x y] eqn:AP.
  { exists Q. split; [reflexivity|]. reflexivity. }
  destruct (abs_aff Q) as [|x' y'] eqn:AQ.
  { exists P. split; [reflexivity|]. exact AP. }
  pose proof (abs_aff_inv _ _ _ AP). pose proof (abs_aff_inv _ _ _ AQ). subst P Q. ev.
  pose proof (padd_curve F a b two_ne _ _ HP HQ) as H3.
  destruct (fb (x' - x) 0) eqn:Ex.
  - apply fb_true in Ex. apply sub_0 in Ex. subst x'. destruct (fb y y') eqn:Ey.
    + apply fb_true in Ey. subst y'. rewrite <- AP. apply aff_doubled_ok. rewrite AP. exact HP.
    + apply fb_false in Ey. exists None. split; [reflexivity|]. cbn. destruct (feq_dec x x) as [_|n]; [|contradiction].
      destruct (feq_dec y (- y')) as [_|n]; [reflexivity|]. exfalso. destruct (same_x F a b _ _ _ HP HQ); contradiction.
  - apply fb_false in Ex. destruct (feq_dec (x' - x) 0) as [K|_]; [contradiction|]. cbn [bind].
    eexists. split; [reflexivity|]. assert (N : x <> x') by (intros K; apply Ex; rewrite K; ring).
    rewrite padd_chord in H3 |- * by exact N. unfold third in *. rewrite <- abs_00 by exact H3. reflexivity.
Qed.
Lemma aff_inverted_ok P : exists R, aff_inverted O P = Ok R /\ abs_aff R = popp (abs_aff P).
Proof.
  unfold aff_inverted. rewrite aff_id. destruct (abs_aff P) as [|x y] eqn:AP.
  - exists P. split; [reflexivity|exact AP].
  - pose proof (abs_aff_inv _ _ _ AP). subst P. ev. eexists. split; [reflexivity|]. cbn in AP |- *.
    destruct (fb x 0) eqn:Ex; cbn in AP |- *; [|reflexivity]. destruct (fb y 0) eqn:Ey; [discriminate|].
    destruct (fb (- y) 0) eqn:Ez; [|reflexivity]. exfalso. apply fb_true in Ez. apply fb_false in Ey. apply (opp_ne F y Ey Ez).
Qed.
Lemma aff_sub_ok P Q : C (abs_aff P) -> C (abs_aff Q) -> exists R, aff_sub O E P Q = Ok R /\ abs_aff R = padd a (abs_aff P) (popp (abs_aff Q)).
Proof.
  intros HP HQ. unfold aff_sub. destruct (aff_inverted_ok Q) as (N & -> & EN). cbn [bind]. rewrite <- EN. apply aff_add_ok; [exact HP|].
  rewrite EN. apply popp_curve. exact HQ.
Qed.
Lemma aff_on_ok P : exists v, aff_is_on_curve O E P = Ok v /\ (v = true <-> C (abs_aff P)).
Proof.
  unfold aff_is_on_curve. rewrite aff_id. destruct (abs_aff P) as [|x y] eqn:AP.
  - exists true. split; [reflexivity|]. cbn. tauto.
  - pose proof (abs_aff_inv _ _ _ AP). subst P. ev. eexists. split; [reflexivity|]. rewrite fb_true, sub_eq0. fold a b. cbn.
    replace ((x * x + a) * x + b) with (x * x * x + a * x + b) by ring. reflexivity.
Qed.
Lemma aff_eqb_ok P Q : aff_eqb O P Q = true <-> abs_aff P = abs_aff Q.
Proof.
  destruct P as [[x y]|], Q as [[x' y']|]; cbn; [| | |tauto].
  - destruct (fb x x') eqn:Ex; destruct (fb y y') eqn:Ey; cbn;
      try (apply fb_true in Ex; subst x'); try (apply fb_true in Ey; subst y'); try apply fb_false in Ex; try apply fb_false in Ey.
    + tauto.
    + split; [discriminate|]. destruct (fb x 0) eqn:?, (fb y 0) eqn:?, (fb y' 0) eqn:?; cbn; try discriminate; intros K; try congruence.
      apply fb_true in Heqb1, Heqb2. congruence.
    + split; [discriminate|]. destruct (fb x 0) eqn:?, (fb y 0) eqn:?, (fb x' 0) eqn:?; cbn; try discriminate; intros K; try congruence.
      apply fb_true in Heqb0, Heqb2. congruence.
    + split; [discriminate|]. destruct (fb x 0) eqn:?, (fb y 0) eqn:?, (fb x' 0) eqn:?, (fb y' 0) eqn:?; cbn; try discriminate; intros K; try congruence.
      apply fb_true in Heqb0, Heqb2. congruence.
  - destruct (fb x 0 && fb y 0); split; congruence.
  - destruct (fb x' 0 && fb y' 0); split; congruence.
Qed.
End AFF.

(** ** the parts shared by homogeneous and Jacobian points *)
Lemma id3_proj P : is_identity3 O P = match abs_proj P with Inf => true | Aff _ _ => false end.
Proof. destruct P as [[[x y] z]|]; [|reflexivity]. cbn. destruct (fb z 0); reflexivity. Qed.
Lemma id3_jac P : is_identity3 O P = match abs_jac P with Inf => true | Aff _ _ => false end.
Proof. destruct P as [[[x y] z]|]; [|reflexivity]. cbn. destruct (fb z 0); reflexivity. Qed.
Lemma proj_inv P x y : abs_proj P = Aff x y -> exists z, z <> 0 /\ P = Some (x * z, y * z, z).
Proof.
  destruct P as [[[u v] z]|]; cbn; [|discriminate]. destruct (fb z 0) eqn:Ez; [discriminate|]. apply fb_false in Ez. intros [= <- <-].
  exists z. split; [exact Ez|]. do 3 f_equal; field; exact Ez.
Qed.
Lemma jac_inv P x y : abs_jac P = Aff x y -> exists z, z <> 0 /\ P = Some (x * (z * z), y * (z * z * z), z).
Proof.
  destruct P as [[[u v] z]|]; cbn; [|discriminate]. destruct (fb z 0) eqn:Ez; [discriminate|]. apply fb_false in Ez. intros [= <- <-].
  exists z. split; [exact Ez|]. do 3 f_equal; field; exact Ez.
Qed.
Lemma abs_proj_some x y z u v : z <> 0 -> u = x * z -> v = y * z -> abs_proj (Some (u, v, z)) = Aff x y.
Proof. intros N -> ->. cbn. destruct (fb z 0) eqn:Ez; [apply fb_true in Ez; contradiction|]. f_equal; field; exact N. Qed.
Lemma abs_jac_some x y z u v : z <> 0 -> u = x * (z * z) -> v = y * (z * z * z) -> abs_jac (Some (u, v, z)) = Aff x y.
Proof. intros N -> ->. cbn. destruct (fb z 0) eqn:Ez; [apply fb_true in Ez; contradiction|]. f_equal; field; exact N. Qed.
Lemma mul_ne' (x y : F) : x <> 0 -> y <> 0 -> x * y <> 0. Proof. apply mul_ne. Qed.
Lemma mul_cancel (x y z : F) : z <> 0 -> x * z = y * z -> x = y.
Proof. intros N H. replace x with (x * z / z) by (field; exact N). rewrite H. field. exact N. Qed.
Lemma fb_scale (x y z : F) : z <> 0 -> fb (x * z) (y * z) = fb x y.
Proof.
  intros N. destruct (fb x y) eqn:H; [apply fb_true in H; subst; apply fb_refl|]. apply fb_false. apply fb_false in H.
  intros K. apply H. apply (mul_cancel _ _ z N K).
Qed.
Lemma fb_ext (x y x' y' : F) : x = x' -> y = y' -> fb x y = fb x' y'. Proof. intros -> ->. reflexivity. Qed.
Lemma fb_scale0 (x z : F) : z <> 0 -> fb (x * z) 0 = fb x 0.
Proof. intros N. rewrite <- (fb_scale x 0 z N). apply fb_ext; [reflexivity|ring]. Qed.
Lemma double_zero x : C (Aff x 0) -> padd a (Aff x 0) (Aff x 0) = Inf.
Proof. intros _. cbn. destruct (feq_dec x x) as [_|n]; [|contradiction]. destruct (feq_dec 0 (- 0)) as [_|n]; [reflexivity|]. exfalso. apply n. ring. Qed.
Lemma sum_opposite x y y' : C (Aff x y) -> C (Aff x y') -> y <> y' -> padd a (Aff x y) (Aff x y') = Inf.
Proof.
  intros H1 H2 N. cbn. destruct (feq_dec x x) as [_|n]; [|contradiction].
  destruct (feq_dec y (- y')) as [_|n]; [reflexivity|]. exfalso. destruct (same_x F a b _ _ _ H1 H2); contradiction.
Qed.
Lemma inverted_proj_ok P : exists R, inverted3 O P = Ok R /\ abs_proj R = popp (abs_proj P).
Proof.
  unfold inverted3. rewrite id3_proj. destruct (abs_proj P) as [|x y] eqn:AP; [exists P; split; [reflexivity|exact AP]|].
  destruct (proj_inv _ _ _ AP) as (z & N & ->). ev. eexists. split; [reflexivity|]. apply abs_proj_some; [exact N|ring|ring].
Qed.
Lemma inverted_jac_ok P : exists R, inverted3 O P = Ok R /\ abs_jac R = popp (abs_jac P).
Proof.
  unfold inverted3. rewrite id3_jac. destruct (abs_jac P) as [|x y] eqn:AP; [exists P; split; [reflexivity|exact AP]|].
  destruct (jac_inv _ _ _ AP) as (z & N & ->). ev. eexists. split; [reflexivity|]. apply abs_jac_some; [exact N|ring|ring].
Qed.
Lemma of_affine_proj P : abs_proj (of_affine O P) = abs_aff P.
Proof.
  unfold of_affine. rewrite aff_id. destruct (abs_aff P) as [|x y] eqn:AP; [reflexivity|]. rewrite (abs_aff_inv _ _ _ AP). ev.
  apply abs_proj_some; [apply one_ne|ring|ring].
Qed.
Lemma of_affine_jac P : abs_jac (of_affine O P) = abs_aff P.
Proof.
  unfold of_affine. rewrite aff_id. destruct (abs_aff P) as [|x y] eqn:AP; [reflexivity|]. rewrite (abs_aff_inv _ _ _ AP). ev.
  apply abs_jac_some; [apply one_ne|ring|ring].
Qed.

(** ** homogeneous coordinates *)
Lemma proj_doubled_ok P : C (abs_proj P) -> exists R, proj_doubled O E P = Ok R /\ abs_proj R = padd a (abs_proj P) (abs_proj P).
Proof.
  intros H. destruct P as [[[x0 y0] z0]|]; [|exists None; split; reflexivity].
  unfold proj_doubled. rewrite id3_proj. destruct (abs_proj (Some (x0, y0, z0))) as [|x y] eqn:A.
  - exists None. split; reflexivity.
  - destruct (proj_inv _ _ _ A) as (z & Nz & [= -> -> ->]). ev. cbn [orb]. rewrite fb_scale0 by exact Nz. destruct (fb y 0) eqn:Ey.
    + apply fb_true in Ey. subst y. exists None. split; [reflexivity|]. symmetry. apply double_zero. exact H.
    + apply fb_false in Ey. rewrite padd_tangent by assumption. unfold third.
      assert (Z3 : (2 : F) * 1 * (y * z) * z <> 0) by (repeat apply mul_ne; auto using one_ne).
      destruct (cv_a_is_zero _ E) eqn:E0; [|destruct (cv_a_is_minus_3 _ E) eqn:E3]; ev; eexists; (split; [reflexivity|]);
        apply abs_proj_some; try (repeat apply mul_ne; auto using one_ne);
        try rewrite (Hzero eq_refl); try rewrite (Hm3 eq_refl); fold a; field; auto.
Qed.
Lemma proj_add_ok P Q : C (abs_proj P) -> C (abs_proj Q) -> exists R, proj_add O E P Q = Ok R /\ abs_proj R = padd a (abs_proj P) (abs_proj Q).
Proof.
  intros HP HQ. unfold proj_add. rewrite !id3_proj. destruct (abs_proj P) as [|x y] eqn:AP.
  { exists Q. split; reflexivity. }
  destruct (abs_proj Q) as [|x' y'] eqn:AQ.
  { exists P. split; [reflexivity|exact AP]. }
  destruct (proj_inv _ _ _ AP) as (z & Nz & EP). destruct (proj_inv _ _ _ AQ) as (z' & Nz' & EQ). rewrite EP, EQ. ev.
  assert (Nzz : z * z' <> 0) by (apply mul_ne; assumption).
  rewrite (fb_ext _ _ (x * (z * z')) (x' * (z * z'))) by ring. rewrite (fb_ext (y * z * z') _ (y * (z * z')) (y' * (z * z'))) by ring.
  rewrite !fb_scale by exact Nzz. destruct (fb x x') eqn:Ex.
  - apply fb_true in Ex. subst x'. destruct (fb y y') eqn:Ey.
    + apply fb_true in Ey. subst y'. rewrite <- EP, <- AP. apply proj_doubled_ok. rewrite AP. exact HP.
    + apply fb_false in Ey. exists None. split; [reflexivity|]. symmetry. apply sum_opposite; assumption.
  - apply fb_false in Ex. eexists. split; [reflexivity|]. rewrite padd_chord by exact Ex. unfold third.
    assert (D : x' - x <> 0) by (apply sub_ne; auto).
    assert (U : x * z * z' - x' * z * z' <> 0).
    { replace (x * z * z' - x' * z * z') with (- ((x' - x) * (z * z'))) by ring. apply opp_ne, mul_ne; assumption. }
    assert (U' : x * z * z' - x' * z' * z <> 0) by (replace (x' * z' * z) with (x' * z * z') by ring; exact U).
    apply abs_proj_some; [repeat apply mul_ne; assumption| |]; field; assumption.
Qed.
Lemma proj_sub_ok P Q : C (abs_proj P) -> C (abs_proj Q) -> exists R, proj_sub O E P Q = Ok R /\ abs_proj R = padd a (abs_proj P) (popp (abs_proj Q)).
Proof.
  intros HP HQ. unfold proj_sub. destruct (inverted_proj_ok Q) as (N & -> & EN). cbn [bind]. rewrite <- EN. apply proj_add_ok; [exact HP|].
  rewrite EN. apply popp_curve. exact HQ.
Qed.
Lemma proj_to_affine_ok P : exists R, proj_to_affine O P = Ok R /\ (forall x y, abs_proj P = Aff x y -> R = Some (x, y)) /\ (abs_proj P = Inf -> R = None).
Proof.
  unfold proj_to_affine. rewrite id3_proj. destruct (abs_proj P) as [|x y] eqn:AP.
  - exists None. split; [reflexivity|]. split; congruence.
  - destruct (proj_inv _ _ _ AP) as (z & N & ->). ev. destruct (fb z 1) eqn:E1.
    + apply fb_true in E1. subst z. eexists. split; [reflexivity|]. split; [|discriminate]. intros ? ? [= <- <-]. do 2 f_equal; ring.
    + destruct (feq_dec z 0) as [K|_]; [contradiction|]. cbn [bind]. eexists. split; [reflexivity|]. split; [|discriminate]. intros ? ? [= <- <-]. do 2 f_equal; field; exact N.
Qed.
Lemma proj_normalize_ok P : exists R, proj_normalize O P = Ok R /\ abs_proj R = abs_proj P /\ (is_identity3 O P = false -> exists x y, R = Some (x, y, 1)).
Proof.
  destruct P as [[[x0 y0] z0]|]; [|exists None; split; [reflexivity|]; split; [reflexivity|discriminate]]. unfold proj_normalize. ev.
  cbn [is_identity3]. ev. destruct (fb z0 0) eqn:E0; cbn [negb andb].
  - eexists. split; [reflexivity|]. split; [reflexivity|discriminate].
  - destruct (fb z0 1) eqn:E1; cbn [negb].
    + apply fb_true in E1. subst z0. eexists. split; [reflexivity|]. split; [reflexivity|]. intros _. eauto.
    + apply fb_false in E0. destruct (feq_dec z0 0) as [K|_]; [contradiction|]. cbn [bind]. eexists. split; [reflexivity|]. split; [|eauto].
      cbn. destruct (fb 1 0) eqn:K; [apply fb_true in K; exfalso; apply (one_ne K)|]. destruct (fb z0 0) eqn:K'; [apply fb_true in K'; contradiction|].
      f_equal; field; split; auto using one_ne.
Qed.
Lemma proj_on_ok P : exists v, proj_is_on_curve O E P = Ok v /\ (v = true <-> C (abs_proj P)).
Proof.
  unfold proj_is_on_curve. rewrite id3_proj. destruct (abs_proj P) as [|x y] eqn:AP.
  - exists true. split; [reflexivity|]. cbn. tauto.
  - destruct (proj_inv _ _ _ AP) as (z & N & ->). ev. fold a b. eexists. split; [reflexivity|]. rewrite fb_true. cbn.
    rewrite sub_eq0. rewrite <- (sub_eq0 (y * y)).
    assert (Z3 : z * z * z <> 0) by (repeat apply mul_ne; assumption).
    split; intros K.
    + apply (mul_cancel _ _ _ Z3). rewrite <- sub_eq0 in K. transitivity (0 : F); [rewrite <- K; ring|ring].
    + apply sub_0. transitivity ((y * y - (x * x * x + a * x + b)) * (z * z * z)); [ring|]. rewrite K. ring.
Qed.
Lemma proj_eqb_ok P Q : exists v, proj_eqb O P Q = Ok v /\ (v = true <-> abs_proj P = abs_proj Q).
Proof.
  unfold proj_eqb. rewrite !id3_proj. destruct (abs_proj P) as [|x y] eqn:AP, (abs_proj Q) as [|x' y'] eqn:AQ; cbn [orb andb].
  - exists true. split; [reflexivity|]. tauto.
  - exists false. split; [reflexivity|]. split; discriminate.
  - exists false. split; [reflexivity|]. split; discriminate.
  - destruct (proj_inv _ _ _ AP) as (z & Nz & ->). destruct (proj_inv _ _ _ AQ) as (z' & Nz' & ->). ev.
    assert (Nzz : z * z' <> 0) by (apply mul_ne; assumption).
    rewrite (fb_ext _ _ (x * (z * z')) (x' * (z * z'))) by ring. rewrite (fb_ext (y * z * z') _ (y * (z * z')) (y' * (z * z'))) by ring.
    rewrite !fb_scale by exact Nzz. destruct (fb x x') eqn:Ex.
    + apply fb_true in Ex. subst x'. eexists. split; [reflexivity|]. rewrite fb_true. split; [intros ->; reflexivity|intros [= ->]; reflexivity].
    + apply fb_false in Ex. eexists. split; [reflexivity|]. split; [discriminate|]. intros [= -> ->]. contradiction.
Qed.

(** ** Jacobian coordinates *)
Lemma jac_doubled_ok P : C (abs_jac P) -> exists R, jac_doubled O E P = Ok R /\ abs_jac R = padd a (abs_jac P) (abs_jac P).
Proof.
  intros H. unfold jac_doubled. rewrite id3_jac. destruct (abs_jac P) as [|x y] eqn:A.
  - exists P. split; [reflexivity|exact A].
  - destruct (jac_inv _ _ _ A) as (z & Nz & ->). ev. rewrite fb_scale0 by (repeat apply mul_ne; assumption). destruct (fb y 0) eqn:Ey.
    + apply fb_true in Ey. subst y. exists None. split; [reflexivity|]. symmetry. apply double_zero. exact H.
    + apply fb_false in Ey. rewrite padd_tangent by assumption. unfold third.
      destruct (cv_a_is_zero _ E) eqn:E0; [|destruct (cv_a_is_minus_3 _ E) eqn:E3; destruct (fb z 1) eqn:E1; try (apply fb_true in E1; subst z)]; ev; eexists; (split; [reflexivity|]);
        apply abs_jac_some; try (repeat apply mul_ne; auto using one_ne);
        try rewrite (Hzero eq_refl); try rewrite (Hm3 eq_refl); fold a; field; auto using one_ne.
Qed.
Lemma z3_eq {A} (h z z' : F) (k : F -> outcome A) :
  (let* t := if negb (fb z 1) then Ok (h * z) else Ok h in let* t := if negb (fb z' 1) then Ok (t * z') else Ok t in k t) = k (h * z * z').
Proof.
  destruct (fb z 1) eqn:E1; destruct (fb z' 1) eqn:E1'; cbn [negb bind]; try (apply fb_true in E1; subst z); try (apply fb_true in E1'; subst z');
    f_equal; ring.
Qed.
(** the common tail of the three addition routines, for any way of computing U1, U2, S1, S2 *)
Lemma jac_addex_ok P x y z x' y' z' u1 u2 s1 s2 k : C (Aff x y) -> C (Aff x' y') -> abs_jac P = Aff x y ->
  z <> 0 -> z' <> 0 -> k = z * z' -> u1 = x * (k * k) -> u2 = x' * (k * k) -> s1 = y * (k * k * k) -> s2 = y' * (k * k * k) ->
  exists R, jac_addex O E P z z' u1 u2 s1 s2 = Ok R /\ abs_jac R = padd a (Aff x y) (Aff x' y').
Proof.
  intros HP HQ AP Nz Nz' Ek -> -> -> ->. assert (Nk : k <> 0) by (rewrite Ek; apply mul_ne; assumption).
  assert (Nkk : k * k <> 0) by (apply mul_ne; assumption). assert (Nkkk : k * k * k <> 0) by (apply mul_ne; assumption).
  unfold jac_addex. ev.
  rewrite (fb_ext (_ - _) 0 ((x' - x) * (k * k)) 0) by ring.
  rewrite (fb_ext (y' * _ - _) 0 ((y' - y) * (k * k * k)) 0) by ring. rewrite !fb_scale0 by assumption.
  destruct (fb (x' - x) 0) eqn:Ex.
  - apply fb_true in Ex. apply sub_0 in Ex. subst x'. destruct (fb (y' - y) 0) eqn:Ey.
    + apply fb_true in Ey. apply sub_0 in Ey. subst y'. rewrite <- AP. apply jac_doubled_ok. rewrite AP. exact HP.
    + apply fb_false in Ey. exists None. split; [reflexivity|]. symmetry. apply sum_opposite; auto. intros K. apply Ey. rewrite K. ring.
  - apply fb_false in Ex. assert (N : x <> x') by (intros K; apply Ex; rewrite K; ring). rewrite padd_chord by exact N. unfold third.
    assert (D : x' * (k * k) - x * (k * k) <> 0) by (replace (x' * (k * k) - x * (k * k)) with ((x' - x) * (k * k)) by ring; apply mul_ne; assumption).
    rewrite z3_eq. eexists. split; [reflexivity|].
    replace ((x' * (k * k) - x * (k * k)) * z * z') with ((x' * (k * k) - x * (k * k)) * k) by (rewrite Ek; ring).
    apply abs_jac_some; [apply mul_ne; assumption| |]; field; assumption.
Qed.
Lemma jac_add_ok P Q : C (abs_jac P) -> C (abs_jac Q) -> exists R, jac_add O E P Q = Ok R /\ abs_jac R = padd a (abs_jac P) (abs_jac Q).
Proof.
  intros HP HQ. unfold jac_add. rewrite !id3_jac. destruct (abs_jac P) as [|x y] eqn:AP.
  { exists Q. split; reflexivity. }
  destruct (abs_jac Q) as [|x' y'] eqn:AQ.
  { exists P. split; [reflexivity|exact AP]. }
  destruct (jac_inv _ _ _ AP) as (z & Nz & EP). destruct (jac_inv _ _ _ AQ) as (z' & Nz' & EQ). rewrite EP, EQ in *. clear P Q EP EQ. cbn [snd]. ev.
  destruct (fb z 1) eqn:E1; destruct (fb z' 1) eqn:E1'; cbn [andb]; try (apply fb_true in E1; subst z); try (apply fb_true in E1'; subst z').
  - unfold jac_add_z_1. apply (jac_addex_ok _ _ _ _ _ _ _ _ _ _ _ 1); auto; ring.
  - unfold jac_add_z2_1. ev. rewrite (padd_comm F a b) by assumption. apply (jac_addex_ok _ _ _ _ _ _ _ _ _ _ _ z'); auto; ring.
  - unfold jac_add_z2_1. ev. apply (jac_addex_ok _ _ _ _ _ _ _ _ _ _ _ z); auto; ring.
  - unfold jac_add_ne. ev. apply (jac_addex_ok _ _ _ _ _ _ _ _ _ _ _ (z * z')); auto; ring.
Qed.
Lemma jac_sub_ok P Q : C (abs_jac P) -> C (abs_jac Q) -> exists R, jac_sub O E P Q = Ok R /\ abs_jac R = padd a (abs_jac P) (popp (abs_jac Q)).
Proof.
  intros HP HQ. unfold jac_sub. destruct (inverted_jac_ok Q) as (N & -> & EN). cbn [bind]. rewrite <- EN. apply jac_add_ok; [exact HP|].
  rewrite EN. apply popp_curve. exact HQ.
Qed.
Lemma jac_to_affine_ok P : exists R, jac_to_affine O P = Ok R /\ (forall x y, abs_jac P = Aff x y -> R = Some (x, y)) /\ (abs_jac P = Inf -> R = None).
Proof.
  unfold jac_to_affine. rewrite id3_jac. destruct (abs_jac P) as [|x y] eqn:AP.
  - exists None. split; [reflexivity|]. split; congruence.
  - destruct (jac_inv _ _ _ AP) as (z & N & ->). ev. destruct (fb z 1) eqn:E1.
    + apply fb_true in E1. subst z. eexists. split; [reflexivity|]. split; [|discriminate]. intros ? ? [= <- <-]. do 2 f_equal; ring.
    + destruct (feq_dec z 0) as [K|_]; [contradiction|]. cbn [bind]. eexists. split; [reflexivity|]. split; [|discriminate]. intros ? ? [= <- <-]. do 2 f_equal; field; exact N.
Qed.
Lemma jac_normalize_ok P : exists R, jac_normalize O P = Ok R /\ abs_jac R = abs_jac P /\ (is_identity3 O P = false -> exists x y, R = Some (x, y, 1)).
Proof.
  destruct P as [[[x0 y0] z0]|]; [|exists None; split; [reflexivity|]; split; [reflexivity|discriminate]]. unfold jac_normalize. ev.
  cbn [is_identity3]. ev. destruct (fb z0 0) eqn:E0; cbn [negb andb].
  - eexists. split; [reflexivity|]. split; [reflexivity|discriminate].
  - destruct (fb z0 1) eqn:E1; cbn [negb].
    + apply fb_true in E1. subst z0. eexists. split; [reflexivity|]. split; [reflexivity|]. intros _. eauto.
    + apply fb_false in E0. destruct (feq_dec z0 0) as [K|_]; [contradiction|]. cbn [bind]. eexists. split; [reflexivity|]. split; [|eauto].
      cbn. destruct (fb 1 0) eqn:K; [apply fb_true in K; exfalso; apply (one_ne K)|]. destruct (fb z0 0) eqn:K'; [apply fb_true in K'; contradiction|].
      f_equal; field; split; auto using one_ne.
Qed.
Lemma jac_on_ok P : exists v, jac_is_on_curve O E P = Ok v /\ (v = true <-> C (abs_jac P)).
Proof.
  unfold jac_is_on_curve. rewrite id3_jac. destruct (abs_jac P) as [|x y] eqn:AP.
  - exists true. split; [reflexivity|]. cbn. tauto.
  - destruct (jac_inv _ _ _ AP) as (z & N & ->). ev. fold a b. eexists. split; [reflexivity|]. rewrite fb_true. cbn.
    rewrite <- (sub_eq0 (y * y)).
    assert (Z3 : z * z * z * (z * z * z) <> 0) by (repeat apply mul_ne; assumption).
    split; intros K.
    + apply (mul_cancel _ _ _ Z3). rewrite <- sub_eq0 in K. transitivity (0 : F); [rewrite <- K; ring|ring].
    + apply sub_0. transitivity ((y * y - (x * x * x + a * x + b)) * (z * z * z * (z * z * z))); [ring|]. rewrite K. ring.
Qed.
Lemma jac_eqb_ok P Q : exists v, jac_eqb O P Q = Ok v /\ (v = true <-> abs_jac P = abs_jac Q).
Proof.
  unfold jac_eqb. rewrite !id3_jac. destruct (abs_jac P) as [|x y] eqn:AP, (abs_jac Q) as [|x' y'] eqn:AQ; cbn [orb andb].
  - exists true. split; [reflexivity|]. tauto.
  - exists false. split; [reflexivity|]. split; discriminate.
  - exists false. split; [reflexivity|]. split; discriminate.
  - destruct (jac_inv _ _ _ AP) as (z & Nz & ->). destruct (jac_inv _ _ _ AQ) as (z' & Nz' & ->). ev.
    assert (N2 : z * z' * (z * z') <> 0) by (repeat apply mul_ne; assumption). assert (N3 : z * z' * (z * z') * (z * z') <> 0) by (repeat apply mul_ne; assumption).
    rewrite (fb_ext _ _ (x * (z * z' * (z * z'))) (x' * (z * z' * (z * z')))) by ring.
    rewrite (fb_ext (y * _ * _ * _) _ (y * (z * z' * (z * z') * (z * z'))) (y' * (z * z' * (z * z') * (z * z')))) by ring.
    rewrite !fb_scale by assumption. destruct (fb x x') eqn:Ex.
    + apply fb_true in Ex. subst x'. eexists. split; [reflexivity|]. rewrite fb_true. split; [intros ->; reflexivity|intros [= ->]; reflexivity].
    + apply fb_false in Ex. eexists. split; [reflexivity|]. split; [discriminate|]. intros [= -> ->]. contradiction.
Qed.
(** the accumulator (0, 0, 1) of the Jacobian multiplication becomes the identity when doubled *)
Lemma jac_start : jac_doubled O E (Some (0, 0, 1)) = Ok None.
Proof. unfold jac_doubled. cbn [is_identity3]. ev. destruct (fb 1 0) eqn:K; [apply fb_true in K; exfalso; apply (one_ne K)|]. rewrite fb_refl. reflexivity. Qed.
End X.
