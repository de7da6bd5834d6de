(** Multiples of the generator and the construction of points from integers. *)
From Coq Require Import List ZArith Znumtheory Bool Lia.
From Verif Require Import Outcome LoopModel WordsModel WordsSpec BigintModel BigintSpec BigintProofs BigintClaims NumModel NumProofs FpModel FpSpec FpProofs FpClaims EcGroup EcGroupProofs ZpField EcModel EcSpec EcScalar EcFeSpec EcCurveModel EcClaims EcLaws EcCurveSpec EcCodec EcCurveClaims EcdsaModel EcdsaSpec EcdsaProofs.
Import ListNotations.
Open Scope Z_scope.

Section KEY.
Variable c : cap. Variable C : curve.
Variable Pp : prime (value (cu_p C)).
Notation p := (cu_p C). Notation n := (cu_n C). Notation P := (value (cu_p C)). Notation N := (value (cu_n C)).
Notation A := (kval p Pp (cu_a C)). Notation B := (kval p Pp (cu_b C)). Notation G := (aff_pt p Pp (cu_g C)).
Hypothesis EC : ecdsa_curve c C Pp.
Lemma scalar_check x : valid c x -> (compares1 x 0 >? 0) && (compare x n <? 0) = (0 <? value x) && (value x <? N).
Proof.
  intros Vx. pose proof (compares1_spec c x 0 Vx ltac:(unfold int32; lia)) as K. pose proof (compare_spec c x n Vx (proj1 (eHn c C Pp EC))) as K2. unfold cmp_result in K, K2.
  destruct (Z.gtb_spec (compares1 x 0) 0), (Z.ltb_spec (compare x n) 0), (Z.ltb_spec 0 (value x)), (Z.ltb_spec (value x) N); try reflexivity; lia.
Qed.
Lemma generate_claim x : valid c x -> value (cu_b C) <> 0 ->
  (0 < value x < N -> exists R, generate_point c C x = Ok R /\ good2 c p R /\ aff_pt p Pp R = zmul A (value x) G) /\
  (~ 0 < value x < N -> generate_point c C x = Abort).
Proof.
  intros Vx B0. unfold generate_point. rewrite (scalar_check x Vx). destruct (Z.ltb_spec 0 (value x)), (Z.ltb_spec (value x) N); cbn [andb check bind]; (split; [intros R; try lia|intros NR; try lia; try reflexivity]).
  rewrite (eE c C Pp EC). apply (aff_mul_claim c p Pp _ _ (eCO c C Pp EC) B0); [exact (eGg c C Pp EC)|exact (eGon c C Pp EC)|exact Vx].
Qed.
Lemma generate_proj_claim x : valid c x ->
  (0 < value x < N -> exists R, generate_point_proj c C x = Ok R /\ good3 c p R /\ proj_pt p Pp R = zmul A (value x) G) /\
  (~ 0 < value x < N -> generate_point_proj c C x = Abort).
Proof.
  intros Vx. unfold generate_point_proj. rewrite (scalar_check x Vx). destruct (Z.ltb_spec 0 (value x)), (Z.ltb_spec (value x) N); cbn [andb check bind]; (split; [intros R; try lia|intros NR; try lia; try reflexivity]).
  rewrite (eE c C Pp EC). destruct (proj_of_affine_claim c p Pp _ _ (eCO c C Pp EC) (cu_g C) (eGg c C Pp EC)) as (G1 & X1). rewrite <- X1.
  apply (proj_mul_claim c p Pp _ _ (eCO c C Pp EC)); [exact G1|rewrite X1; exact (eGon c C Pp EC)|exact Vx].
Qed.
Lemma generate_jac_claim x : valid c x ->
  (0 < value x < N -> exists R, generate_point_jac c C x = Ok R /\ good3 c p R /\ jac_pt p Pp R = zmul A (value x) G) /\
  (~ 0 < value x < N -> generate_point_jac c C x = Abort).
Proof.
  intros Vx. unfold generate_point_jac. rewrite (scalar_check x Vx). destruct (Z.ltb_spec 0 (value x)), (Z.ltb_spec (value x) N); cbn [andb check bind]; (split; [intros R; try lia|intros NR; try lia; try reflexivity]).
  rewrite (eE c C Pp EC). destruct (jac_of_affine_claim c p Pp _ _ (eCO c C Pp EC) (cu_g C) (eGg c C Pp EC)) as (G1 & X1). rewrite <- X1.
  apply (jac_mul_claim c p Pp _ _ (eCO c C Pp EC) (eP8 c C Pp EC)); [exact G1|rewrite X1; exact (eGon c C Pp EC)|exact Vx|].
  apply room_r with n; [exact (eHn c C Pp EC)|apply (red_size c n (eHn c C Pp EC)); split; [exact Vx|lia]].
Qed.
(** distinct scalars below n give distinct points, none of them the identity *)
Lemma multiples_distinct k l : zmul A N G = Inf -> G <> Inf -> 0 <= k < N -> 0 <= l < N -> zmul A k G = zmul A l G -> k = l.
Proof.
  intros KG G0 Hk Hl E. pose proof (eCO c C Pp EC) as CO. pose proof (two_ne c p Pp _ _ CO) as TW. pose proof (eGon c C Pp EC) as CG. pose proof (ePn c C Pp EC) as Pn.
  pose proof (Hd c p Pp _ _ CO) as HD.
  destruct (Z.eq_dec k l) as [|NE]; [assumption|]. exfalso. apply G0.
  assert (E0 : zmul A (k - l) G = Inf).
  { replace (k - l) with (k + - l) by lia. rewrite (zmul_add (GFp p Pp) A B TW HD), (zmul_opp (GFp p Pp) A B), E by assumption. apply padd_opp_r. }
  assert (RP : rel_prime (k - l) N).
  { apply rel_prime_sym. apply prime_rel_prime; [exact Pn|]. intros D. destruct (Z.lt_ge_cases l k); [apply Z.divide_pos_le in D; lia|]. rewrite <- Z.divide_opp_r in D. apply Z.divide_pos_le in D; lia. }
  apply rel_prime_bezout in RP. destruct RP as [u v UV].
  rewrite <- (zmul_1 (GFp p Pp) A G), <- UV. rewrite (zmul_add (GFp p Pp) A B TW HD) by assumption. rewrite !(zmul_mul (GFp p Pp) A B TW HD) by assumption. rewrite E0, KG, !zmul_inf. reflexivity.
Qed.
Lemma generate_injective x y : valid c x -> valid c y -> value (cu_b C) <> 0 -> zmul A N G = Inf -> G <> Inf -> 0 < value x < N -> 0 < value y < N ->
  exists R S, generate_point c C x = Ok R /\ generate_point c C y = Ok S /\ aff_is_identity (fe_ops c p) R = false /\ (aff_eqb (fe_ops c p) R S = true <-> value x = value y).
Proof.
  intros Vx Vy B0 KG G0 Hx Hy. destruct (proj1 (generate_claim x Vx B0) Hx) as (R & -> & GR & ER). destruct (proj1 (generate_claim y Vy B0) Hy) as (S & -> & GS & ES). exists R, S.
  split; [reflexivity|]. split; [reflexivity|]. split.
  - destruct (aff_is_identity (fe_ops c p) R) eqn:E; [|reflexivity]. apply (aff_id_claim c p Pp _ _ (eCO c C Pp EC)) in E; [|exact GR]. rewrite ER in E. 
    assert (value x = 0); [|lia]. apply multiples_distinct; try assumption; try lia.
  - rewrite (aff_eqb_claim c p Pp _ _ (eCO c C Pp EC) R S GR GS), ER, ES. split; [|intros ->; reflexivity]. apply multiples_distinct; try assumption; lia.
Qed.
End KEY.

(** make_point *)
(** for any account [ORD] of the check of the order *)
Lemma make_point_gen c C (Pp : prime (value (cu_p C))) (ORD : point (GFp (cu_p C) Pp) -> Prop) x y v : curve_base c C Pp -> valid c (cu_n C) -> 
  (v = true -> forall Q, good2 c (cu_p C) Q -> exists w, aff_is_valid (fe_ops c (cu_p C)) (coeffs_of c (cu_p C) (cu_a C) (cu_b C)) (cu_n C) Q = Ok w /\
     (w = true <-> aff_pt (cu_p C) Pp Q <> Inf /\ on_curve (kval (cu_p C) Pp (cu_a C)) (kval (cu_p C) Pp (cu_b C)) (aff_pt (cu_p C) Pp Q) /\ ORD (aff_pt (cu_p C) Pp Q))) -> valid c x -> valid c y ->
  let Q := Some (mkfe x (Some (cu_p C)), mkfe y (Some (cu_p C))) in
  let fine := 0 <= value x < value (cu_p C) /\ 0 <= value y < value (cu_p C) /\
    (v = true -> ~ (value x = 0 /\ value y = 0) /\ satisfies C (value x) (value y) /\ ORD (aff_pt (cu_p C) Pp Q)) in
  (fine -> make_point c C x y v = Ok Q /\ good2 c (cu_p C) Q) /\ (~ fine -> make_point c C x y v = Abort).
Proof.
  intros (CO & CE) Vn Hv Vx Vy Q fine. unfold make_point. rewrite !(make_integer c (cu_p C)) by (try assumption; apply CO).
  destruct (Z.leb_spec 0 (value x)), (Z.ltb_spec (value x) (value (cu_p C))); cbn [andb check bind]; try (split; [intros (K & _); lia|intros _; reflexivity]).
  destruct (Z.leb_spec 0 (value y)), (Z.ltb_spec (value y) (value (cu_p C))); cbn [andb check bind]; try (split; [intros (_ & K & _); lia|intros _; reflexivity]).
  unfold make_field_element. cbn [bind]. unfold make_point_fe. fold Q.
  assert (GQ : good2 c (cu_p C) Q) by (split; (split; [reflexivity|split; [assumption|cbn [fv]; lia]])).
  destruct v; cbn [bind].
  2:{ split; [intros _; split; [reflexivity|exact GQ]|]. intros NF. exfalso. apply NF. split; [lia|]. split; [lia|discriminate]. }
  rewrite CE. destruct (Hv eq_refl Q GQ) as (v & -> & HV). cbn [bind].
  assert (EQ : (aff_pt (cu_p C) Pp Q <> Inf /\ on_curve (kval (cu_p C) Pp (cu_a C)) (kval (cu_p C) Pp (cu_b C)) (aff_pt (cu_p C) Pp Q)) <-> (~ (value x = 0 /\ value y = 0) /\ satisfies C (value x) (value y))).
  { assert (ID : aff_is_identity (fe_ops c (cu_p C)) Q = true <-> (value x = 0 /\ value y = 0)).
    { unfold Q. rewrite (id_values c C Pp (conj CO CE)) by apply GQ. cbn [fv]. rewrite andb_true_iff, !Z.eqb_eq. tauto. }
    assert (AP : ~ (value x = 0 /\ value y = 0) -> aff_pt (cu_p C) Pp Q = Aff (fval (cu_p C) Pp (mkfe x (Some (cu_p C)))) (fval (cu_p C) Pp (mkfe y (Some (cu_p C))))).
    { intros N0. pose proof (aff_id_claim c (cu_p C) Pp _ _ CO Q GQ) as I. rewrite ID in I. unfold aff_pt, Q in *. cbn [option_map fst snd abs_aff] in *. destruct (_ && _); [exfalso; apply N0, I; reflexivity|reflexivity]. }
    rewrite <- (aff_id_claim c (cu_p C) Pp _ _ CO Q GQ), ID. split; intros (N0 & K); (split; [exact N0|]); rewrite (AP N0) in *.
    - apply (on_satisfies C Pp) in K. exact K.
    - apply (on_satisfies C Pp). exact K. }
  destruct v; cbn [check bind].
  - split; [intros _; split; [reflexivity|exact GQ]|]. intros NF. exfalso. apply NF. split; [lia|]. split; [lia|]. intros _. destruct (proj1 HV eq_refl) as (K1 & K2 & K3). destruct (proj1 EQ (conj K1 K2)). auto.
  - split; [|reflexivity]. intros (_ & _ & F). exfalso. destruct (F eq_refl) as (F1 & F2 & F3). destruct (proj2 EQ (conj F1 F2)). assert (false = true) by (apply HV; auto). discriminate.
Qed.
Lemma make_point_claim c C (Pp : prime (value (cu_p C))) x y v : curve_base c C Pp -> valid c (cu_n C) -> (v = true -> value (cu_b C) <> 0) -> valid c x -> valid c y ->
  let Q := Some (mkfe x (Some (cu_p C)), mkfe y (Some (cu_p C))) in
  let fine := 0 <= value x < value (cu_p C) /\ 0 <= value y < value (cu_p C) /\
    (v = true -> ~ (value x = 0 /\ value y = 0) /\ satisfies C (value x) (value y) /\ zmul (kval (cu_p C) Pp (cu_a C)) (value (cu_n C)) (aff_pt (cu_p C) Pp Q) = Inf) in
  (fine -> make_point c C x y v = Ok Q /\ good2 c (cu_p C) Q) /\ (~ fine -> make_point c C x y v = Abort).
Proof.
  intros BS Vn Hv. apply (make_point_gen c C Pp (fun X => zmul (kval (cu_p C) Pp (cu_a C)) (value (cu_n C)) X = Inf)); [exact BS|exact Vn|].
  intros T Q GQ. apply (aff_valid_claim c (cu_p C) Pp _ _ (proj1 BS) (Hv T)); assumption.
Qed.
