(** C48, C49: keys from scalars, points from integers, malleability of signatures. *)
From Coq Require Import List ZArith Znumtheory Bool Lia.
From Verif Require Import Outcome UtilsModel UtilsSpec WordsModel WordsSpec BigintModel BigintSpec BigintProofs BigintBits BigintClaims NumModel FpModel FpSpec FpProofs FpClaims EcGroup EcGroupProofs ZpField EcModel EcSpec EcScalar EcFeSpec EcCurveModel EcClaims EcLaws EcCurveSpec EcCodec EcCurveClaims EcdsaModel EcdsaSpec EcdsaProofs EcdsaClaims EcdsaExamples NamedModel NamedSpec CurveVerify EcKey Malleable.
Import ListNotations.
Open Scope Z_scope.

(** C48: for 0 < x < n generate_point returns x G; every other scalar aborts. *)
Theorem C48_generate : forall c C (Pp : prime (value (cu_p C))), ecdsa_curve c C Pp -> forall x, valid c x -> value (cu_b C) <> 0 ->
  (0 < value x < (value (cu_n C)) -> exists R, generate_point c C x = Ok R /\ good2 c (cu_p C) R /\ aff_pt (cu_p C) Pp R = zmul (kval (cu_p C) Pp (cu_a C)) (value x) (aff_pt (cu_p C) Pp (cu_g C))) /\
  (~ 0 < value x < (value (cu_n C)) -> generate_point c C x = Abort).
Proof. exact generate_claim. Qed.
Print Assumptions C48_generate.
(** C48: likewise in homogeneous coordinates, for every b. *)
Theorem C48_generate_projective : forall c C (Pp : prime (value (cu_p C))), ecdsa_curve c C Pp -> forall x, valid c x ->
  (0 < value x < (value (cu_n C)) -> exists R, generate_point_proj c C x = Ok R /\ good3 c (cu_p C) R /\ proj_pt (cu_p C) Pp R = zmul (kval (cu_p C) Pp (cu_a C)) (value x) (aff_pt (cu_p C) Pp (cu_g C))) /\
  (~ 0 < value x < (value (cu_n C)) -> generate_point_proj c C x = Abort).
Proof. exact generate_proj_claim. Qed.
Print Assumptions C48_generate_projective.
(** C48: likewise in Jacobian coordinates. *)
Theorem C48_generate_jacobian : forall c C (Pp : prime (value (cu_p C))), ecdsa_curve c C Pp -> forall x, valid c x ->
  (0 < value x < (value (cu_n C)) -> exists R, generate_point_jac c C x = Ok R /\ good3 c (cu_p C) R /\ jac_pt (cu_p C) Pp R = zmul (kval (cu_p C) Pp (cu_a C)) (value x) (aff_pt (cu_p C) Pp (cu_g C))) /\
  (~ 0 < value x < (value (cu_n C)) -> generate_point_jac c C x = Abort).
Proof. exact generate_jac_claim. Qed.
Print Assumptions C48_generate_jacobian.
(** C48: with a generator of order n, different private scalars have different public points, never the identity. *)
Theorem C48_injective : forall c C (Pp : prime (value (cu_p C))), ecdsa_curve c C Pp -> forall x y, valid c x -> valid c y -> value (cu_b C) <> 0 ->
  zmul (kval (cu_p C) Pp (cu_a C)) (value (cu_n C)) (aff_pt (cu_p C) Pp (cu_g C)) = Inf -> (aff_pt (cu_p C) Pp (cu_g C)) <> Inf -> 0 < value x < (value (cu_n C)) -> 0 < value y < (value (cu_n C)) ->
  exists R S, generate_point c C x = Ok R /\ generate_point c C y = Ok S /\ aff_is_identity (fe_ops c (cu_p C)) R = false /\ (aff_eqb (fe_ops c (cu_p C)) R S = true <-> value x = value y).
Proof. exact generate_injective. Qed.
Print Assumptions C48_injective.
(** C48: make_point accepts exactly reduced coordinates and, with verification, exactly the points of the curve other than (0, 0) killed by n; everything else aborts. *)
Theorem C48_make_point : forall c C (Pp : prime (value (cu_p C))) x y v, curve_base c C Pp -> valid c (cu_n C) -> (v = true -> value (cu_b C) <> 0) -> valid c x -> valid c y ->
  let Q := Some (mkfe x (Some (cu_p C)), mkfe y (Some (cu_p C))) in
  let fine := 0 <= value x < value (cu_p C) /\ 0 <= value y < value (cu_p C) /\
    (v = true -> ~ (value x = 0 /\ value y = 0) /\ satisfies C (value x) (value y) /\ zmul (kval (cu_p C) Pp (cu_a C)) (value (cu_n C)) (aff_pt (cu_p C) Pp Q) = Inf) in
  (fine -> make_point c C x y v = Ok Q /\ good2 c (cu_p C) Q) /\ (~ fine -> make_point c C x y v = Abort).
Proof. exact make_point_claim. Qed.
Print Assumptions C48_make_point.
Example C48_ex : ecdsa_curve ex_c E251 prime_251 /\ value (cu_b E251) <> 0 /\ valid ex_c (of_int ex_c 77) /\ 0 < value (of_int ex_c 77) < value (cu_n E251) /\ aff_pt (cu_p E251) prime_251 (cu_g E251) <> Inf /\
  zmul (kval (cu_p E251) prime_251 (cu_a E251)) (value (cu_n E251)) (aff_pt (cu_p E251) prime_251 (cu_g E251)) = Inf /\
  generate_point ex_c E251 (of_int ex_c 223) = Abort /\ generate_point ex_c E251 (of_int ex_c 0) = Abort /\ generate_point ex_c E251 (of_int ex_c (-1)) = Abort /\
  (exists R, generate_point ex_c E251 (of_int ex_c 222) = Ok (Some R)) /\
  (exists Q, make_point ex_c E251 (of_int ex_c 2) (of_int ex_c 167) true = Ok (Some Q)) /\ make_point ex_c E251 (of_int ex_c 2) (of_int ex_c 166) true = Abort /\
  (exists Q, make_point ex_c E251 (of_int ex_c 2) (of_int ex_c 166) false = Ok (Some Q)) /\ make_point ex_c E251 (of_int ex_c 2) (of_int ex_c 251) false = Abort.
Proof.
  split; [exact E251_ok|]. split; [vm_compute; discriminate|]. split; [apply (of_int_ok ex_c 77 78); cbn; lia|]. split; [vm_compute; split; reflexivity|]. split; [apply finite_neq; vm_compute; reflexivity|].
  split; [apply not_finite; vm_compute; reflexivity|]. do 3 (split; [vm_compute; reflexivity|]). split; [eexists; vm_compute; reflexivity|]. split; [eexists; vm_compute; reflexivity|]. split; [vm_compute; reflexivity|].
  split; [eexists; vm_compute; reflexivity|]. vm_compute. reflexivity.
Qed.

(** C49: (r, s) and (r, n - s) get the same answer, so an accepted signature yields a second one for the same digest and key. *)
Theorem C49_negated : forall c C (Pp : prime (value (cu_p C))) q msg r s s', ecdsa_curve c C Pp -> value (cu_p C) <= 2 * (value (cu_n C)) -> good2 c (cu_p C) q ->
  on_curve (kval (cu_p C) Pp (cu_a C)) (kval (cu_p C) Pp (cu_b C)) (aff_pt (cu_p C) Pp q) -> all_bytes msg -> fits_order C msg -> valid c r -> valid c s -> valid c s' ->
  zmul (kval (cu_p C) Pp (cu_a C)) (value (cu_n C)) (aff_pt (cu_p C) Pp (cu_g C)) = Inf -> zmul (kval (cu_p C) Pp (cu_a C)) (value (cu_n C)) (aff_pt (cu_p C) Pp q) = Inf ->
  value s' = (value (cu_n C)) - value s -> ecdsa_verify c C q msg r s = ecdsa_verify c C q msg r s'.
Proof. exact verify_negated. Qed.
Print Assumptions C49_negated.
Example C49_ex : ecdsa_curve ex_c E251 prime_251 /\ good2 ex_c (cu_p E251) (q251 60 57) /\ fits_order E251 [200; 17] /\ zmul (kval (cu_p E251) prime_251 (cu_a E251)) (value (cu_n E251)) (aff_pt (cu_p E251) prime_251 (cu_g E251)) = Inf /\
  zmul (kval (cu_p E251) prime_251 (cu_a E251)) (value (cu_n E251)) (aff_pt (cu_p E251) prime_251 (q251 60 57)) = Inf /\ value (of_int ex_c 33) = value (cu_n E251) - value (of_int ex_c 190) /\
  ecdsa_verify ex_c E251 (q251 60 57) [200; 17] (of_int ex_c 18) (of_int ex_c 190) = Ok true /\ ecdsa_verify ex_c E251 (q251 60 57) [200; 17] (of_int ex_c 18) (of_int ex_c 33) = Ok true.
Proof.
  split; [exact E251_ok|]. split; [apply q251_good; lia|]. split; [left; reflexivity|]. do 2 (split; [apply not_finite; vm_compute; reflexivity|]). split; [reflexivity|]. vm_compute. split; reflexivity.
Qed.
