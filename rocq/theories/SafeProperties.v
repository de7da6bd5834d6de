(** C54, C55: point operations and ECDSA verification on points that need not lie on the curve. *)
From Coq Require Import List ZArith Znumtheory Bool Lia.
From Verif Require Import Outcome UtilsModel UtilsSpec WordsModel WordsSpec BigintModel BigintSpec BigintProofs BigintBits BigintClaims NumModel FpModel FpSpec FpProofs FpClaims EcGroup EcGroupProofs ZpField EcModel EcSpec EcScalar EcFeSpec EcCurveModel EcClaims EcLaws EcCurveSpec EcCodec EcCurveClaims EcdsaModel EcdsaSpec EcdsaProofs EcdsaClaims EcdsaExamples SafeSpec EcdsaSafe SafeClaims InvalidCurve.
Import ListNotations.
Open Scope Z_scope.

(** C54: on reduced affine coordinates, on the curve or not, every operation returns a point with reduced coordinates. *)
Theorem C54_affine : forall c p a b (Pp : prime (value p)) fz0 fm3, modulus_ok c p -> 3 < value p -> reduced c p a -> reduced c p b -> forall P Q x y, good2 c p P -> good2 c p Q -> valid c x -> valid c y ->
  (exists R, aff_add (fe_ops c p) (mkcoeffs (fe_ops c p) a b fz0 fm3) P Q = Ok R /\ good2 c p R) /\
  (exists R, aff_doubled (fe_ops c p) (mkcoeffs (fe_ops c p) a b fz0 fm3) P = Ok R /\ good2 c p R) /\ (exists R, aff_inverted (fe_ops c p) P = Ok R /\ good2 c p R) /\
  (exists v, aff_is_on_curve (fe_ops c p) (mkcoeffs (fe_ops c p) a b fz0 fm3) P = Ok v) /\
  ((exists R, aff_mul (fe_ops c p) (mkcoeffs (fe_ops c p) a b fz0 fm3) P x = Ok R /\ good2 c p R)) /\
  (0 <= value x -> 0 <= value y -> room c (size x + 1) -> room c (size y + 1) -> (exists R, aff_mul_add (fe_ops c p) (mkcoeffs (fe_ops c p) a b fz0 fm3) c x P y Q = Ok R /\ good2 c p R)).
Proof. exact aff_defined. Qed.
Print Assumptions C54_affine.
(** C54: likewise for homogeneous coordinates. *)
Theorem C54_projective : forall c p a b (Pp : prime (value p)) fz0 fm3, modulus_ok c p -> 3 < value p -> reduced c p a -> reduced c p b -> forall P Q x y, good3 c p P -> good3 c p Q -> valid c x -> valid c y ->
  (exists R, proj_add (fe_ops c p) (mkcoeffs (fe_ops c p) a b fz0 fm3) P Q = Ok R /\ good3 c p R) /\
  (exists R, proj_doubled (fe_ops c p) (mkcoeffs (fe_ops c p) a b fz0 fm3) P = Ok R /\ good3 c p R) /\ (exists R, inverted3 (fe_ops c p) P = Ok R /\ good3 c p R) /\
  (exists v, proj_is_on_curve (fe_ops c p) (mkcoeffs (fe_ops c p) a b fz0 fm3) P = Ok v) /\
  ((exists R, proj_mul (fe_ops c p) (mkcoeffs (fe_ops c p) a b fz0 fm3) P x = Ok R /\ good3 c p R)) /\
  (0 <= value x -> 0 <= value y -> room c (size x + 1) -> room c (size y + 1) -> (exists R, proj_mul_add (fe_ops c p) (mkcoeffs (fe_ops c p) a b fz0 fm3) c x P y Q = Ok R /\ good3 c p R)).
Proof. exact proj_defined. Qed.
Print Assumptions C54_projective.
(** C54: likewise for Jacobian coordinates. *)
Theorem C54_jacobian : forall c p a b (Pp : prime (value p)) fz0 fm3, modulus_ok c p -> 3 < value p -> reduced c p a -> reduced c p b -> forall P Q x y, 8 < value p -> good3 c p P -> good3 c p Q -> valid c x -> valid c y ->
  (exists R, jac_add (fe_ops c p) (mkcoeffs (fe_ops c p) a b fz0 fm3) P Q = Ok R /\ good3 c p R) /\
  (exists R, jac_doubled (fe_ops c p) (mkcoeffs (fe_ops c p) a b fz0 fm3) P = Ok R /\ good3 c p R) /\ (exists R, inverted3 (fe_ops c p) P = Ok R /\ good3 c p R) /\
  (exists v, jac_is_on_curve (fe_ops c p) (mkcoeffs (fe_ops c p) a b fz0 fm3) P = Ok v) /\
  (room c (size x + 1) -> (exists R, jac_mul (fe_ops c p) (mkcoeffs (fe_ops c p) a b fz0 fm3) c P x = Ok R /\ good3 c p R)) /\
  (0 <= value x -> 0 <= value y -> room c (size x + 1) -> room c (size y + 1) -> (exists R, jac_mul_add (fe_ops c p) (mkcoeffs (fe_ops c p) a b fz0 fm3) c x P y Q = Ok R /\ good3 c p R)).
Proof. exact jac_defined. Qed.
Print Assumptions C54_jacobian.
(** C54: verification answers for every key object with reduced coordinates, on the curve or not, every digest and all integers r, s; it accepts only with a key other than the identity and r, s in [1, n), and exactly when the x-coordinate of what mul_add computes for u1, u2 is r modulo n. *)
Theorem C54_verify : forall c C (Pp : prime (value (cu_p C))), ecdsa_curve c C Pp -> forall q msg r s, good2 c (cu_p C) q -> all_bytes msg -> valid c r -> valid c s ->
  exists v, ecdsa_verify c C q msg r s = Ok v /\ (v = true -> aff_is_identity (fe_ops c (cu_p C)) q = false /\ 1 <= value r < (value (cu_n C)) /\ 1 <= value s < (value (cu_n C))) /\
    (aff_is_identity (fe_ops c (cu_p C)) q = false -> 1 <= value r < (value (cu_n C)) -> 1 <= value s < (value (cu_n C)) -> value (cu_p C) <= 2 * (value (cu_n C)) -> forall w, (value s * w) mod (value (cu_n C)) = 1 ->
      exists u1 u2 R R', reduced c (cu_n C) u1 /\ reduced c (cu_n C) u2 /\ value u1 = (lead (cu_n C) msg * w) mod (value (cu_n C)) /\ value u2 = (value r * w) mod (value (cu_n C)) /\
        jac_mul_add (fe_ops c (cu_p C)) (cu_coeffs c C) c u1 (of_affine (fe_ops c (cu_p C)) (cu_g C)) u2 (of_affine (fe_ops c (cu_p C)) q) = Ok R /\ jac_to_affine (fe_ops c (cu_p C)) R = Ok R' /\ raw_pt (cu_p C) Pp R' = jac_pt (cu_p C) Pp R /\
        (v = true <-> exists x y, raw_pt (cu_p C) Pp R' = Aff x y /\ coord (cu_p C) Pp x mod (value (cu_n C)) = value r)).
Proof. exact verify_any. Qed.
Print Assumptions C54_verify.
(** C54, refuted: that an accepted key is a point of the curve.  For every digest whose number is neither 0 nor x_G modulo n there are coordinates off the curve under which (z, z) is accepted, z the number of the digest. *)
Theorem C54_key_on_curve_refuted : forall c C (Pp : prime (value (cu_p C))), ecdsa_curve c C Pp -> forall msg, all_bytes msg -> value (cu_p C) <= 2 * (value (cu_n C)) -> (value (cu_n C)) < value (cu_p C) -> lead (cu_n C) msg mod (value (cu_n C)) <> 0 -> (forall x y, (aff_pt (cu_p C) Pp (cu_g C)) = Aff x y -> coord (cu_p C) Pp x <> lead (cu_n C) msg mod (value (cu_n C))) -> (aff_pt (cu_p C) Pp (cu_g C)) <> Inf ->
  exists x y, ~ on_curve (kval (cu_p C) Pp (cu_a C)) (kval (cu_p C) Pp (cu_b C)) (Aff x y) /\
    forall q r s, good2 c (cu_p C) q -> raw_pt (cu_p C) Pp q = Aff x y -> valid c r -> valid c s -> value r = lead (cu_n C) msg mod (value (cu_n C)) -> value s = lead (cu_n C) msg mod (value (cu_n C)) -> ecdsa_verify c C q msg r s = Ok true.
Proof. exact off_curve_key. Qed.
Print Assumptions C54_key_on_curve_refuted.
(** (2, 114) is not on the curve: doubling, multiplication and verification still answer; a second key off the curve is accepted. *)
Example C54_ex : ecdsa_curve ex_c E251 prime_251 /\ good2 ex_c (cu_p E251) (q251 2 114) /\ ~ satisfies E251 2 114 /\
  (exists R, aff_doubled (fe_ops ex_c (cu_p E251)) (cu_coeffs ex_c E251) (q251 2 114) = Ok (Some R)) /\
  ecdsa_verify ex_c E251 (q251 2 114) [200; 17] (of_int ex_c 18) (of_int ex_c 190) = Ok false /\
  lead (cu_n E251) [200; 17] mod value (cu_n E251) = 200 /\ ~ satisfies E251 3 93 /\
  ecdsa_verify ex_c E251 (q251 3 93) [200; 17] (of_int ex_c 200) (of_int ex_c 200) = Ok true.
Proof.
  split; [exact E251_ok|]. split; [apply q251_good; lia|]. split; [vm_compute; discriminate|]. split; [eexists; vm_compute; reflexivity|]. split; [vm_compute; reflexivity|]. split; [vm_compute; reflexivity|]. split; [vm_compute; discriminate|]. vm_compute. reflexivity.
Qed.
(** C55: multiplying any point computes in the group of the curve through that point with the same coefficient a: the coefficient b of the object is not used. *)
Theorem C55_affine : forall c C (Pp : prime (value (cu_p C))), curve_base c C Pp -> forall Q s, good2 c (cu_p C) Q -> valid c s -> own_b (kval (cu_p C) Pp (cu_a C)) (aff_pt (cu_p C) Pp Q) <> 0%f -> disc (kval (cu_p C) Pp (cu_a C)) (own_b (kval (cu_p C) Pp (cu_a C)) (aff_pt (cu_p C) Pp Q)) <> 0%f ->
  exists R, aff_mul (fe_ops c (cu_p C)) (cu_coeffs c C) Q s = Ok R /\ good2 c (cu_p C) R /\ aff_pt (cu_p C) Pp R = zmul (kval (cu_p C) Pp (cu_a C)) (value s) (aff_pt (cu_p C) Pp Q) /\ on_curve (kval (cu_p C) Pp (cu_a C)) (own_b (kval (cu_p C) Pp (cu_a C)) (aff_pt (cu_p C) Pp Q)) (aff_pt (cu_p C) Pp R).
Proof. exact invalid_aff. Qed.
Print Assumptions C55_affine.
(** C55: likewise in homogeneous coordinates. *)
Theorem C55_projective : forall c C (Pp : prime (value (cu_p C))), curve_base c C Pp -> forall Q s, good3 c (cu_p C) Q -> valid c s -> disc (kval (cu_p C) Pp (cu_a C)) (own_b (kval (cu_p C) Pp (cu_a C)) (proj_pt (cu_p C) Pp Q)) <> 0%f ->
  exists R, proj_mul (fe_ops c (cu_p C)) (cu_coeffs c C) Q s = Ok R /\ good3 c (cu_p C) R /\ proj_pt (cu_p C) Pp R = zmul (kval (cu_p C) Pp (cu_a C)) (value s) (proj_pt (cu_p C) Pp Q) /\ on_curve (kval (cu_p C) Pp (cu_a C)) (own_b (kval (cu_p C) Pp (cu_a C)) (proj_pt (cu_p C) Pp Q)) (proj_pt (cu_p C) Pp R).
Proof. exact invalid_proj. Qed.
Print Assumptions C55_projective.
(** C55: likewise in Jacobian coordinates. *)
Theorem C55_jacobian : forall c C (Pp : prime (value (cu_p C))), curve_base c C Pp -> forall Q s, 8 < value (cu_p C) -> good3 c (cu_p C) Q -> valid c s -> room c (size s + 1) -> disc (kval (cu_p C) Pp (cu_a C)) (own_b (kval (cu_p C) Pp (cu_a C)) (jac_pt (cu_p C) Pp Q)) <> 0%f ->
  exists R, jac_mul (fe_ops c (cu_p C)) (cu_coeffs c C) c Q s = Ok R /\ good3 c (cu_p C) R /\ jac_pt (cu_p C) Pp R = zmul (kval (cu_p C) Pp (cu_a C)) (value s) (jac_pt (cu_p C) Pp Q) /\ on_curve (kval (cu_p C) Pp (cu_a C)) (own_b (kval (cu_p C) Pp (cu_a C)) (jac_pt (cu_p C) Pp Q)) (jac_pt (cu_p C) Pp R).
Proof. exact invalid_jac. Qed.
Print Assumptions C55_jacobian.
(** (2, 114) has order 5 on y^2 = x^3 - 3x + 193: 7 and 222 times it depend only on the scalar modulo 5. *)
Example C55_ex : let Q := q251 2 114 in let A := kval (cu_p E251) prime_251 (cu_a E251) in
  curve_base ex_c E251 prime_251 /\ good2 ex_c (cu_p E251) Q /\ ~ satisfies E251 2 114 /\
  own_b A (aff_pt (cu_p E251) prime_251 Q) <> 0%f /\ disc A (own_b A (aff_pt (cu_p E251) prime_251 Q)) <> 0%f /\
  zmul A 5 (aff_pt (cu_p E251) prime_251 Q) = Inf /\
  (exists R, aff_mul (fe_ops ex_c (cu_p E251)) (cu_coeffs ex_c E251) Q (of_int ex_c 7) = Ok (Some R)) /\
  aff_mul (fe_ops ex_c (cu_p E251)) (cu_coeffs ex_c E251) Q (of_int ex_c 7) = aff_mul (fe_ops ex_c (cu_p E251)) (cu_coeffs ex_c E251) Q (of_int ex_c 222).
Proof.
  cbv zeta. split; [exact (eCB _ _ _ E251_ok)|]. split; [apply q251_good; lia|]. split; [vm_compute; discriminate|].
  split; [intros K; apply (f_equal (@zval (value (cu_p E251)))) in K; vm_compute in K; discriminate|].
  split; [intros K; apply (f_equal (@zval (value (cu_p E251)))) in K; vm_compute in K; discriminate|].
  split; [apply not_finite; vm_compute; reflexivity|]. split; [eexists; vm_compute; reflexivity|]. vm_compute. reflexivity.
Qed.
