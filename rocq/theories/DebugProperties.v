(** C73: the field, curve and ECDSA layers with assertions enabled. *)
From Coq Require Import List ZArith Znumtheory Bool Lia.
From Verif Require Import Outcome UtilsSpec WordsModel WordsSpec BigintModel BigintSpec BigintProofs BigintBits BigintClaims NumModel FpModel FpSpec FpProofs EcGroup ZpField EcModel EcSpec EcFeSpec EcCurveModel EcClaims EcLaws EcCurveSpec EcCodec EcCurveClaims EcdsaModel EcdsaSpec EcdsaProofs EcdsaClaims EcdsaExamples NamedModel NamedSpec CurveVerify AssertModel AssertSpec DebugEcModel DebugClaims.
Import ListNotations.
Open Scope Z_scope.

(** C73: with the double capacity of ec.hpp:15 no assertion fires in a field operation on operands not longer than p, reduced or not and of either sign. *)
Theorem C73_field : forall c p, modulus_ok c p -> forall a b k, valid c a /\ (size a <= size p)%nat -> valid c b /\ (size b <= size p)%nat -> int32 k -> k <> - 2 ^ 31 ->
  d_fp_neg c a p = Ok (fp_neg c a p) /\ d_fp_add c a b p = Ok (fp_add c a b p) /\ d_fp_sub c a b p = Ok (fp_sub c a b p) /\
  d_fp_mul c a b p = fp_mul c a b p /\ d_fp_sqr c a p = fp_sqr c a p /\ d_fp_mul_int c a k p = fp_mul_int c a k p.
Proof. exact field_claim. Qed.
Print Assumptions C73_field.
(** C73: nor in inversion, exponentiation and division. *)
Theorem C73_inverse : forall c p, modulus_ok c p -> forall a b e, valid c a /\ (size a <= size p)%nat -> valid c b /\ (size b <= size p)%nat -> 0 <= value b -> valid c e ->
  d_op_modinv c b p = op_modinv c b p /\ d_op_modexp c b e p = op_modexp c b e p /\ (value b < value p -> d_fp_div c a b p = fp_div c a b p).
Proof. exact field_inverse_claim. Qed.
Print Assumptions C73_inverse.
(** C73: nor in the square root, for every odd prime and also for operands that are not reduced. *)
Theorem C73_sqrt : forall c p, modulus_ok c p -> prime (value p) -> 2 < value p -> forall n, valid c n /\ (size n <= size p)%nat -> 0 <= value n -> d_fp_sqrt c n p = fp_sqrt c n p.
Proof. exact sqrt_debug_claim. Qed.
Print Assumptions C73_sqrt.
(** C73: the room is needed: where the product, the sum or the difference of the operands does not fit the build with assertions stops. *)
Theorem C73_stops : forall c p a b, valid c a -> valid c b ->
  (~ room c (size a + size b) -> d_fp_mul c a b p = Abort) /\ (~ room c (size a + size a) -> d_fp_sqr c a p = Abort) /\
  (neg a = neg b -> ~ room c (Nat.max (size a) (size b) + 1) -> d_fp_add c a b p = Abort) /\
  (neg a <> neg b -> ~ room c (Nat.max (size a) (size b) + 1) -> d_fp_sub c a b p = Abort) /\
  (forall k, int32 k -> k = - 2 ^ 31 \/ ~ room c (size a + 1) -> d_fp_mul_int c a k p = Abort).
Proof. exact field_stop_claim. Qed.
Print Assumptions C73_stops.
(** the modulus 17 in a buffer of one word, not doubled, and of two *)
Example C73_stops_ex : let c := Fixed 1 in let d := Fixed 2 in
  valid c (of_int c 16) /\ ~ room c (size (of_int c 16) + size (of_int c 16)) /\ d_fp_mul c (of_int c 16) (of_int c 16) (of_int c 17) = Abort /\ d_fp_add c (of_int c 16) (of_int c 16) (of_int c 17) = Abort /\
  modulus_ok d (of_int d 17) /\ d_fp_mul d (of_int d 16) (of_int d 16) (of_int d 17) = Ok (of_int d 1) /\ d_fp_add d (of_int d 16) (of_int d 16) (of_int d 17) = Ok (of_int d 15).
Proof.
  intros c d. assert (R : room c 1) by (cbn; lia). assert (R2 : room d 1) by (cbn; lia).
  split; [exact (proj1 (proj1 (of_int_value c 16 R eq_refl)))|]. split; [intros K; vm_compute in K; lia|].
  split; [vm_compute; reflexivity|]. split; [vm_compute; reflexivity|].
  split; [|split; vm_compute; reflexivity].
  destruct (of_int_value d 17 R2 eq_refl) as (V & E). split; [exact (proj1 V)|]. rewrite E. split; [lia|]. vm_compute. lia.
Qed.
Example C73_sqrt_ex : let p := of_int ex_c 17 in modulus_ok ex_c p /\ prime (value p) /\ d_fp_sqrt ex_c (of_int ex_c 30) p = Ok (of_int ex_c 8) /\ d_op_modinv ex_c (of_int ex_c 30) p = op_modinv ex_c (of_int ex_c 30) p /\
  d_fp_div ex_c (of_int ex_c (-40)) (of_int ex_c 5) p = fp_div ex_c (of_int ex_c (-40)) (of_int ex_c 5) p.
Proof. split; [exact (cHp ex_c ex_C ex_prime ex_base)|]. split; [exact ex_prime|]. vm_compute. repeat split. Qed.

(** C73: the affine points: the group operations, multiplication by any scalar, the double multiplication and the validity test. *)
Theorem C73_affine : forall c p a b z m3, modulus_ok c p -> prime (value p) -> 3 < value p -> reduced c p a -> reduced c p b ->
  forall (P Q : option (fe * fe)) s t n, good2 c p P -> good2 c p Q -> valid c s -> valid c t -> valid c n -> room c (size s + 1) -> room c (size t + 1) ->
  let D := d_fe_ops c p in let R := fe_ops c p in let E1 := mkcoeffs D a b z m3 in let E2 := mkcoeffs R a b z m3 in
  aff_add D E1 P Q = aff_add R E2 P Q /\ aff_doubled D E1 P = aff_doubled R E2 P /\ aff_inverted D P = aff_inverted R P /\ aff_is_on_curve D E1 P = aff_is_on_curve R E2 P /\
  d_aff_mul c p E1 P s = aff_mul R E2 P s /\ d_aff_is_valid c p E1 n P = aff_is_valid R E2 n P /\ d_aff_mul_add c p E1 s P t Q = aff_mul_add R E2 c s P t Q.
Proof. exact affine_debug_claim. Qed.
Print Assumptions C73_affine.
(** C73: the projective points. *)
Theorem C73_projective : forall c p a b z m3, modulus_ok c p -> prime (value p) -> 3 < value p -> reduced c p a -> reduced c p b ->
  forall (P Q : option (fe * fe * fe)) s t n, good3 c p P -> good3 c p Q -> valid c s -> valid c t -> valid c n -> room c (size s + 1) -> room c (size t + 1) ->
  let D := d_fe_ops c p in let R := fe_ops c p in let E1 := mkcoeffs D a b z m3 in let E2 := mkcoeffs R a b z m3 in
  proj_add D E1 P Q = proj_add R E2 P Q /\ proj_doubled D E1 P = proj_doubled R E2 P /\ inverted3 D P = inverted3 R P /\ proj_is_on_curve D E1 P = proj_is_on_curve R E2 P /\ proj_to_affine D P = proj_to_affine R P /\
  d_proj_mul c p E1 P s = proj_mul R E2 P s /\ d_proj_is_valid c p E1 n P = proj_is_valid R E2 n P /\ d_proj_mul_add c p E1 s P t Q = proj_mul_add R E2 c s P t Q.
Proof. exact projective_debug_claim. Qed.
Print Assumptions C73_projective.
(** C73: the Jacobian points. *)
Theorem C73_jacobian : forall c p a b z m3, modulus_ok c p -> prime (value p) -> 3 < value p -> reduced c p a -> reduced c p b -> 8 < value p ->
  forall (P Q : option (fe * fe * fe)) s t n, good3 c p P -> good3 c p Q -> valid c s -> valid c t -> valid c n -> room c (size s + 1) -> room c (size t + 1) -> room c (size n + 1) ->
  let D := d_fe_ops c p in let R := fe_ops c p in let E1 := mkcoeffs D a b z m3 in let E2 := mkcoeffs R a b z m3 in
  jac_add D E1 P Q = jac_add R E2 P Q /\ jac_doubled D E1 P = jac_doubled R E2 P /\ inverted3 D P = inverted3 R P /\ jac_is_on_curve D E1 P = jac_is_on_curve R E2 P /\ jac_to_affine D P = jac_to_affine R P /\
  d_jac_mul c p E1 P s = jac_mul R E2 c P s /\ d_jac_is_valid c p E1 n P = jac_is_valid R E2 c n P /\ d_jac_mul_add c p E1 s P t Q = jac_mul_add R E2 c s P t Q.
Proof. exact jacobian_debug_claim. Qed.
Print Assumptions C73_jacobian.
Example C73_points_ex : ecdsa_curve ex_c E251 prime_251 /\ good2 ex_c (cu_p E251) (q251 60 57) /\
  d_aff_mul ex_c (cu_p E251) (d_cu_coeffs ex_c E251) (q251 60 57) (of_int ex_c (-5)) = aff_mul (fe_ops ex_c (cu_p E251)) (cu_coeffs ex_c E251) (q251 60 57) (of_int ex_c (-5)) /\
  d_aff_mul ex_c (cu_p E251) (d_cu_coeffs ex_c E251) (q251 60 57) (of_int ex_c (-5)) <> Ok None.
Proof. split; [exact E251_ok|]. split; [apply q251_good; lia|]. vm_compute. split; [reflexivity|discriminate]. Qed.

(** C73: making the curve object, for any order given. *)
Theorem C73_curve_make : forall c p a b gx gy n h, modulus_ok c p -> valid c n -> 0 < value n -> d_curve_make c p a b gx gy n h = curve_make c p a b gx gy n h.
Proof. exact curve_make_debug_claim. Qed.
Print Assumptions C73_curve_make.
(** C73: decoding any byte string, encoding, making a point and decompression, of coordinates that need not be reduced. *)
Theorem C73_codec : forall c C (Pp : prime (value (cu_p C))), curve_base c C Pp -> valid c (cu_n C) ->
  (forall e, all_bytes e -> d_decode_point c C e = decode_point c C e) /\
  (forall P compress, good2 c (cu_p C) P -> d_encode_point c C P compress = Ok (encode_point c C P compress)) /\
  (forall x y v, valid c x -> valid c y -> d_make_point c C x y v = make_point c C x y v) /\
  (forall x odd v, valid c x /\ (size x <= size (cu_p C))%nat -> 0 <= value x -> d_decompress_point c C x odd v = decompress_point c C x odd v).
Proof. exact codec_debug_claim. Qed.
Print Assumptions C73_codec.
(** C73: generating points of the three classes from any number. *)
Theorem C73_generate : forall c C (Pp : prime (value (cu_p C))), ecdsa_curve c C Pp -> forall x, valid c x ->
  d_generate_point c C x = generate_point c C x /\ d_generate_point_proj c C x = generate_point_proj c C x /\ d_generate_point_jac c C x = generate_point_jac c C x.
Proof. exact generate_debug_claim. Qed.
Print Assumptions C73_generate.
(** C73: the check of the curve object, with any coefficients and cofactor. *)
Theorem C73_curve_verify : forall c C, prime (value (cu_p C)) -> modulus_ok c (cu_p C) -> valid c (cu_a C) -> valid c (cu_b C) -> good2 c (cu_p C) (cu_g C) -> valid c (cu_n C) -> room c (size (cu_n C) + 1) -> 0 <= cu_h C < 2 ^ 32 ->
  d_curve_verify c C = curve_verify c C.
Proof. exact curve_verify_debug_claim. Qed.
Print Assumptions C73_curve_verify.
(** C73: verification, for any message and any r and s, and with any key with reduced coordinates, on the curve or not. *)
Theorem C73_ecdsa : forall c C (Pp : prime (value (cu_p C))), ecdsa_curve c C Pp -> forall q msg r s, good2 c (cu_p C) q -> all_bytes msg -> valid c r -> valid c s ->
  d_ecdsa_verify c C q msg r s = ecdsa_verify c C q msg r s /\ d_assert_ecdsa c C q msg r s = assert_ecdsa c C q msg r s.
Proof. exact ecdsa_debug_claim. Qed.
Print Assumptions C73_ecdsa.
(** C73: recovery. *)
Theorem C73_recover : forall c C (Pp : prime (value (cu_p C))), ecdsa_curve c C Pp -> cu_p_minus_n C = op_sub c (cu_p C) (cu_n C) -> forall msg r s id v, all_bytes msg -> valid c r -> valid c s -> value r < value (cu_p C) ->
  d_ecdsa_recover c C msg r s id v = ecdsa_recover c C msg r s id v.
Proof. exact recover_debug_claim. Qed.
Print Assumptions C73_recover.
(** C73: so the build with assertions accepts what the standard accepts, and never stops. *)
Theorem C73_accepts : forall c C (Pp : prime (value (cu_p C))), ecdsa_curve c C Pp -> value (cu_p C) <= 2 * value (cu_n C) -> forall q msg r s,
  good2 c (cu_p C) q -> on_curve (kval (cu_p C) Pp (cu_a C)) (kval (cu_p C) Pp (cu_b C)) (aff_pt (cu_p C) Pp q) -> all_bytes msg -> fits_order C msg -> valid c r -> valid c s ->
  exists v, d_ecdsa_verify c C q msg r s = Ok v /\ (v = true <-> accepts (coord (cu_p C) Pp) (kval (cu_p C) Pp (cu_a C)) (aff_pt (cu_p C) Pp (cu_g C)) (value (cu_n C)) (aff_pt (cu_p C) Pp q) (leftmost (bitlen (value (cu_n C))) msg) (value r) (value s)).
Proof. exact accept_debug_claim. Qed.
Print Assumptions C73_accepts.
(** C73: the capacities declared for the eight named curves suffice. *)
Theorem C73_named : forall wasm m C (Pp : prime (value (cu_p C))), In m named_curves -> named_curve wasm m = Ok C -> prime (hexval (pm_n m)) ->
  let c := named_cap wasm m in
  (forall q msg r s, good2 c (cu_p C) q -> all_bytes msg -> valid c r -> valid c s -> d_ecdsa_verify c C q msg r s = ecdsa_verify c C q msg r s) /\
  (forall e, all_bytes e -> d_decode_point c C e = decode_point c C e) /\
  (forall x, valid c x -> d_generate_point c C x = generate_point c C x /\ d_generate_point_jac c C x = generate_point_jac c C x).
Proof. exact named_debug_claim. Qed.
Print Assumptions C73_named.
Example C73_ecdsa_ex : ecdsa_curve ex_c E251 prime_251 /\ value (cu_p E251) <= 2 * value (cu_n E251) /\ good2 ex_c (cu_p E251) (q251 60 57) /\ all_bytes [200; 17] /\
  d_ecdsa_verify ex_c E251 (q251 60 57) [200; 17] (of_int ex_c 18) (of_int ex_c 190) = Ok true /\ d_ecdsa_verify ex_c E251 (q251 60 57) [201; 17] (of_int ex_c 18) (of_int ex_c 190) = Ok false.
Proof. split; [exact E251_ok|]. split; [vm_compute; discriminate|]. split; [apply q251_good; lia|]. split; [repeat constructor; unfold is_byte; lia|]. vm_compute. repeat split. Qed.
Example C73_curve_ex : curve_base ex_c ex_C ex_prime /\ d_encode_point ex_c ex_C (cu_g ex_C) true = Ok (encode_point ex_c ex_C (cu_g ex_C) true) /\ d_decode_point ex_c ex_C (encode_point ex_c ex_C (cu_g ex_C) true) = Ok (cu_g ex_C) /\
  d_curve_verify ex_c ex_C = curve_verify ex_c ex_C.
Proof. split; [exact ex_base|]. vm_compute. repeat split. Qed.
