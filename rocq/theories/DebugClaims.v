(** Claims about the build with assertions, collected for DebugProperties.v. *)
From Coq Require Import List ZArith Znumtheory Bool Lia.
From Verif Require Import Outcome LoopModel WordsModel WordsSpec UtilsSpec BigintModel BigintSpec BigintProofs BigintBits BigintClosure BigintClaims NumModel NumProofs FpModel FpSpec FpProofs EcModel EcGroup ZpField EcSpec EcFeSpec EcTransfer EcCurveModel EcCurveSpec EcCodec EcdsaModel EcdsaSpec EcdsaProofs EcdsaClaims ExactClaims NamedModel NamedSpec CurveVerify AssertModel AssertSpec AssertProofs DebugEcModel DebugFp DebugSqrt DebugEc DebugMul DebugCurve.
Import ListNotations.
Open Scope Z_scope.

Lemma field_claim c p : modulus_ok c p -> forall a b k, fits c p a -> fits c p b -> int32 k -> k <> - 2 ^ 31 ->
  d_fp_neg c a p = Ok (fp_neg c a p) /\ d_fp_add c a b p = Ok (fp_add c a b p) /\ d_fp_sub c a b p = Ok (fp_sub c a b p) /\
  d_fp_mul c a b p = fp_mul c a b p /\ d_fp_sqr c a p = fp_sqr c a p /\ d_fp_mul_int c a k p = fp_mul_int c a k p.
Proof.
  intros Hp a b k Ha Hb K N. split; [apply (d_fp_neg_eq c p Hp a Ha)|]. split; [apply (d_fp_add_eq c p Hp a b Ha Hb)|]. split; [apply (d_fp_sub_eq c p Hp a b Ha Hb)|].
  split; [apply (d_fp_mul_eq c p Hp a b Ha Hb)|]. split; [apply (d_fp_mul_eq c p Hp a a Ha Ha)|apply (d_fp_mul_int_eq c p Hp a k Ha K N)].
Qed.
Lemma field_inverse_claim c p : modulus_ok c p -> forall a b e, fits c p a -> fits c p b -> 0 <= value b -> valid c e ->
  d_op_modinv c b p = op_modinv c b p /\ d_op_modexp c b e p = op_modexp c b e p /\ (value b < value p -> d_fp_div c a b p = fp_div c a b p).
Proof.
  intros Hp a b e Ha Hb Nb Ve. split; [apply (d_op_modinv_eq c p Hp b Hb Nb)|]. split; [apply (d_op_modexp_eq c p Hp b e Hb Nb Ve)|]. intros L. apply (d_fp_div_eq c p Hp a b Ha). split; [apply Hb|lia].
Qed.
Lemma field_stop_claim c p a b : valid c a -> valid c b ->
  (~ room c (size a + size b) -> d_fp_mul c a b p = Abort) /\ (~ room c (size a + size a) -> d_fp_sqr c a p = Abort) /\
  (neg a = neg b -> ~ room c (Nat.max (size a) (size b) + 1) -> d_fp_add c a b p = Abort) /\
  (neg a <> neg b -> ~ room c (Nat.max (size a) (size b) + 1) -> d_fp_sub c a b p = Abort) /\
  (forall k, int32 k -> k = - 2 ^ 31 \/ ~ room c (size a + 1) -> d_fp_mul_int c a k p = Abort).
Proof.
  intros Va Vb. pose proof (zero_storage c a Va) as Z0. split; [|split; [|split; [|split]]].
  - intros R. unfold d_fp_mul. rewrite (proj2 (d_op_mul_ok c a b Va Vb) R). reflexivity.
  - intros R. unfold d_fp_sqr, d_fp_mul. rewrite (proj2 (d_op_mul_ok c a a Va Va) R). reflexivity.
  - intros E R. unfold d_fp_add, d_op_add. rewrite (proj2 (d_add_ok c (zero c) a b Z0 Va Vb)); [reflexivity|]. intros K. apply R, K, E.
  - intros E R. unfold d_fp_sub, d_op_sub. rewrite (proj2 (d_sub_ok c (zero c) a b Z0 Va Vb)); [reflexivity|]. intros K. apply R, K, E.
  - intros k K H. unfold d_fp_mul_int. rewrite (proj2 (d_muls1_ok c (zero c) a k Z0 Va K)); [reflexivity|]. intros Q. destruct Q as (Q1 & Q2). destruct H; contradiction.
Qed.
Lemma sqrt_debug_claim c p : modulus_ok c p -> prime (value p) -> 2 < value p -> forall n, fits c p n -> 0 <= value n -> d_fp_sqrt c n p = fp_sqrt c n p.
Proof.
  intros Hp Pp P2 n Hn Nn. assert (O : Z.odd (value p) = true). { destruct (Z.eq_dec (value p) 3) as [->|]; [reflexivity|]. apply (prime_odd3 _ Pp). lia. }
  apply (d_fp_sqrt_same c p Hp Pp O n). split; assumption.
Qed.

Section POINTS.
Variable c : cap.
Variable p a b : bigint.
Variables z m3 : bool.
Notation O1 := (d_fe_ops c p). Notation O2 := (fe_ops c p).
Notation E1 := (mkcoeffs (d_fe_ops c p) a b z m3). Notation E2 := (mkcoeffs (fe_ops c p) a b z m3).
Hypothesis Hp : modulus_ok c p.
Hypothesis Pp : prime (value p).
Hypothesis p3 : 3 < value p.
Hypothesis Ha : reduced c p a.
Hypothesis Hb : reduced c p b.
Lemma affine_debug_claim (P Q : option (fe * fe)) s t n : good2 c p P -> good2 c p Q -> valid c s -> valid c t -> valid c n -> room c (size s + 1) -> room c (size t + 1) ->
  aff_add O1 E1 P Q = aff_add O2 E2 P Q /\ aff_doubled O1 E1 P = aff_doubled O2 E2 P /\ aff_inverted O1 P = aff_inverted O2 P /\ aff_is_on_curve O1 E1 P = aff_is_on_curve O2 E2 P /\
  d_aff_mul c p E1 P s = aff_mul O2 E2 P s /\ d_aff_is_valid c p E1 n P = aff_is_valid O2 E2 n P /\ d_aff_mul_add c p E1 s P t Q = aff_mul_add O2 E2 c s P t Q.
Proof.
  intros HP HQ Vs Vt Vn Rs Rt. split; [apply (aff_add_same c p Hp Pp p3 a b Ha z m3 P Q HP HQ)|]. split; [apply (aff_dbl_same c p Hp Pp p3 a b Ha z m3 P HP)|]. split; [apply (aff_inv_same c p Hp P HP)|].
  split; [apply sb; apply (aff_on_rel c p Hp a b Ha Hb z m3); apply r2; exact HP|].
  split; [apply (aff_mul_same c p Hp Pp p3 a b Ha z m3 P s HP Vs)|]. split; [apply (aff_valid_same c p Hp Pp p3 a b Ha Hb z m3 P n HP Vn)|apply (aff_mul_add_same c p Hp Pp p3 a b Ha z m3 P Q s t); assumption].
Qed.
Lemma projective_debug_claim (P Q : option (fe * fe * fe)) s t n : good3 c p P -> good3 c p Q -> valid c s -> valid c t -> valid c n -> room c (size s + 1) -> room c (size t + 1) ->
  proj_add O1 E1 P Q = proj_add O2 E2 P Q /\ proj_doubled O1 E1 P = proj_doubled O2 E2 P /\ inverted3 O1 P = inverted3 O2 P /\ proj_is_on_curve O1 E1 P = proj_is_on_curve O2 E2 P /\ proj_to_affine O1 P = proj_to_affine O2 P /\
  d_proj_mul c p E1 P s = proj_mul O2 E2 P s /\ d_proj_is_valid c p E1 n P = proj_is_valid O2 E2 n P /\ d_proj_mul_add c p E1 s P t Q = proj_mul_add O2 E2 c s P t Q.
Proof.
  intros HP HQ Vs Vt Vn Rs Rt. split; [apply (proj_add_same c p Hp p3 a b Ha z m3 P Q HP HQ)|]. split; [apply (proj_dbl_same c p Hp p3 a b Ha z m3 P HP)|]. split; [apply (inv3_same c p Hp P HP)|].
  split; [apply sb; apply (proj_on_rel c p Hp a b Ha Hb z m3); apply r3; exact HP|]. split; [apply (s2 c p); apply (proj_to_affine_rel c p Hp Pp); apply r3; exact HP|].
  split; [apply (proj_mul_same c p Hp p3 a b Ha z m3 P s HP Vs)|]. split; [apply (proj_valid_same c p Hp p3 a b Ha Hb z m3 P n HP Vn)|apply (proj_mul_add_same c p Hp p3 a b Ha z m3 P Q s t); assumption].
Qed.
Hypothesis p8 : 8 < value p.
Lemma jacobian_debug_claim (P Q : option (fe * fe * fe)) s t n : good3 c p P -> good3 c p Q -> valid c s -> valid c t -> valid c n -> room c (size s + 1) -> room c (size t + 1) -> room c (size n + 1) ->
  jac_add O1 E1 P Q = jac_add O2 E2 P Q /\ jac_doubled O1 E1 P = jac_doubled O2 E2 P /\ inverted3 O1 P = inverted3 O2 P /\ jac_is_on_curve O1 E1 P = jac_is_on_curve O2 E2 P /\ jac_to_affine O1 P = jac_to_affine O2 P /\
  d_jac_mul c p E1 P s = jac_mul O2 E2 c P s /\ d_jac_is_valid c p E1 n P = jac_is_valid O2 E2 c n P /\ d_jac_mul_add c p E1 s P t Q = jac_mul_add O2 E2 c s P t Q.
Proof.
  intros HP HQ Vs Vt Vn Rs Rt Rn. split; [apply (jac_add_same c p Hp p3 a b Ha z m3 p8 P Q HP HQ)|]. split; [apply (jac_dbl_same c p Hp p3 a b Ha z m3 p8 P HP)|]. split; [apply (inv3_same c p Hp P HP)|].
  split; [apply sb; apply (jac_on_rel c p Hp a b Ha Hb z m3); apply r3; exact HP|]. split; [apply (s2 c p); apply (jac_to_affine_rel c p Hp Pp); apply r3; exact HP|].
  split; [apply (jac_mul_same c p Hp p3 a b Ha z m3 p8 P s HP Vs Rs)|]. split; [apply (jac_valid_same c p Hp p3 a b Ha Hb z m3 p8 P n HP Vn Rn)|apply (jac_mul_add_same c p Hp p3 a b Ha z m3 p8 P Q s t); assumption].
Qed.
End POINTS.

Lemma curve_make_debug_claim c p a b gx gy n h : modulus_ok c p -> valid c n -> 0 < value n -> d_curve_make c p a b gx gy n h = curve_make c p a b gx gy n h.
Proof. intros Hp Vn Pn. apply (d_curve_make_eq c (mkcurve p a b None n h false false p) Hp a b gx gy n h Vn Pn). Qed.
Lemma codec_debug_claim c C (Pp : prime (value (cu_p C))) : curve_base c C Pp -> valid c (cu_n C) ->
  (forall e, all_bytes e -> d_decode_point c C e = decode_point c C e) /\
  (forall P compress, good2 c (cu_p C) P -> d_encode_point c C P compress = Ok (encode_point c C P compress)) /\
  (forall x y v, valid c x -> valid c y -> d_make_point c C x y v = make_point c C x y v) /\
  (forall x odd v, fits c (cu_p C) x -> 0 <= value x -> d_decompress_point c C x odd v = decompress_point c C x odd v).
Proof.
  intros CB Vn. pose proof (cHp c C Pp CB) as Hp. pose proof (cP3 c C Pp CB) as p3. pose proof (cHa c C Pp CB) as Ha. pose proof (cHb c C Pp CB) as Hb.
  split; [|split; [|split]].
  - intros e Ae. apply (d_decode_eq c C Hp Pp p3 Ha Hb e Ae); [|exact Vn]. intros d Ad L. apply bytes_fit; assumption.
  - intros P k HP. apply (d_encode_eq c C Hp P k HP).
  - intros x y v Vx Vy. apply (d_make_point_eq c C Hp Pp p3 Ha Hb x y v Vx Vy Vn).
  - intros x odd v Fx Nx. apply (d_decompress_eq c C Hp Pp p3 Ha Hb). split; assumption.
Qed.
Lemma generate_debug_claim c C (Pp : prime (value (cu_p C))) : ecdsa_curve c C Pp -> forall x, valid c x ->
  d_generate_point c C x = generate_point c C x /\ d_generate_point_proj c C x = generate_point_proj c C x /\ d_generate_point_jac c C x = generate_point_jac c C x.
Proof.
  intros EC x Vx. pose proof (eCB c C Pp EC) as CB. pose proof (cHp c C Pp CB) as Hp. pose proof (cP3 c C Pp CB) as p3. pose proof (cHa c C Pp CB) as Ha.
  pose proof (eGg c C Pp EC) as HG. split; [apply (d_generate_eq c C Hp Pp p3 Ha x HG Vx)|]. split; [apply (d_generate_proj_eq c C Hp p3 Ha x HG Vx)|].
  apply (d_generate_jac_eq c C Hp p3 Ha x); [apply (eP8 c C Pp EC)|exact HG|apply (eHn c C Pp EC)|exact Vx].
Qed.
Lemma curve_verify_debug_claim c C : prime (value (cu_p C)) -> modulus_ok c (cu_p C) -> valid c (cu_a C) -> valid c (cu_b C) -> good2 c (cu_p C) (cu_g C) -> valid c (cu_n C) -> room c (size (cu_n C) + 1) -> 0 <= cu_h C < 2 ^ 32 ->
  d_curve_verify c C = curve_verify c C.
Proof. intros Pp Hp. apply (d_curve_verify_eq c C Hp Pp). Qed.
Lemma ecdsa_debug_claim c C (Pp : prime (value (cu_p C))) : ecdsa_curve c C Pp -> forall q msg r s, good2 c (cu_p C) q -> all_bytes msg -> valid c r -> valid c s ->
  d_ecdsa_verify c C q msg r s = ecdsa_verify c C q msg r s /\ d_assert_ecdsa c C q msg r s = assert_ecdsa c C q msg r s.
Proof. intros EC q msg r s Hq A Vr Vs. split; [apply (d_verify_eq c C Pp EC); assumption|apply (d_assert_eq c C Pp EC); assumption]. Qed.
Lemma recover_debug_claim c C (Pp : prime (value (cu_p C))) : ecdsa_curve c C Pp -> cu_p_minus_n C = op_sub c (cu_p C) (cu_n C) -> forall msg r s id v, all_bytes msg -> valid c r -> valid c s -> value r < value (cu_p C) ->
  d_ecdsa_recover c C msg r s id v = ecdsa_recover c C msg r s id v.
Proof. intros EC PN msg r s id v A Vr Vs R. apply (d_recover_eq c C Pp EC); assumption. Qed.
(** acceptance by the build with assertions, against the standard *)
Lemma accept_debug_claim c C (Pp : prime (value (cu_p C))) : ecdsa_curve c C Pp -> value (cu_p C) <= 2 * value (cu_n C) -> forall q msg r s,
  good2 c (cu_p C) q -> on_curve (kval (cu_p C) Pp (cu_a C)) (kval (cu_p C) Pp (cu_b C)) (aff_pt (cu_p C) Pp q) -> all_bytes msg -> fits_order C msg -> valid c r -> valid c s ->
  exists v, d_ecdsa_verify c C q msg r s = Ok v /\ (v = true <-> accepts (coord (cu_p C) Pp) (kval (cu_p C) Pp (cu_a C)) (aff_pt (cu_p C) Pp (cu_g C)) (value (cu_n C)) (aff_pt (cu_p C) Pp q) (leftmost (bitlen (value (cu_n C))) msg) (value r) (value s)).
Proof.
  intros EC PN q msg r s Hq ON A F Vr Vs. rewrite (proj1 (ecdsa_debug_claim c C Pp EC q msg r s Hq A Vr Vs)). apply (verify_std c C Pp EC q msg r s); assumption.
Qed.
Lemma named_debug_claim wasm m C (Pp : prime (value (cu_p C))) : In m named_curves -> named_curve wasm m = Ok C -> prime (hexval (pm_n m)) ->
  let c := named_cap wasm m in
  (forall q msg r s, good2 c (cu_p C) q -> all_bytes msg -> valid c r -> valid c s -> d_ecdsa_verify c C q msg r s = ecdsa_verify c C q msg r s) /\
  (forall e, all_bytes e -> d_decode_point c C e = decode_point c C e) /\
  (forall x, valid c x -> d_generate_point c C x = generate_point c C x /\ d_generate_point_jac c C x = generate_point_jac c C x).
Proof.
  intros H K Pn c. pose proof (named_ecdsa wasm m C Pp H K Pn) as EC. split; [|split].
  - intros q msg r s Hq A Vr Vs. apply (ecdsa_debug_claim c C Pp EC); assumption.
  - apply (codec_debug_claim c C Pp (eCB c C Pp EC)). apply (eHn c C Pp EC).
  - intros x Vx. destruct (generate_debug_claim c C Pp EC x Vx) as (A & _ & B). split; assumption.
Qed.
