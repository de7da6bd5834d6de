(** The curve object and ECDSA with assertions enabled: the outcomes are those of the release build. *)
From Coq Require Import List ZArith Znumtheory Bool Lia.
From Verif Require Import Outcome LoopModel LoopProofs WordsModel WordsSpec WordsProofs UtilsSpec BigintModel BigintSpec BigintProofs BigintBits BigintClosure BigintClaims NumModel NumProofs BigintBytes FpModel FpSpec FpProofs FpClaims EcModel EcGroup ZpField EcSpec EcFeSpec EcTransfer EcCurveModel EcCurveSpec EcCodec EcCurveClaims CurveVerify EcdsaModel EcdsaSpec EcdsaProofs AssertModel AssertSpec AssertProofs AssertRefine AssertSim AssertLoops DebugEcModel DebugFp DebugSqrt DebugEc DebugMul.
Import ListNotations.
Open Scope Z_scope.

Lemma id_same c p (P : option (fe * fe)) : aff_is_identity (d_fe_ops c p) P = aff_is_identity (fe_ops c p) P.
Proof. destruct P as [[x y]|]; reflexivity. Qed.
Lemma d_sub_pos c z x y : storage_ok c z -> valid c x -> valid c y -> neg x = neg y -> d_sub c z x y = Ok (sub c z x y).
Proof. intros Hz Vx Vy E. eapply exact_eq; [apply (d_sub_ok c z x y Hz Vx Vy)|apply b_sub|]. intros N. contradiction. Qed.
Lemma prime_odd3 q : prime q -> 3 < q -> Z.odd q = true.
Proof.
  intros Pp H. rewrite <- Z.negb_even. destruct (Z.even q) eqn:E; [|reflexivity]. apply Z.even_spec in E. destruct E as (k & E).
  destruct (prime_divisors _ Pp 2) as [D|[D|[D|D]]]; try lia. exists k. lia.
Qed.
Lemma modulus_room c n x : modulus_ok c n -> valid c x -> 0 <= value x <= value n -> room c (size x + 1).
Proof.
  intros Hn Vx R. apply room_le with (2 * size n)%nat; [apply Hn|]. assert (S1 : (size x <= size n)%nat) by (apply (size_le c); [exact Vx|apply Hn|lia]).
  assert ((1 <= size n)%nat) by apply (proj1 Hn). lia.
Qed.

Section CURVE.
Variable c : cap.
Variable C : curve.
Notation p := (cu_p C). Notation n := (cu_n C).
Hypothesis Hp : modulus_ok c p.
Variable Pp : prime (value p).
Let Vp : valid c p. Proof. apply Hp. Qed.

(** the constructor *)
Lemma d_curve_make_eq a b gx gy m h : valid c m -> 0 < value m -> d_curve_make c p a b gx gy m h = curve_make c p a b gx gy m h.
Proof.
  intros Vm Pm. unfold d_curve_make, curve_make. rewrite (d_subs1_fits c p Hp false (zero c) p 3 (FpProofs.zst c p Hp) (p_fits c p Hp)) by (unfold int32; first [discriminate|lia]).
  unfold d_op_sub, op_sub. rewrite (d_sub_pos c (zero c) p m (FpProofs.zst c p Hp) Vp Vm) by (rewrite !(pos_neg c) by (first [assumption|destruct Hp; lia]); reflexivity). reflexivity.
Qed.
(** an element of the field, possibly not reduced *)
Definition pel (x : fe) : Prop := fm x = Some p /\ pfits c p (fv x).
Lemma pel_loose x : pel x -> loose c p x. Proof. intros (E & H & _). split; assumption. Qed.
Lemma elem_pel x : elem c p x -> pel x. Proof. intros (E & H). split; [exact E|apply red_pfits; assumption]. Qed.
Lemma sqr_pel x : pel x -> same pel (d_fe_sqr c x) (fe_sqr c x).
Proof.
  intros Hx. split; [apply (e_sqr c p Hp x), pel_loose, Hx|]. intros v. unfold fe_sqr. destruct (is_one (fv x)); [intros K; injection K as <-; exact Hx|]. destruct Hx as (E & Fx).
  unfold with_m. rewrite E. destruct (mul_pos c p Hp (fv x) (fv x) Fx Fx) as (r & _ & K & R). unfold fp_sqr, fp_mul. rewrite K. cbn [bind]. intros Q. injection Q as <-. apply elem_pel. split; [reflexivity|exact R].
Qed.
Lemma mul_pel x y : pel x -> pel y -> same pel (d_fe_mul c x y) (fe_mul c x y).
Proof.
  intros Hx (Ey & Fy). split; [apply (e_mul_big c p Hp x); [apply pel_loose, Hx|apply Fy]|]. intros v. unfold fe_mul, fe_mul_big. destruct Hx as (E & Fx). destruct (is_one (fv x)).
  { unfold with_m. rewrite E. cbn [bind]. intros K. injection K as <-. split; [reflexivity|exact Fy]. }
  destruct (is_one (fv y)); [intros K; injection K as <-; split; assumption|].
  unfold with_m. rewrite E. destruct (mul_pos c p Hp (fv x) (fv y) Fx Fy) as (r & _ & K & R). unfold fp_mul. rewrite K. cbn [bind]. intros Q. injection Q as <-. apply elem_pel. split; [reflexivity|exact R].
Qed.
Lemma add_pel x k : pel x -> reduced c p k -> same pel (d_fe_add_big c x k) (fe_add_big c x k).
Proof.
  intros Hx Hk. split; [apply (e_add_big c p Hp x); [apply pel_loose, Hx|apply (red_fits c p Hp), Hk]|]. intros v. destruct Hx as (E & ((Vx & Sx) & Nx)). unfold fe_add_big, with_m. rewrite E. cbn [bind]. intros Q. injection Q as <-. split; [reflexivity|]. cbn [fv].
  pose proof (red_size c p Hp _ Hk) as Sk. destruct (op_add_val c p Hp (fv x) k Vx (proj1 Hk) Sx Sk) as (V & EV). unfold fp_add, fp_add_tail. destruct Hk as (Vk & Rk).
  pose proof (compare_spec c (op_add c (fv x) k) p V Vp) as M. unfold cmp_result in M. assert (P1 : 1 < value p) by apply Hp.
  destruct (Z.geb_spec (compare (op_add c (fv x) k) p) 0) as [G|G].
  - destruct (sub_same_claim c (op_add c (fv x) k) (op_add c (fv x) k) p V V Vp) as (V' & E'); [rewrite !(pos_neg c) by (first [assumption|lia]); reflexivity|]. rewrite EV in E'.
    split; [|rewrite E'; lia]. split; [exact V'|]. apply Nat.le_trans with (size (fv x)); [|exact Sx]. apply (size_le c); [exact V'|exact Vx|]. rewrite E'. lia.
  - split; [|lia]. split; [exact V|]. apply (size_le c); [exact V|exact Vp|]. lia.
Qed.
Lemma sqrt_loose x : 3 < value p -> pel x -> same (loose c p) (d_fe_sqrt c x) (fe_sqrt c x).
Proof.
  intros p3 Hx. unfold d_fe_sqrt, fe_sqrt. destruct (is_one (fv x)); [apply same_ok, pel_loose, Hx|]. destruct Hx as (E & Fx). unfold with_m. rewrite E.
  apply (same_bind (fits c p)); [apply (d_fp_sqrt_same c p Hp Pp (prime_odd3 _ Pp p3)), Fx|]. intros v Fv. apply same_ok. split; [reflexivity|exact Fv].
Qed.

Section USABLE.
Hypothesis p3 : 3 < value p.
Hypothesis Ha : reduced c p (cu_a C).
Hypothesis Hb : reduced c p (cu_b C).
Lemma d_compute_y_eq x odd : pel x -> d_compute_y c C x odd = compute_y c C x odd.
Proof.
  intros Hx. apply (same_bind pel (fun _ => True)); [apply sqr_pel, Hx|]. intros t Ht. apply (same_bind pel); [apply add_pel; assumption|]. intros t1 H1.
  apply (same_bind pel); [apply mul_pel; assumption|]. intros t2 H2. apply (same_bind pel); [apply add_pel; assumption|]. intros t3 H3.
  apply (same_bind (loose c p)); [apply sqrt_loose; assumption|]. intros y Hy. apply same_any. destruct (negb _); [apply (e_neg c p Hp y Hy)|reflexivity].
Qed.
Lemma d_decompress_eq x odd v : pfits c p x -> d_decompress_point c C x odd v = decompress_point c C x odd v.
Proof.
  intros Hx. unfold d_decompress_point, decompress_point, make_field_element. destruct (if v then _ else _) as [u| | |]; cbn [bind]; try reflexivity.
  unfold d_decompress_fe, decompress_fe. rewrite d_compute_y_eq by (split; [reflexivity|exact Hx]). reflexivity.
Qed.
Lemma d_valid_eq (P : option (fe * fe)) : good2 c p P -> valid c n -> d_aff_is_valid c p (d_cu_coeffs c C) n P = aff_is_valid (fe_ops c p) (cu_coeffs c C) n P.
Proof. intros HP Vn. apply (aff_valid_same c p Hp Pp p3 (cu_a C) (cu_b C) Ha Hb (cu_a_is_zero C) (cu_a_is_minus_3 C) P n HP Vn). Qed.
Lemma d_make_point_eq x y v : valid c x -> valid c y -> valid c n -> d_make_point c C x y v = make_point c C x y v.
Proof.
  intros Vx Vy Vn. unfold d_make_point, make_point. rewrite !(make_integer c p _ Hp) by assumption.
  destruct ((0 <=? value x) && (value x <? value p)) eqn:Rx; cbn [check bind]; [|reflexivity]. destruct ((0 <=? value y) && (value y <? value p)) eqn:Ry; cbn [check bind]; [|reflexivity].
  unfold make_field_element. cbn [bind]. unfold d_make_point_fe, make_point_fe. destruct v; [|reflexivity].
  rewrite d_valid_eq; [reflexivity| |exact Vn]. split; (split; [reflexivity|split; [assumption|cbn [fv]; lia]]).
Qed.
Lemma d_decode_eq e : all_bytes e -> (forall d, all_bytes d -> (length d <= Z.to_nat (byte_length p))%nat -> exists r, of_bytes c d = Ok r /\ pfits c p r) -> valid c n ->
  d_decode_point c C e = decode_point c C e.
Proof.
  intros Ae DW Vn. unfold d_decode_point, decode_point. destruct e as [|t d]; [reflexivity|]. destruct (check _); cbn [bind]; try reflexivity.
  assert (Ad : all_bytes d) by (inversion Ae; assumption).
  assert (W : forall l, all_bytes l -> exists r, of_bytes c (firstn (Z.to_nat (byte_length p)) l) = Ok r /\ pfits c p r).
  { intros l Al. apply DW; [apply bytes_firstn, Al|]. rewrite firstn_length. lia. }
  destruct ((t =? 2) || (t =? 3)).
  - destruct (check _); cbn [bind]; try reflexivity. destruct (W d Ad) as (x & -> & Fx). cbn [bind]. apply d_decompress_eq, Fx.
  - destruct (t =? 4); reflexivity.
Qed.
Lemma d_encode_eq (P : option (fe * fe)) compress : good2 c p P -> d_encode_point c C P compress = Ok (encode_point c C P compress).
Proof.
  intros HP. unfold d_encode_point, encode_point. rewrite (id_same c p P). destruct (aff_is_identity (fe_ops c p) P); [reflexivity|]. destruct P as [[x y]|]; [|reflexivity]. destruct HP as (Hx & Hy).
  assert (K : forall z, elem c p z -> d_fe_to_bytes c z = Ok (fe_to_bytes c z)).
  { intros z (Ez & _). unfold d_fe_to_bytes, fe_to_bytes, fe_max_byte_length. rewrite Ez. unfold fe_to_bytes_len. destruct (fe_is_valid z); [|reflexivity].
    rewrite (d_subs1_fits c p Hp false (zero c) p 1 (FpProofs.zst c p Hp) (p_fits c p Hp)) by (unfold int32; first [discriminate|lia]). reflexivity. }
  rewrite (K x Hx). cbn [bind]. destruct compress; [reflexivity|]. rewrite (K y Hy). reflexivity.
Qed.
Notation Ho P := (of_affine (fe_ops c p) P).
Lemma of_affine_good (P : option (fe * fe)) : good2 c p P -> of_affine (d_fe_ops c p) P = Ho P /\ good3 c p (Ho P).
Proof. intros H. destruct (of_affine_rel c p Hp p3 P P) as (E & G); [split; [reflexivity|exact H]|]. split; [exact E|]. rewrite <- E. exact G. Qed.
Lemma d_generate_eq x : good2 c p (cu_g C) -> valid c x -> d_generate_point c C x = generate_point c C x.
Proof.
  intros HG Vx. unfold d_generate_point, generate_point. destruct (check _); cbn [bind]; try reflexivity.
  apply (aff_mul_same c p Hp Pp p3 (cu_a C) (cu_b C) Ha (cu_a_is_zero C) (cu_a_is_minus_3 C)); assumption.
Qed.
Lemma d_generate_proj_eq x : good2 c p (cu_g C) -> valid c x -> d_generate_point_proj c C x = generate_point_proj c C x.
Proof.
  intros HG Vx. unfold d_generate_point_proj, generate_point_proj. destruct (check _); cbn [bind]; try reflexivity. destruct (of_affine_good _ HG) as (-> & G3).
  apply (proj_mul_same c p Hp p3 (cu_a C) (cu_b C) Ha (cu_a_is_zero C) (cu_a_is_minus_3 C)); assumption.
Qed.
Lemma d_generate_jac_eq x : 8 < value p -> good2 c p (cu_g C) -> modulus_ok c n -> valid c x -> d_generate_point_jac c C x = generate_point_jac c C x.
Proof.
  intros p8 HG Hn Vx. unfold d_generate_point_jac, generate_point_jac. destruct ((compares1 x 0 >? 0) && (compare x n <? 0)) eqn:R; cbn [check bind]; [|reflexivity]. destruct (of_affine_good _ HG) as (-> & G3).
  pose proof (compares1_spec c x 0 Vx ltac:(unfold int32; lia)) as M0. pose proof (compare_spec c x n Vx (proj1 Hn)) as M1. unfold cmp_result in *.
  apply (jac_mul_same c p Hp p3 (cu_a C) (cu_b C) Ha (cu_a_is_zero C) (cu_a_is_minus_3 C) p8); [assumption..|]. apply (modulus_room c n x Hn Vx). lia.
Qed.
End USABLE.

(** [verify] of the curve object; the coefficients are range checked at run time *)
Lemma d_curve_verify_eq : valid c (cu_a C) -> valid c (cu_b C) -> good2 c p (cu_g C) -> valid c n -> room c (size n + 1) -> 0 <= cu_h C < 2 ^ 32 -> d_curve_verify c C = curve_verify c C.
Proof.
  intros Va Vb HG Vn Rn Hh. unfold d_curve_verify, curve_verify. pose proof (compares1_spec c p 3 Vp ltac:(unfold int32; lia)) as M3. unfold cmp_result in M3.
  destruct (negb (compares1 p 3 >? 0) || _) eqn:Q; [reflexivity|]. assert (p3 : 3 < value p) by lia. clear Q M3.
  assert (RNG : forall x, valid c x -> is_negative x || negb (compare x p <? 0) = negb ((0 <=? value x) && (value x <? value p))).
  { intros x V. rewrite <- (make_integer c p x Hp V). unfold is_valid_integer. rewrite negb_andb, negb_involutive. reflexivity. }
  rewrite (RNG _ Va), (RNG _ Vb). destruct ((0 <=? value (cu_a C)) && (value (cu_a C) <? value p)) eqn:Ra; cbn [negb]; [|reflexivity].
  destruct ((0 <=? value (cu_b C)) && (value (cu_b C) <? value p)) eqn:Rb; cbn [negb]; [|reflexivity].
  assert (Ha : reduced c p (cu_a C)) by (split; [exact Va|lia]). assert (Hb : reduced c p (cu_b C)) by (split; [exact Vb|lia]). clear Ra Rb RNG.
  unfold make_field_element. cbn [bind]. set (af := mkfe (cu_a C) (Some p)). set (bf := mkfe (cu_b C) (Some p)).
  assert (Fa : elem c p af) by (split; [reflexivity|exact Ha]). assert (Fb : elem c p bf) by (split; [reflexivity|exact Hb]).
  assert (P4 : 4 < value p).
  { destruct (Z.eq_dec (value p) 4) as [E4|E4]; [|lia]. exfalso. pose proof (prime_divisors (value p) Pp 2 ltac:(exists 2; rewrite E4; reflexivity)) as D. lia. }
  rewrite (e_sqr c p Hp af (elem_loose c p Hp af Fa)). destruct (fe_sqr_claim c p Hp af Fa) as (t1 & -> & F1 & _). cbn [bind]. unfold int_times_fe.
  rewrite (e_mul_int c p Hp t1 4 (elem_loose c p Hp t1 F1)) by (unfold int32; lia). destruct (fe_mul_int_claim c p Hp t1 4 F1 ltac:(lia) ltac:(lia) ltac:(lia)) as (t2 & -> & F2 & _). cbn [bind].
  unfold d_fe_mul. rewrite (e_mul_big c p Hp t2 (fv af) (elem_loose c p Hp t2 F2) (elem_fits c p Hp af Fa)). fold (fe_mul c t2 af). destruct (fe_mul_claim c p Hp t2 af F2 Fa) as (t3 & -> & F3 & _). cbn [bind].
  rewrite (e_sqr c p Hp bf (elem_loose c p Hp bf Fb)). destruct (fe_sqr_claim c p Hp bf Fb) as (u1 & -> & G1 & _). cbn [bind].
  rewrite (e_mul_int c p Hp u1 27 (elem_loose c p Hp u1 G1)) by (unfold int32; lia). destruct (mul27_claim c C Hp p3 u1 G1) as (u2 & -> & L2 & _). cbn [bind].
  unfold d_fe_add. rewrite (e_add_big c p Hp t3 (fv u2) (elem_loose c p Hp t3 F3)) by (destruct L2 as (_ & V2 & _ & S2); split; assumption). fold (fe_add c t3 u2).
  destruct (add_loose_claim c C Hp p3 t3 u2 F3 L2) as (y & -> & (Ey & Vy & _ & Sy) & _). cbn [bind].
  rewrite (e_mul_int c p Hp y (-16)) by (first [unfold int32; lia|split; [exact Ey|split; assumption]]). destruct (fe_mul_int c y (-16)) as [d| | |]; cbn [bind]; try reflexivity.
  destruct (_ =? 0); [reflexivity|]. rewrite (d_valid_eq p3 Ha Hb _ HG Vn). destruct (aff_is_valid _ _ _ _) as [v| | |]; cbn [bind]; try reflexivity. destruct v; cbn [negb]; [|reflexivity].
  destruct ((cu_h C <? 1) || _); [reflexivity|].
  rewrite (exact_eq c _ _ _ _ (d_mulu1_ok c (zero c) n (cu_h C) (FpProofs.zst c p Hp) Vn ltac:(rewrite <- B_eq; lia)) (b_mulu1 c (zero c) n (cu_h C)) Rn). cbn [bind].
  rewrite (d_subs1_fits c p Hp false (zero c) p 1 (FpProofs.zst c p Hp) (p_fits c p Hp)) by (unfold int32; first [discriminate|lia]). reflexivity.
Qed.
End CURVE.

(** a byte string not longer than the number fits in as many words *)
Lemma bytes_fit c p d : modulus_ok c p -> all_bytes d -> (length d <= Z.to_nat (byte_length p))%nat -> exists r, of_bytes c d = Ok r /\ pfits c p r.
Proof.
  intros Hp Ad L. pose proof (n_words c p Hp) as W. pose proof (proj1 Hp) as Vp. pose proof Vp as (_ & Sz & _). destruct (byte_length_bounds c p Vp) as (A1 & _).
  destruct (of_bytes_claim c d Ad) as (e & -> & (Ve & _) & E).
  { apply room_le with (2 * size p)%nat; [apply Hp|]. assert ((length d + 3) / 4 < size p + 1)%nat by (apply Nat.div_lt_upper_bound; lia). lia. }
  exists e. split; [reflexivity|]. pose proof (be_range d Ad) as B0. split; [|lia]. split; [exact Ve|]. apply (size_le_iff c e (size p) Ve ltac:(lia)). rewrite Bn_pow2, (abs_magnitude c), E by assumption.
  pose proof (Z.pow_le_mono_r 256 (Z.of_nat (length d)) (byte_length p) ltac:(lia) ltac:(lia)) as B1. change 256 with (2 ^ 8) in B1, B0. rewrite <- !Z.pow_mul_r in B1 by lia. rewrite <- Z.pow_mul_r in B0 by lia.
  pose proof (Z.pow_le_mono_r 2 (8 * byte_length p) (32 * Z.of_nat (size p)) ltac:(lia) ltac:(lia)). lia.
Qed.
Lemma d_digest_same c n msg : modulus_ok c n -> all_bytes msg -> same (pfits c n) (d_digest_int c n msg) (digest_int c n msg).
Proof.
  intros Hn A. destruct (digest_claim c n Hn msg A) as (e & E & Ve & Se & Xe & R0). split.
  - unfold d_digest_int, digest_int. destruct (bytes_fit c n (firstn (Nat.min (Z.to_nat (byte_length n)) (length msg)) msg) Hn) as (r & -> & (Vr & _) & Nr); [apply bytes_firstn, A|rewrite firstn_length; lia|]. cbn [bind].
    pose proof (compare_spec c r n Vr (proj1 Hn)) as M. unfold cmp_result in M. assert (1 < value n) by apply Hn. destruct (Z.gtb_spec (compare r n) 0); [|reflexivity].
    rewrite d_sub_pos; [reflexivity|apply Vr|exact Vr|apply Hn|]. rewrite !(pos_neg c) by (first [exact Vr|apply Hn|lia]). reflexivity.
  - intros v Q. rewrite E in Q. injection Q as <-. split; [split; assumption|]. rewrite Xe. destruct (Z.gtb_spec (lead n msg) (value n)); lia.
Qed.

Section ECDSA.
Variable c : cap.
Variable C : curve.
Variable Pp : prime (value (cu_p C)).
Hypothesis EC : ecdsa_curve c C Pp.
Notation p := (cu_p C). Notation n := (cu_n C).
Let Hp : modulus_ok c p. Proof. apply EC. Qed.
Let p3 : 3 < value p. Proof. apply EC. Qed.
Let Ha : reduced c p (cu_a C). Proof. apply EC. Qed.
Let Hb : reduced c p (cu_b C). Proof. apply EC. Qed.
Let p8 : 8 < value p. Proof. apply EC. Qed.
Let HG : good2 c p (cu_g C). Proof. apply EC. Qed.
Let Hn : modulus_ok c n. Proof. apply EC. Qed.
Let Pn : prime (value n). Proof. apply EC. Qed.
Let N1 : 1 < value n. Proof. apply Hn. Qed.
Lemma d_inv_n s : reduced c n s -> 1 <= value s -> exists w, d_op_modinv c s n = Ok w /\ op_modinv c s n = Ok w /\ reduced c n w.
Proof.
  intros Hs P1. rewrite (d_op_modinv_eq c n Hn s (red_fits c n Hn s Hs)) by lia.
  assert (G : Z.gcd (value s) (value n) = 1). { apply Zgcd_1_rel_prime, rel_prime_sym, prime_rel_prime; [exact Pn|]. intros D. apply Z.divide_pos_le in D; [|lia]. destruct Hs. lia. }
  destruct (modinv_val c n Hn s Hs G) as (w & -> & Hw & _). eauto.
Qed.
Lemma d_combine u1 u2 q : valid c u1 -> valid c u2 -> room c (size u1 + 1) -> room c (size u2 + 1) -> good2 c p q ->
  same (good2 c p) (let* R := d_jac_mul_add c p (d_cu_coeffs c C) u1 (of_affine (d_fe_ops c p) (cu_g C)) u2 (of_affine (d_fe_ops c p) q) in jac_to_affine (d_fe_ops c p) R)
    (let* R := jac_mul_add (fe_ops c p) (cu_coeffs c C) c u1 (of_affine (fe_ops c p) (cu_g C)) u2 (of_affine (fe_ops c p) q) in jac_to_affine (fe_ops c p) R).
Proof.
  intros V1 V2 R1 R2 Hq. destruct (of_affine_good c C Hp p3 _ HG) as (-> & G3). destruct (of_affine_good c C Hp p3 _ Hq) as (-> & Q3).
  apply (same_bind (A := option (fe * fe * fe)) (good3 c p)).
  - apply (jac_mul_add_same c p Hp p3 (cu_a C) (cu_b C) Ha (cu_a_is_zero C) (cu_a_is_minus_3 C) p8); assumption.
  - intros R HR. apply (s2 c p). apply (jac_to_affine_rel c p Hp Pp). split; [reflexivity|exact HR].
Qed.
Lemma red_room x : reduced c n x -> room c (size x + 1). Proof. intros (V & R). apply (modulus_room c n x Hn V). lia. Qed.
Lemma d_verify_eq q msg r s : good2 c p q -> all_bytes msg -> valid c r -> valid c s -> d_ecdsa_verify c C q msg r s = ecdsa_verify c C q msg r s.
Proof.
  intros Hq A Vr Vs. unfold d_ecdsa_verify, ecdsa_verify. rewrite (id_same c p q). destruct (aff_is_identity (fe_ops c p) q); [reflexivity|].
  rewrite (range_claim c n r s (proj1 Hn) Vr Vs). destruct (_ && (value s <? value n)) eqn:E; cbn [negb]; [|reflexivity].
  assert (Hr : reduced c n r) by (split; [exact Vr|lia]). assert (Hs : reduced c n s) by (split; [exact Vs|lia]).
  apply (same_bind (pfits c n) (fun _ => True)); [apply d_digest_same; assumption|]. intros e He. destruct (d_inv_n s Hs ltac:(lia)) as (w & -> & -> & Hw). cbn [bind].
  destruct (mul_pos c n Hn e w He (red_pfits c n Hn w Hw)) as (u1 & -> & -> & H1). cbn [bind]. destruct (mul_pos c n Hn r w (red_pfits c n Hn r Hr) (red_pfits c n Hn w Hw)) as (u2 & -> & -> & H2). cbn [bind].
  assert (AS : forall (X Y Z : Type) (m : outcome X) (f : X -> outcome Y) (g : Y -> outcome Z), (let* x := m in let* y := f x in g y) = (let* y := (let* x := m in f x) in g y)) by (intros; destruct m; reflexivity).
  rewrite !AS. apply (same_bind (A := option (fe * fe)) (good2 c p)); [apply d_combine; try apply red_room; first [apply H1|apply H2|assumption]|].
  intros R HR. rewrite (id_same c p R). apply same_any. destruct (aff_is_identity (fe_ops c p) R); [reflexivity|]. destruct R as [[x y]|]; [|reflexivity]. destruct HR as ((Ex & Vx & Rx) & _).
  pose proof (compare_spec c (fv x) n Vx (proj1 Hn)) as M. unfold cmp_result in M. destruct (Z.ltb_spec (compare (fv x) n) 0); cbn [negb]; [reflexivity|].
  rewrite (e_sub_big c p Hp x n); [reflexivity|apply elem_loose; [exact Hp|split; [exact Ex|split; assumption]]|].
  split; [apply Hn|]. apply (size_le c); [apply Hn|apply Hp|]. lia.
Qed.
Lemma d_assert_eq q msg r s : good2 c p q -> all_bytes msg -> valid c r -> valid c s -> d_assert_ecdsa c C q msg r s = assert_ecdsa c C q msg r s.
Proof. intros. unfold d_assert_ecdsa, assert_ecdsa. rewrite d_verify_eq by assumption. reflexivity. Qed.
Lemma decompress_same x odd : reduced c p x -> same (good2 c p) (d_decompress_point c C x odd false) (decompress_point c C x odd false).
Proof.
  intros Hx. split; [apply (d_decompress_eq c C Hp Pp p3 Ha Hb), red_pfits; assumption|]. destruct (decompress_reduced c C Pp (proj1 EC) x odd false Hx) as (R & -> & K). intros v Q. injection Q as <-.
  destruct R as [[u y]|]; [|exact I]. destruct K as (-> & Ey & _). split; [split; [reflexivity|exact Hx]|exact Ey].
Qed.
Lemma d_recover_eq msg r s id v : cu_p_minus_n C = op_sub c p n -> all_bytes msg -> valid c r -> valid c s -> value r < value p ->
  d_ecdsa_recover c C msg r s id v = ecdsa_recover c C msg r s id v.
Proof.
  intros PN A Vr Vs Rp. unfold d_ecdsa_recover, ecdsa_recover. rewrite (range_claim c n r s (proj1 Hn) Vr Vs). destruct (_ && (value s <? value n)) eqn:E; cbn [negb orb]; [|reflexivity].
  destruct (negb (Z.land id 3 =? id)); [reflexivity|]. cbv zeta. assert (Hr : reduced c n r) by (split; [exact Vr|lia]). assert (Hs : reduced c n s) by (split; [exact Vs|lia]).
  assert (QN : valid c (op_sub c p n) /\ value (op_sub c p n) = value p - value n).
  { unfold op_sub. apply sub_same_claim; [apply (NumProofs.zero_valid c p), Hp|apply Hp|apply Hn|]. rewrite !(pos_neg c) by (first [apply Hp|apply Hn|lia]). reflexivity. }
  destruct QN as (VN & EN). pose proof (compare_spec c r (cu_p_minus_n C) Vr ltac:(rewrite PN; exact VN)) as M. unfold cmp_result in M. assert (EP : value (cu_p_minus_n C) = value p - value n) by (rewrite PN; exact EN).
  set (sk := negb (Z.shiftr id 1 =? 0)). destruct (sk && negb (compare r (cu_p_minus_n C) <? 0)) eqn:K; [reflexivity|].
  apply (same_bind (pfits c n) (fun _ => True)); [apply d_digest_same; assumption|]. intros e He.
  apply (same_bind (A := option (fe * fe)) (good2 c p)).
  { destruct sk; [|apply decompress_same; split; [exact Vr|lia]]. destruct (op_add_val c n Hn r n Vr (proj1 Hn) (red_size c n Hn r Hr) (le_n _)) as (Va & Ea).
    rewrite (d_op_add_fits c n Hn r n (red_fits c n Hn r Hr) (p_fits c n Hn)). cbn [bind]. apply decompress_same. split; [exact Va|]. rewrite Ea. cbn [andb] in K. clear - K M EP E N1. lia. }
  intros R HR. rewrite (id_same c p R). destruct (aff_is_identity (fe_ops c p) R); [apply same_ok; exact Logic.I|].
  apply (same_bind (fun _ => True)).
  { destruct v; [|apply same_ok; exact Logic.I]. apply (same_bind (A := option (fe * fe)) (good2 c p)); [apply (aff_mul_same c p Hp Pp p3 (cu_a C) (cu_b C) Ha (cu_a_is_zero C) (cu_a_is_minus_3 C)); [exact HR|apply Hn]|].
    intros nR _. rewrite (id_same c p nR). apply same_ok. exact Logic.I. }
  intros ok _. destruct (negb ok); [apply same_ok; exact Logic.I|]. destruct (d_inv_n r Hr ltac:(lia)) as (w & -> & -> & Hw). cbn [bind].
  destruct He as (Fe & Ne). rewrite (d_op_sub_fits c n Hn n e (p_fits c n Hn) Fe). cbn [bind]. destruct Fe as (Ve & Se).
  destruct (op_sub_val c n Hn n e (proj1 Hn) Ve (le_n _) Se) as (Vd & Ed).
  assert (Sd : (size (op_sub c n e) <= size n)%nat).
  { destruct (Z_le_gt_dec (value e) (value n)); [apply (size_le c); [exact Vd|apply Hn|lia]|]. apply Nat.le_trans with (size e); [apply (size_le c); [exact Vd|exact Ve|lia]|exact Se]. }
  rewrite (d_fp_mul_eq c n Hn (op_sub c n e) w) by (first [split; assumption|apply (red_fits c n Hn), Hw]). unfold fp_mul.
  destruct (FpProofs.op_mul_val c n Hn (op_sub c n e) w Vd (proj1 Hw) Sd (red_size c n Hn w Hw)) as (Vm & _). destruct (op_mod_val c n Hn _ Vm) as (ew & -> & Vw & Ew). cbn [bind].
  destruct (mul_pos c n Hn s w (red_pfits c n Hn s Hs) (red_pfits c n Hn w Hw)) as (sw & -> & -> & H2). cbn [bind].
  apply same_any, d_combine; [exact Vw|apply H2| |apply red_room, H2|exact HR].
  apply room_le with (2 * size n)%nat; [apply Hn|]. assert (Sw : (size ew <= size n)%nat).
  { apply (size_le c); [exact Vw|apply Hn|]. rewrite Ew. pose proof (Z.rem_bound_abs (value (op_mul c (op_sub c n e) w)) (value n) ltac:(lia)). lia. }
  assert ((1 <= size n)%nat) by apply (proj1 Hn). lia.
Qed.
End ECDSA.
