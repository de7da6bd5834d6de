(** Curve objects: the constructor, statements about decompression for every curve, and counterexamples. *)
From Coq Require Import List ZArith Znumtheory Bool Lia.
From Verif Require Import Outcome LoopModel WordsModel WordsSpec UtilsSpec WordsProofs BigintModel BigintSpec BigintProofs BigintBits BigintBytes BigintClaims NumModel NumProofs JacobiSpec FpModel FpSpec FpProofs FpSqrt FpClaims EcGroup EcGroupProofs ZpField EcModel EcSpec EcFeSpec EcTransfer EcCurveModel EcClaims EcLaws EcCurveSpec EcCodec.
Import ListNotations.
Open Scope Z_scope.

Lemma make_integer c p x : modulus_ok c p -> valid c x -> is_valid_integer p x = (0 <=? value x) && (value x <? value p).
Proof.
  intros Hp V. unfold is_valid_integer. rewrite (is_negative_spec c x V). pose proof (compare_spec c x p V (proj1 Hp)) as M. unfold cmp_result in M. lia.
Qed.
(** the constructor accepts exactly reduced coordinates of the generator, and makes a well-formed object *)
Lemma curve_make_claim c p (Pp : prime (value p)) a b gx gy n h : curve_ok c p Pp a b -> valid c gx -> valid c gy ->
  (0 <= value gx < value p /\ 0 <= value gy < value p -> exists C, curve_make c p a b gx gy n h = Ok C /\
     cu_p C = p /\ cu_a C = a /\ cu_b C = b /\ cu_n C = n /\ cu_h C = h /\ cu_g C = Some (mkfe gx (Some p), mkfe gy (Some p)) /\ cu_p_minus_n C = op_sub c p n /\
     cu_coeffs c C = coeffs_of c (cu_p C) (cu_a C) (cu_b C) /\ good2 c p (cu_g C)) /\
  (~ (0 <= value gx < value p /\ 0 <= value gy < value p) -> curve_make c p a b gx gy n h = Abort).
Proof.
  intros CO Vx Vy. unfold curve_make, make_field_element. rewrite !(make_integer c p) by (try assumption; apply CO). split.
  - intros (Hx & Hy). replace ((0 <=? value gx) && (value gx <? value p)) with true by lia. replace ((0 <=? value gy) && (value gy <? value p)) with true by lia. cbn [check bind].
    eexists. split; [reflexivity|]. cbn. repeat (split; [reflexivity|]). split; (split; [reflexivity|split; assumption]).
  - intros H. destruct ((0 <=? value gx) && (value gx <? value p)) eqn:E1; [|reflexivity]. destruct ((0 <=? value gy) && (value gy <? value p)) eqn:E2; [|reflexivity]. exfalso. apply H. lia.
Qed.

(** decompression: the point with the given abscissa and parity *)
Lemma decompress_claim c C (Pp : prime (value (cu_p C))) x odd v : curve_base c C Pp -> reduced c (cu_p C) x ->
  exists R, decompress_point c C x odd v = Ok R /\ good2 c (cu_p C) R /\
    (R = None <-> (forall y, 0 <= y < value (cu_p C) -> satisfies C (value x) y -> y = 0)) /\
    (forall u y, R = Some (u, y) -> value (fv u) = value x /\ satisfies C (value x) (value (fv y)) /\ Z.odd (value (fv y)) = odd /\
       on_curve (kval (cu_p C) Pp (cu_a C)) (kval (cu_p C) Pp (cu_b C)) (aff_pt (cu_p C) Pp R) /\
       forall y', 0 <= y' < value (cu_p C) -> satisfies C (value x) y' -> Z.odd y' = odd -> y' = value (fv y)).
Proof.
  intros CB Hx. destruct (decompress_reduced c C Pp CB x odd v Hx) as (R & K & H). exists R. split; [exact K|]. destruct R as [[u y]|].
  - destruct H as (-> & Hy & S1 & NZ & O). split; [split; [split; [reflexivity|exact Hx]|exact Hy]|]. split.
    + split; [discriminate|]. intros A. exfalso. apply NZ, A; [apply Hy|exact S1].
    + intros u' y' E. injection E as <- <-. cbn [fv]. split; [reflexivity|]. split; [exact S1|]. split; [exact O|]. split.
      * unfold aff_pt. cbn [option_map fst snd abs_aff]. destruct (_ && _); [exact I|]. apply (on_satisfies C Pp). exact S1.
      * intros y' R' S' O'. apply (ordinate_unique c C Pp CB (value x)); try assumption; [apply Hy|congruence].
  - split; [exact I|]. split; [tauto|]. intros u y E. discriminate.
Qed.
(** with the check requested, abscissas that are not reduced are refused *)
Lemma decompress_check_claim c C (Pp : prime (value (cu_p C))) x odd : curve_base c C Pp -> valid c x -> ~ (0 <= value x < value (cu_p C)) ->
  decompress_point c C x odd true = Abort.
Proof.
  intros CB V H. unfold decompress_point, make_field_element. rewrite (make_integer c (cu_p C)) by (try assumption; apply CB).
  replace ((0 <=? value x) && (value x <? value (cu_p C))) with false by lia. reflexivity.
Qed.
(** on a curve without a point of ordinate zero, failure means exactly that x is not an abscissa *)
Lemma decompress_odd_order_claim c C (Pp : prime (value (cu_p C))) x odd v : curve_base c C Pp -> reduced c (cu_p C) x -> (forall x, ~ satisfies C x 0) ->
  exists R, decompress_point c C x odd v = Ok R /\ (R = None <-> ~ abscissa C (value x)).
Proof.
  intros CB Hx N. destruct (decompress_claim c C Pp x odd v CB Hx) as (R & K & _ & H & _). exists R. split; [exact K|]. rewrite H. split.
  - intros A (y & Sy). pose proof (prime_ge_2 _ Pp). specialize (A (y mod value (cu_p C)) ltac:(apply Z.mod_pos_bound; lia)).
    assert (S' : satisfies C (value x) (y mod value (cu_p C))) by (unfold satisfies in *; rewrite <- Zmult_mod; exact Sy). rewrite (A S') in S'. apply (N _ S').
  - intros A y _ Sy. exfalso. apply A. exists y. exact Sy.
Qed.
Lemma decode_on_curve_claim c C (Pp : prime (value (cu_p C))) t d R : curve_base c C Pp -> t = 2 \/ t = 3 -> all_bytes d -> be_value d < value (cu_p C) ->
  decode_point c C (t :: d) = Ok R -> good2 c (cu_p C) R /\ aff_is_on_curve (fe_ops c (cu_p C)) (cu_coeffs c C) R = Ok true.
Proof.
  intros CB Ht A B K. destruct (Nat.eq_dec (length d) (Z.to_nat (byte_length (cu_p C)))) as [L|L].
  - destruct (decode_compressed_claim c C Pp CB t d Ht A L B) as (R' & K' & G & H). rewrite K in K'. injection K' as <-. split; [exact G|].
    pose proof CB as (CO & EC). rewrite EC. destruct (aff_on_claim c (cu_p C) Pp _ _ CO R G) as (v & -> & V). f_equal. apply V. destruct R as [[x y]|]; [|exact I].
    destruct H as (Ex & S1 & _). rewrite <- Ex in S1. unfold aff_pt. cbn [option_map fst snd abs_aff]. destruct (_ && _); [exact I|]. apply (on_satisfies C Pp). exact S1.
  - rewrite (proj1 (proj2 (proj2 (proj2 (decode_types_claim c C (t :: d)) t d eq_refl ltac:(lia)))) Ht L) in K. discriminate.
Qed.

(** *** example and counterexamples *)
Definition ex_C : curve := mkcurve ex_p ex_2 ex_2 (ex_pt 5 1) (of_int ex_c 19) 1 false false (op_sub ex_c ex_p (of_int ex_c 19)).
Lemma ex_base : curve_base ex_c ex_C ex_prime. Proof. split; [exact ex_curve|reflexivity]. Qed.
(** y^2 = x^3 + 2x + 14 over GF(17) has the point (1, 0) *)
Definition ex_14 : bigint := of_int ex_c 14.
Definition ex_D : curve := mkcurve ex_p ex_2 ex_14 (ex_pt 2 3) (of_int ex_c 19) 1 false false (op_sub ex_c ex_p (of_int ex_c 19)).
Lemma ex_D_base : curve_base ex_c ex_D ex_prime.
Proof.
  split; [|reflexivity]. split; [exact ex_mod|]. split; [reflexivity|]. destruct (of_int_ok ex_c 2 17 ltac:(cbn; lia) ltac:(lia) ltac:(lia)) as (V & R & _).
  destruct (of_int_ok ex_c 14 17 ltac:(cbn; lia) ltac:(lia) ltac:(lia)) as (V' & R' & _).
  split; [split; assumption|]. split; [split; assumption|]. intros H. apply (f_equal zval) in H. vm_compute in H. discriminate.
Qed.
Lemma compressed_y0_refute : exists c C (Pp : prime (value (cu_p C))) x y, curve_base c C Pp /\ elem c (cu_p C) x /\ elem c (cu_p C) y /\
  satisfies C (value (fv x)) (value (fv y)) /\ aff_is_identity (fe_ops c (cu_p C)) (Some (x, y)) = false /\
  decode_point c C (encode_point c C (Some (x, y)) true) = Ok None /\ decompress_point c C (fv x) (Z.odd (value (fv y))) true = Ok None.
Proof.
  exists ex_c, ex_D, ex_prime, (ex_fe 1), (ex_fe 0). split; [exact ex_D_base|]. do 2 (split; [apply ex_elem; lia|]). split; [reflexivity|]. split; [reflexivity|]. split; vm_compute; reflexivity.
Qed.
(** an uncompressed encoding of (1, 1), which is not on the curve, is accepted *)
Lemma off_curve_refute : exists c C (Pp : prime (value (cu_p C))) e R, curve_base c C Pp /\ all_bytes e /\ decode_point c C e = Ok R /\
  aff_is_identity (fe_ops c (cu_p C)) R = false /\ aff_is_on_curve (fe_ops c (cu_p C)) (cu_coeffs c C) R = Ok false.
Proof.
  exists ex_c, ex_C, ex_prime, [4; 1; 1]. eexists. split; [exact ex_base|]. split; [repeat constructor; unfold is_byte; lia|]. split; [vm_compute; reflexivity|]. split; vm_compute; reflexivity.
Qed.
(** a compressed encoding of the abscissa 22 = 5 + 17 is accepted: the point has an unreduced coordinate and
    compares different from the decoding of the abscissa 5; trailing bytes after the type byte 0 are ignored *)
Lemma unreduced_refute : exists c C (Pp : prime (value (cu_p C))) e e' x y R', curve_base c C Pp /\ all_bytes e /\ all_bytes e' /\
  decode_point c C e = Ok (Some (x, y)) /\ value (cu_p C) <= value (fv x) /\ decode_point c C e' = Ok R' /\
  raw_pt (cu_p C) Pp (Some (x, y)) = raw_pt (cu_p C) Pp R' /\ aff_eqb (fe_ops c (cu_p C)) (Some (x, y)) R' = false /\
  decode_point c C (0 :: e) = Ok None.
Proof.
  exists ex_c, ex_C, ex_prime, [3; 22], [3; 5]. do 3 eexists. split; [exact ex_base|]. do 2 (split; [repeat constructor; unfold is_byte; lia|]).
  split; [vm_compute; reflexivity|]. split; [vm_compute; discriminate|]. split; [vm_compute; reflexivity|]. split; [|split; vm_compute; reflexivity].
  unfold raw_pt. f_equal; apply zval_inj; vm_compute; reflexivity.
Qed.
