(** C64: curves through the origin. *)
From Coq Require Import List ZArith Znumtheory Bool Lia.
From Verif Require Import Outcome WordsModel WordsSpec BigintModel BigintSpec BigintProofs BigintClaims NumModel FpModel FpSpec FpClaims EcGroup EcGroupProofs ZpField EcModel EcSpec EcScalar EcFeSpec EcCurveModel EcClaims EcLaws EcCurveSpec EcCodec EcCurveClaims EcdsaModel EcdsaSpec EcdsaProofs EcdsaExamples NamedModel NamedSpec CurveVerify EcKey EcQuotSpec EcQuot EcQuotClaims.
Import ListNotations.
Open Scope Z_scope.

(** C64: on every curve, b = 0 included, the sum of two affine points is the group sum, with the identity in place of (0, 0). *)
Theorem C64_add : forall c p (Pp : prime (value p)) a b, curve_ok c p Pp a b -> forall P Q, good2 c p P -> good2 c p Q ->
  on_curve (kval p Pp a) (kval p Pp b) (aff_pt p Pp P) -> on_curve (kval p Pp a) (kval p Pp b) (aff_pt p Pp Q) ->
  exists R, aff_add (fe_ops c p) (coeffs_of c p a b) P Q = Ok R /\ good2 c p R /\ aff_pt p Pp R = collapse (padd (kval p Pp a) (aff_pt p Pp P) (aff_pt p Pp Q)).
Proof. exact aff_add_all. Qed.
Print Assumptions C64_add.
(** C64: likewise for doubling. *)
Theorem C64_doubled : forall c p (Pp : prime (value p)) a b, curve_ok c p Pp a b -> forall P, good2 c p P -> on_curve (kval p Pp a) (kval p Pp b) (aff_pt p Pp P) ->
  exists R, aff_doubled (fe_ops c p) (coeffs_of c p a b) P = Ok R /\ good2 c p R /\ aff_pt p Pp R = collapse (padd (kval p Pp a) (aff_pt p Pp P) (aff_pt p Pp P)).
Proof. exact aff_doubled_all. Qed.
Print Assumptions C64_doubled.
(** C64: likewise for the difference. *)
Theorem C64_sub : forall c p (Pp : prime (value p)) a b, curve_ok c p Pp a b -> forall P Q, good2 c p P -> good2 c p Q ->
  on_curve (kval p Pp a) (kval p Pp b) (aff_pt p Pp P) -> on_curve (kval p Pp a) (kval p Pp b) (aff_pt p Pp Q) ->
  exists R, aff_sub (fe_ops c p) (coeffs_of c p a b) P Q = Ok R /\ good2 c p R /\ aff_pt p Pp R = collapse (padd (kval p Pp a) (aff_pt p Pp P) (popp (aff_pt p Pp Q))).
Proof. exact aff_sub_all. Qed.
Print Assumptions C64_sub.
(** C64: with b = 0 a multiple of an affine point is right up to the point (0, 0) of order two. *)
Theorem C64_mul : forall c p (Pp : prime (value p)) a b, curve_ok c p Pp a b -> value b = 0 -> forall P s, good2 c p P ->
  on_curve (kval p Pp a) (kval p Pp b) (aff_pt p Pp P) -> valid c s ->
  exists R, aff_mul (fe_ops c p) (coeffs_of c p a b) P s = Ok R /\ good2 c p R /\ on_curve (kval p Pp a) (kval p Pp b) (aff_pt p Pp R) /\
    same_class (kval p Pp a) (aff_pt p Pp R) (zmul (kval p Pp a) (value s) (aff_pt p Pp P)).
Proof. exact aff_mul_cls. Qed.
Print Assumptions C64_mul.
(** C64: and it is exactly right when (0, 0) is not a multiple of the point. *)
Theorem C64_mul_exact : forall c p (Pp : prime (value p)) a b, curve_ok c p Pp a b -> value b = 0 -> forall P s, good2 c p P ->
  on_curve (kval p Pp a) (kval p Pp b) (aff_pt p Pp P) -> valid c s -> (forall k, zmul (kval p Pp a) k (aff_pt p Pp P) <> origin) ->
  exists R, aff_mul (fe_ops c p) (coeffs_of c p a b) P s = Ok R /\ good2 c p R /\ aff_pt p Pp R = zmul (kval p Pp a) (value s) (aff_pt p Pp P).
Proof. exact aff_mul_free. Qed.
Print Assumptions C64_mul_exact.
(** C64: a point of odd order has no multiple at (0, 0). *)
Theorem C64_odd_order : forall c p (Pp : prime (value p)) a b, curve_ok c p Pp a b -> value b = 0 -> forall (X : point (GFp p Pp)) n, on_curve (kval p Pp a) (kval p Pp b) X ->
  Z.odd n = true -> zmul (kval p Pp a) n X = Inf -> forall k, zmul (kval p Pp a) k X <> origin.
Proof. exact odd_free. Qed.
Print Assumptions C64_odd_order.
(** C64: the double multiplication of the affine class is right up to (0, 0). *)
Theorem C64_mul_add : forall c p (Pp : prime (value p)) a b, curve_ok c p Pp a b -> value b = 0 -> forall x P y Q, good2 c p P -> good2 c p Q ->
  on_curve (kval p Pp a) (kval p Pp b) (aff_pt p Pp P) -> on_curve (kval p Pp a) (kval p Pp b) (aff_pt p Pp Q) -> valid c x -> valid c y -> 0 <= value x -> 0 <= value y ->
  room c (size x + 1) -> room c (size y + 1) ->
  exists R, aff_mul_add (fe_ops c p) (coeffs_of c p a b) c x P y Q = Ok R /\ good2 c p R /\ on_curve (kval p Pp a) (kval p Pp b) (aff_pt p Pp R) /\
    same_class (kval p Pp a) (aff_pt p Pp R) (padd (kval p Pp a) (zmul (kval p Pp a) (value x) (aff_pt p Pp P)) (zmul (kval p Pp a) (value y) (aff_pt p Pp Q))).
Proof. exact aff_mul_add_cls. Qed.
Print Assumptions C64_mul_add.
(** C64: with b = 0, is_valid accepts exactly the points of the curve other than the identity and (0, 0) that n takes to the identity or to (0, 0). *)
Theorem C64_valid : forall c p (Pp : prime (value p)) a b, curve_ok c p Pp a b -> value b = 0 -> forall n P, good2 c p P -> valid c n ->
  exists v, aff_is_valid (fe_ops c p) (coeffs_of c p a b) n P = Ok v /\ (v = true <-> aff_pt p Pp P <> Inf /\ on_curve (kval p Pp a) (kval p Pp b) (aff_pt p Pp P) /\
    (zmul (kval p Pp a) (value n) (aff_pt p Pp P) = Inf \/ zmul (kval p Pp a) (value n) (aff_pt p Pp P) = origin)).
Proof. exact aff_valid_cls. Qed.
Print Assumptions C64_valid.
(** C64: the answer of verify on curves with b = 0. *)
Theorem C64_verify : forall c C (Pp : prime (value (cu_p C))), modulus_ok c (cu_p C) -> 3 < value (cu_p C) -> cu_coeffs c C = coeffs_of c (cu_p C) (cu_a C) (cu_b C) ->
  valid c (cu_a C) -> valid c (cu_b C) -> value (cu_b C) = 0 -> good2 c (cu_p C) (cu_g C) -> valid c (cu_n C) -> room c (size (cu_n C) + 1) -> 0 <= cu_h C < 2 ^ 32 ->
  exists v, curve_verify c C = Ok v /\ (v = true <->
    0 < value (cu_n C) /\ 0 <= value (cu_a C) < value (cu_p C) /\ 0 <= value (cu_b C) < value (cu_p C) /\ (4 * value (cu_a C) ^ 3 + 27 * value (cu_b C) ^ 2) mod value (cu_p C) <> 0 /\
    (aff_pt (cu_p C) Pp (cu_g C) <> Inf /\ on_curve (kval (cu_p C) Pp (cu_a C)) (kval (cu_p C) Pp (cu_b C)) (aff_pt (cu_p C) Pp (cu_g C)) /\
      (zmul (kval (cu_p C) Pp (cu_a C)) (value (cu_n C)) (aff_pt (cu_p C) Pp (cu_g C)) = Inf \/ zmul (kval (cu_p C) Pp (cu_a C)) (value (cu_n C)) (aff_pt (cu_p C) Pp (cu_g C)) = origin)) /\
    1 <= cu_h C < value (cu_p C) /\ value (cu_n C) * cu_h C <> value (cu_p C) - 1).
Proof. exact curve_verify_origin. Qed.
Print Assumptions C64_verify.
(** C64: make_point on curves with b = 0. *)
Theorem C64_make_point : forall c C (Pp : prime (value (cu_p C))) x y v, curve_base c C Pp -> valid c (cu_n C) -> value (cu_b C) = 0 -> valid c x -> valid c y ->
  let Q := Some (mkfe x (Some (cu_p C)), mkfe y (Some (cu_p C))) in
  let fine := 0 <= value x < value (cu_p C) /\ 0 <= value y < value (cu_p C) /\
    (v = true -> ~ (value x = 0 /\ value y = 0) /\ satisfies C (value x) (value y) /\
      (zmul (kval (cu_p C) Pp (cu_a C)) (value (cu_n C)) (aff_pt (cu_p C) Pp Q) = Inf \/ zmul (kval (cu_p C) Pp (cu_a C)) (value (cu_n C)) (aff_pt (cu_p C) Pp Q) = origin)) in
  (fine -> make_point c C x y v = Ok Q /\ good2 c (cu_p C) Q) /\ (~ fine -> make_point c C x y v = Abort).
Proof. exact make_point_origin. Qed.
Print Assumptions C64_make_point.
(** C64: generate_point on curves with b = 0: right up to (0, 0), and right when n G is the identity. *)
Theorem C64_generate : forall c C (Pp : prime (value (cu_p C))), ecdsa_curve c C Pp -> value (cu_b C) = 0 -> forall x, valid c x ->
  (0 < value x < value (cu_n C) -> exists R, generate_point c C x = Ok R /\ good2 c (cu_p C) R /\
     same_class (kval (cu_p C) Pp (cu_a C)) (aff_pt (cu_p C) Pp R) (zmul (kval (cu_p C) Pp (cu_a C)) (value x) (aff_pt (cu_p C) Pp (cu_g C))) /\
     (2 < value (cu_n C) -> zmul (kval (cu_p C) Pp (cu_a C)) (value (cu_n C)) (aff_pt (cu_p C) Pp (cu_g C)) = Inf -> aff_pt (cu_p C) Pp R = zmul (kval (cu_p C) Pp (cu_a C)) (value x) (aff_pt (cu_p C) Pp (cu_g C)))) /\
  (~ 0 < value x < value (cu_n C) -> generate_point c C x = Abort).
Proof. exact generate_origin. Qed.
Print Assumptions C64_generate.
(** C64: verify accepts parameters whose generator does not have order n: on y^2 = x^3 + x over GF(43) with n = 11 and
    the right cofactor 4, the generator (10, 8) has order 22. *)
Theorem C64_verify_refuted : exists c C (Pp : prime (value (cu_p C))), ecdsa_curve c C Pp /\ curve_verify c C = Ok true /\
  zmul (kval (cu_p C) Pp (cu_a C)) (value (cu_n C)) (aff_pt (cu_p C) Pp (cu_g C)) <> Inf.
Proof. exact verify_origin_refute. Qed.
Print Assumptions C64_verify_refuted.
(** C64: on a sound curve with b = 0 make_point with verification accepts a point outside the subgroup of order n:
    (10, 8) of order 22 on the curve over GF(43) generated by (4, 5) of order 11. *)
Theorem C64_make_point_refuted : exists c C (Pp : prime (value (cu_p C))) x y Q, ecdsa_curve c C Pp /\ curve_verify c C = Ok true /\
  zmul (kval (cu_p C) Pp (cu_a C)) (value (cu_n C)) (aff_pt (cu_p C) Pp (cu_g C)) = Inf /\
  make_point c C x y true = Ok Q /\ zmul (kval (cu_p C) Pp (cu_a C)) (value (cu_n C)) (aff_pt (cu_p C) Pp Q) <> Inf.
Proof. exact make_point_origin_refute. Qed.
Print Assumptions C64_make_point_refuted.
(** the hypotheses hold of the curve over GF(43): 11 (10, 8) comes out as (0, 0), which is taken for the identity,
    and multiples of (4, 5), of order 11, are right *)
Example C64_ex : ecdsa_curve ex_c E43 prime_E43 /\ value (cu_b E43) = 0 /\ good2 ex_c (cu_p E43) (q43 10 8) /\ Z.odd (value (cu_n E43)) = true /\
  zmul (kval (cu_p E43) prime_E43 (cu_a E43)) (value (cu_n E43)) (aff_pt (cu_p E43) prime_E43 (cu_g E43)) = Inf /\
  zmul (kval (cu_p E43) prime_E43 (cu_a E43)) 11 (aff_pt (cu_p E43) prime_E43 (q43 10 8)) <> Inf /\
  aff_is_valid (fe_ops ex_c (cu_p E43)) (cu_coeffs ex_c E43) (cu_n E43) (q43 10 8) = Ok true /\
  aff_is_valid (fe_ops ex_c (cu_p E43)) (cu_coeffs ex_c E43) (cu_n E43) (q43 2 15) = Ok false /\
  aff_mul (fe_ops ex_c (cu_p E43)) (cu_coeffs ex_c E43) (q43 10 8) (of_int ex_c 11) = Ok (q43 0 0) /\
  curve_verify ex_c E43 = Ok true /\ generate_point ex_c E43 (of_int ex_c 10) = Ok (q43 4 38).
Proof.
  split; [exact E43_ok|]. split; [reflexivity|]. split; [apply q43_good; lia|]. split; [reflexivity|]. split; [apply not_finite; vm_compute; reflexivity|]. split; [apply finite_neq; vm_compute; reflexivity|].
  do 4 (split; [vm_compute; reflexivity|]). vm_compute. reflexivity.
Qed.
