(** The checks of points and of curve parameters on curves with b = 0. *)
From Coq Require Import List ZArith Znumtheory Bool Lia.
From Verif Require Import Outcome WordsModel WordsSpec BigintModel BigintSpec BigintProofs BigintClaims NumModel NumProofs FpModel FpSpec FpProofs FpClaims EcGroup EcGroupProofs ZpField EcModel EcSpec EcScalar EcFeSpec EcTransfer EcCurveModel EcClaims EcLaws EcCurveSpec EcCodec EcCurveClaims EcdsaModel EcdsaSpec EcdsaProofs EcdsaExamples NamedModel NamedSpec CurveVerify EcKey EcQuotSpec EcQuot.
Import ListNotations.
Open Scope Z_scope.

Lemma curve_verify_origin c C (Pp : prime (value (cu_p C))) : modulus_ok c (cu_p C) -> 3 < value (cu_p C) -> cu_coeffs c C = coeffs_of c (cu_p C) (cu_a C) (cu_b C) ->
  valid c (cu_a C) -> valid c (cu_b C) -> value (cu_b C) = 0 -> good2 c (cu_p C) (cu_g C) -> valid c (cu_n C) -> room c (size (cu_n C) + 1) -> 0 <= cu_h C < 2 ^ 32 ->
  exists v, curve_verify c C = Ok v /\ (v = true <->
    0 < value (cu_n C) /\ 0 <= value (cu_a C) < value (cu_p C) /\ 0 <= value (cu_b C) < value (cu_p C) /\ (4 * value (cu_a C) ^ 3 + 27 * value (cu_b C) ^ 2) mod value (cu_p C) <> 0 /\
    (aff_pt (cu_p C) Pp (cu_g C) <> Inf /\ on_curve (kval (cu_p C) Pp (cu_a C)) (kval (cu_p C) Pp (cu_b C)) (aff_pt (cu_p C) Pp (cu_g C)) /\
      (zmul (kval (cu_p C) Pp (cu_a C)) (value (cu_n C)) (aff_pt (cu_p C) Pp (cu_g C)) = Inf \/ zmul (kval (cu_p C) Pp (cu_a C)) (value (cu_n C)) (aff_pt (cu_p C) Pp (cu_g C)) = origin)) /\
    1 <= cu_h C < value (cu_p C) /\ value (cu_n C) * cu_h C <> value (cu_p C) - 1).
Proof.
  intros Mp P27 EC Va Vb B0 GG Vn Rn Hh. apply (curve_verify_gen c C Mp P27 Pp); auto. intros CO. apply (aff_valid_cls c (cu_p C) Pp _ _ CO B0); assumption.
Qed.
Lemma make_point_origin c C (Pp : prime (value (cu_p C))) x y v : curve_base c C Pp -> valid c (cu_n C) -> value (cu_b C) = 0 -> valid c x -> valid c y ->
  let Q := Some (mkfe x (Some (cu_p C)), mkfe y (Some (cu_p C))) in
  let fine := 0 <= value x < value (cu_p C) /\ 0 <= value y < value (cu_p C) /\
    (v = true -> ~ (value x = 0 /\ value y = 0) /\ satisfies C (value x) (value y) /\
      (zmul (kval (cu_p C) Pp (cu_a C)) (value (cu_n C)) (aff_pt (cu_p C) Pp Q) = Inf \/ zmul (kval (cu_p C) Pp (cu_a C)) (value (cu_n C)) (aff_pt (cu_p C) Pp Q) = origin)) in
  (fine -> make_point c C x y v = Ok Q /\ good2 c (cu_p C) Q) /\ (~ fine -> make_point c C x y v = Abort).
Proof.
  intros BS Vn B0. apply (make_point_gen c C Pp (fun X => zmul (kval (cu_p C) Pp (cu_a C)) (value (cu_n C)) X = Inf \/ zmul (kval (cu_p C) Pp (cu_a C)) (value (cu_n C)) X = origin)); [exact BS|exact Vn|].
  intros _ Q GQ. apply (aff_valid_cls c (cu_p C) Pp _ _ (proj1 BS) B0); assumption.
Qed.
Lemma generate_origin c C (Pp : prime (value (cu_p C))) : ecdsa_curve c C Pp -> value (cu_b C) = 0 -> forall x, valid c x ->
  (0 < value x < value (cu_n C) -> exists R, generate_point c C x = Ok R /\ good2 c (cu_p C) R /\
     same_class (kval (cu_p C) Pp (cu_a C)) (aff_pt (cu_p C) Pp R) (zmul (kval (cu_p C) Pp (cu_a C)) (value x) (aff_pt (cu_p C) Pp (cu_g C))) /\
     (2 < value (cu_n C) -> zmul (kval (cu_p C) Pp (cu_a C)) (value (cu_n C)) (aff_pt (cu_p C) Pp (cu_g C)) = Inf -> aff_pt (cu_p C) Pp R = zmul (kval (cu_p C) Pp (cu_a C)) (value x) (aff_pt (cu_p C) Pp (cu_g C)))) /\
  (~ 0 < value x < value (cu_n C) -> generate_point c C x = Abort).
Proof.
  intros EC B0 x Vx. unfold generate_point. rewrite (scalar_check c C Pp EC x Vx).
  destruct (Z.ltb_spec 0 (value x)), (Z.ltb_spec (value x) (value (cu_n C))); cbn [andb check bind]; (split; [intros R; try lia|intros NR; try lia; try reflexivity]).
  rewrite (eE c C Pp EC). pose proof (eCO c C Pp EC) as CO. pose proof (eGg c C Pp EC) as GG. pose proof (eGon c C Pp EC) as GO.
  destruct (aff_mul_cls c (cu_p C) Pp _ _ CO B0 (cu_g C) x GG GO Vx) as (S & K & G1 & _ & X). exists S. split; [exact K|]. split; [exact G1|]. split; [exact X|].
  intros N2 KG. assert (OD : Z.odd (value (cu_n C)) = true).
  { destruct (Z.odd (value (cu_n C))) eqn:OD; [reflexivity|]. exfalso. rewrite <- Z.negb_even in OD. apply negb_false_iff, Z.even_spec in OD. destruct OD as (m & Em).
    assert (D : (2 | value (cu_n C))) by (exists m; lia). apply (prime_divisors _ (ePn c C Pp EC)) in D. lia. }
  destruct (aff_mul_free c (cu_p C) Pp _ _ CO B0 (cu_g C) x GG GO Vx (odd_free c (cu_p C) Pp _ _ CO B0 _ _ GO OD KG)) as (S' & K' & _ & X').
  rewrite K in K'. injection K' as <-. exact X'.
Qed.

(** y^2 = x^3 + x over GF(43): a cyclic group of 44 points; (4, 5) has order 11, (10, 8) has order 22 and 11 (10, 8) = (0, 0) *)
Definition E43 : curve := small_curve 43 1 0 4 5 11 4.
Definition E43t : curve := small_curve 43 1 0 10 8 11 4.
Lemma prime_E43 : prime (value (cu_p E43)). Proof. apply small_prime; vm_compute; reflexivity. Qed.
Lemma E43_ok : ecdsa_curve ex_c E43 prime_E43.
Proof. apply small_ok; [exact prime_11|lia|lia|lia|lia|lia|lia|vm_compute; discriminate|vm_compute; reflexivity|reflexivity]. Qed.
Lemma E43t_ok : ecdsa_curve ex_c E43t prime_E43.
Proof. apply small_ok; [exact prime_11|lia|lia|lia|lia|lia|lia|vm_compute; discriminate|vm_compute; reflexivity|reflexivity]. Qed.
Definition q43 (x y : Z) : option (fe * fe) := Some (el ex_c 43 x, el ex_c 43 y).
Lemma q43_good x y : 0 <= x < 43 -> 0 <= y < 43 -> good2 ex_c (cu_p E43) (q43 x y).
Proof. intros Hx Hy. split; (apply el_elem; [cbn; lia|lia|lia]). Qed.
Lemma verify_origin_refute : exists c C (Pp : prime (value (cu_p C))), ecdsa_curve c C Pp /\ curve_verify c C = Ok true /\
  zmul (kval (cu_p C) Pp (cu_a C)) (value (cu_n C)) (aff_pt (cu_p C) Pp (cu_g C)) <> Inf.
Proof. exists ex_c, E43t, prime_E43. split; [exact E43t_ok|]. split; [vm_compute; reflexivity|]. apply finite_neq. vm_compute. reflexivity. Qed.
Lemma make_point_origin_refute : exists c C (Pp : prime (value (cu_p C))) x y Q, ecdsa_curve c C Pp /\ curve_verify c C = Ok true /\
  zmul (kval (cu_p C) Pp (cu_a C)) (value (cu_n C)) (aff_pt (cu_p C) Pp (cu_g C)) = Inf /\
  make_point c C x y true = Ok Q /\ zmul (kval (cu_p C) Pp (cu_a C)) (value (cu_n C)) (aff_pt (cu_p C) Pp Q) <> Inf.
Proof.
  exists ex_c, E43, prime_E43, (of_int ex_c 10), (of_int ex_c 8), (q43 10 8). split; [exact E43_ok|]. split; [vm_compute; reflexivity|]. split; [apply not_finite; vm_compute; reflexivity|].
  split; [vm_compute; reflexivity|]. apply finite_neq. vm_compute. reflexivity.
Qed.
