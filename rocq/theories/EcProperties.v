(** Property theorems C31-C35 (points of elliptic curves: ec.hpp). *)
From Coq Require Import List ZArith Znumtheory Bool Lia.
From Verif Require Import Outcome WordsModel WordsSpec BigintModel BigintSpec BigintProofs BigintClaims NumModel FpModel FpSpec FpClaims EcGroup EcGroupProofs ZpField EcModel EcSpec EcScalar EcFeSpec EcCurveModel EcClaims EcLaws.
Import ListNotations.
Open Scope Z_scope.

(** C31: the chord-and-tangent law of EcGroup.v is a commutative group law on a non-singular curve. *)
Theorem C31_law_assoc : forall (F : fieldT) (a b : F), (1 + 1)%f <> (0%f : F) -> disc a b <> 0%f -> forall P Q R,
  on_curve a b P -> on_curve a b Q -> on_curve a b R -> padd a (padd a P Q) R = padd a P (padd a Q R).
Proof. exact padd_assoc. Qed.
Print Assumptions C31_law_assoc.
(** C31: the affine addition never aborts on points of the curve and returns their sum (curves with b <> 0). *)
Theorem C31_add : forall c p (Pp : prime (value p)) a b, curve_ok c p Pp a b -> value b <> 0 -> forall P Q,
  good2 c p P -> good2 c p Q -> on_curve (kval p Pp a) (kval p Pp b) (aff_pt p Pp P) -> on_curve (kval p Pp a) (kval p Pp b) (aff_pt p Pp Q) ->
  exists R, aff_add (fe_ops c p) (coeffs_of c p a b) P Q = Ok R /\ good2 c p R /\ aff_pt p Pp R = padd (kval p Pp a) (aff_pt p Pp P) (aff_pt p Pp Q).
Proof. exact aff_add_claim. Qed.
Print Assumptions C31_add.
(** C31: doubling. *)
Theorem C31_doubled : forall c p (Pp : prime (value p)) a b, curve_ok c p Pp a b -> value b <> 0 -> forall P,
  good2 c p P -> on_curve (kval p Pp a) (kval p Pp b) (aff_pt p Pp P) -> exists R, aff_doubled (fe_ops c p) (coeffs_of c p a b) P = Ok R /\ good2 c p R /\ aff_pt p Pp R = padd (kval p Pp a) (aff_pt p Pp P) (aff_pt p Pp P).
Proof. exact aff_doubled_claim. Qed.
Print Assumptions C31_doubled.
(** C31: negation. *)
Theorem C31_inverted : forall c p (Pp : prime (value p)) a b, curve_ok c p Pp a b -> forall P,
  good2 c p P -> exists R, aff_inverted (fe_ops c p) P = Ok R /\ good2 c p R /\ aff_pt p Pp R = popp (aff_pt p Pp P).
Proof. exact aff_inverted_claim. Qed.
Print Assumptions C31_inverted.
(** C31: subtraction. *)
Theorem C31_sub : forall c p (Pp : prime (value p)) a b, curve_ok c p Pp a b -> value b <> 0 -> forall P Q,
  good2 c p P -> good2 c p Q -> on_curve (kval p Pp a) (kval p Pp b) (aff_pt p Pp P) -> on_curve (kval p Pp a) (kval p Pp b) (aff_pt p Pp Q) ->
  exists R, aff_sub (fe_ops c p) (coeffs_of c p a b) P Q = Ok R /\ good2 c p R /\ aff_pt p Pp R = padd (kval p Pp a) (aff_pt p Pp P) (popp (aff_pt p Pp Q)).
Proof. exact aff_sub_claim. Qed.
Print Assumptions C31_sub.
(** C31: is_on_curve decides the curve equation (the identity is on every curve). *)
Theorem C31_on_curve : forall c p (Pp : prime (value p)) a b, curve_ok c p Pp a b -> forall P,
  good2 c p P -> exists v, aff_is_on_curve (fe_ops c p) (coeffs_of c p a b) P = Ok v /\ (v = true <-> on_curve (kval p Pp a) (kval p Pp b) (aff_pt p Pp P)).
Proof. exact aff_on_claim. Qed.
Print Assumptions C31_on_curve.
(** C31: == decides equality of points. *)
Theorem C31_equal : forall c p (Pp : prime (value p)) a b, curve_ok c p Pp a b -> forall P Q,
  good2 c p P -> good2 c p Q -> (aff_eqb (fe_ops c p) P Q = true <-> aff_pt p Pp P = aff_pt p Pp Q).
Proof. exact aff_eqb_claim. Qed.
Print Assumptions C31_equal.
(** C31: is_identity. *)
Theorem C31_is_identity : forall c p (Pp : prime (value p)) a b, curve_ok c p Pp a b -> forall P,
  good2 c p P -> (aff_is_identity (fe_ops c p) P = true <-> aff_pt p Pp P = Inf).
Proof. exact aff_id_claim. Qed.
Print Assumptions C31_is_identity.
(** C31: closure. *)
Theorem C31_closed : forall c p (Pp : prime (value p)) a b, curve_ok c p Pp a b -> value b <> 0 -> forall P Q R,
  good2 c p P -> good2 c p Q -> on_curve (kval p Pp a) (kval p Pp b) (aff_pt p Pp P) -> on_curve (kval p Pp a) (kval p Pp b) (aff_pt p Pp Q) -> aff_add (fe_ops c p) (coeffs_of c p a b) P Q = Ok R ->
  good2 c p R /\ on_curve (kval p Pp a) (kval p Pp b) (aff_pt p Pp R).
Proof. exact aff_closed_claim. Qed.
Print Assumptions C31_closed.
(** C31: commutativity. *)
Theorem C31_comm : forall c p (Pp : prime (value p)) a b, curve_ok c p Pp a b -> value b <> 0 -> forall P Q,
  good2 c p P -> good2 c p Q -> on_curve (kval p Pp a) (kval p Pp b) (aff_pt p Pp P) -> on_curve (kval p Pp a) (kval p Pp b) (aff_pt p Pp Q) ->
  exists R R', aff_add (fe_ops c p) (coeffs_of c p a b) P Q = Ok R /\ aff_add (fe_ops c p) (coeffs_of c p a b) Q P = Ok R' /\ aff_pt p Pp R = aff_pt p Pp R' /\ aff_eqb (fe_ops c p) R R' = true.
Proof. exact aff_comm_claim. Qed.
Print Assumptions C31_comm.
(** C31: associativity. *)
Theorem C31_assoc : forall c p (Pp : prime (value p)) a b, curve_ok c p Pp a b -> value b <> 0 -> forall P Q S,
  good2 c p P -> good2 c p Q -> good2 c p S -> on_curve (kval p Pp a) (kval p Pp b) (aff_pt p Pp P) -> on_curve (kval p Pp a) (kval p Pp b) (aff_pt p Pp Q) -> on_curve (kval p Pp a) (kval p Pp b) (aff_pt p Pp S) ->
  exists PQ QS L M, aff_add (fe_ops c p) (coeffs_of c p a b) P Q = Ok PQ /\ aff_add (fe_ops c p) (coeffs_of c p a b) Q S = Ok QS /\ aff_add (fe_ops c p) (coeffs_of c p a b) PQ S = Ok L /\ aff_add (fe_ops c p) (coeffs_of c p a b) P QS = Ok M /\
    aff_pt p Pp L = aff_pt p Pp M /\ aff_eqb (fe_ops c p) L M = true.
Proof. exact aff_assoc_claim. Qed.
Print Assumptions C31_assoc.
(** C31: the identity is neutral on both sides. *)
Theorem C31_identity : forall c p (Pp : prime (value p)) a b, curve_ok c p Pp a b -> forall P,
  aff_add (fe_ops c p) (coeffs_of c p a b) None P = Ok P /\
  (good2 c p P -> exists R, aff_add (fe_ops c p) (coeffs_of c p a b) P None = Ok R /\ aff_pt p Pp R = aff_pt p Pp P /\ aff_eqb (fe_ops c p) R P = true).
Proof. exact aff_identity_claim. Qed.
Print Assumptions C31_identity.
(** C31: the negated point is the inverse. *)
Theorem C31_inverse : forall c p (Pp : prime (value p)) a b, curve_ok c p Pp a b -> value b <> 0 -> forall P,
  good2 c p P -> on_curve (kval p Pp a) (kval p Pp b) (aff_pt p Pp P) ->
  exists N R, aff_inverted (fe_ops c p) P = Ok N /\ good2 c p N /\ on_curve (kval p Pp a) (kval p Pp b) (aff_pt p Pp N) /\ aff_add (fe_ops c p) (coeffs_of c p a b) P N = Ok R /\ aff_pt p Pp R = Inf /\ aff_is_identity (fe_ops c p) R = true.
Proof. exact aff_inverse_claim. Qed.
Print Assumptions C31_inverse.
(** C31: on a curve with b = 0 the law fails: the point (0, 0) is taken for the identity and addition is not associative. *)
Theorem C31_b_zero_refuted : exists c p (Pp : prime (value p)) a b P Q S PQ QS L M,
  curve_ok c p Pp a b /\ good2 c p P /\ good2 c p Q /\ good2 c p S /\
  on_curve (kval p Pp a) (kval p Pp b) (raw_pt p Pp P) /\ on_curve (kval p Pp a) (kval p Pp b) (raw_pt p Pp Q) /\ on_curve (kval p Pp a) (kval p Pp b) (raw_pt p Pp S) /\
  aff_add (fe_ops c p) (coeffs_of c p a b) P Q = Ok PQ /\ aff_add (fe_ops c p) (coeffs_of c p a b) PQ S = Ok L /\
  aff_add (fe_ops c p) (coeffs_of c p a b) Q S = Ok QS /\ aff_add (fe_ops c p) (coeffs_of c p a b) P QS = Ok M /\
  aff_eqb (fe_ops c p) L M = false.
Proof. exact aff_b_zero_refute. Qed.
Print Assumptions C31_b_zero_refuted.
Example C31_ex : curve_ok ex_c ex_p ex_prime ex_2 ex_2 /\ value ex_2 <> 0 /\ good2 ex_c ex_p (ex_pt 5 1) /\ good2 ex_c ex_p (ex_pt 3 16) /\
  on_curve (kval ex_p ex_prime ex_2) (kval ex_p ex_prime ex_2) (aff_pt ex_p ex_prime (ex_pt 5 1)) /\
  on_curve (kval ex_p ex_prime ex_2) (kval ex_p ex_prime ex_2) (aff_pt ex_p ex_prime (ex_pt 3 16)) /\
  match aff_add (fe_ops ex_c ex_p) (coeffs_of ex_c ex_p ex_2 ex_2) (ex_pt 5 1) (ex_pt 3 16), aff_doubled (fe_ops ex_c ex_p) (coeffs_of ex_c ex_p ex_2 ex_2) (ex_pt 5 1) with
  | Ok (Some (x, y)), Ok (Some (u, v)) => value (fv x) = 10 /\ value (fv y) = 11 /\ value (fv u) = 6 /\ value (fv v) = 3 | _, _ => False end.
Proof.
  split; [exact ex_curve|]. split; [discriminate|]. do 2 (split; [split; apply ex_elem; lia|]). do 2 (split; [apply zval_inj; vm_compute; reflexivity|]). vm_compute. repeat split.
Qed.
(** C32: homogeneous addition of any representatives is the group law, without abort. *)
Theorem C32_add : forall c p (Pp : prime (value p)) a b, curve_ok c p Pp a b -> forall P Q,
  good3 c p P -> good3 c p Q -> on_curve (kval p Pp a) (kval p Pp b) (proj_pt p Pp P) -> on_curve (kval p Pp a) (kval p Pp b) (proj_pt p Pp Q) ->
  exists R, proj_add (fe_ops c p) (coeffs_of c p a b) P Q = Ok R /\ good3 c p R /\ proj_pt p Pp R = padd (kval p Pp a) (proj_pt p Pp P) (proj_pt p Pp Q).
Proof. exact proj_add_claim. Qed.
Print Assumptions C32_add.
(** C32: doubling. *)
Theorem C32_doubled : forall c p (Pp : prime (value p)) a b, curve_ok c p Pp a b -> forall P,
  good3 c p P -> on_curve (kval p Pp a) (kval p Pp b) (proj_pt p Pp P) -> exists R, proj_doubled (fe_ops c p) (coeffs_of c p a b) P = Ok R /\ good3 c p R /\ proj_pt p Pp R = padd (kval p Pp a) (proj_pt p Pp P) (proj_pt p Pp P).
Proof. exact proj_doubled_claim. Qed.
Print Assumptions C32_doubled.
(** C32: negation. *)
Theorem C32_inverted : forall c p (Pp : prime (value p)) a b, curve_ok c p Pp a b -> forall P,
  good3 c p P -> exists R, inverted3 (fe_ops c p) P = Ok R /\ good3 c p R /\ proj_pt p Pp R = popp (proj_pt p Pp P).
Proof. exact proj_inverted_claim. Qed.
Print Assumptions C32_inverted.
(** C32: subtraction. *)
Theorem C32_sub : forall c p (Pp : prime (value p)) a b, curve_ok c p Pp a b -> forall P Q,
  good3 c p P -> good3 c p Q -> on_curve (kval p Pp a) (kval p Pp b) (proj_pt p Pp P) -> on_curve (kval p Pp a) (kval p Pp b) (proj_pt p Pp Q) ->
  exists R, proj_sub (fe_ops c p) (coeffs_of c p a b) P Q = Ok R /\ good3 c p R /\ proj_pt p Pp R = padd (kval p Pp a) (proj_pt p Pp P) (popp (proj_pt p Pp Q)).
Proof. exact proj_sub_claim. Qed.
Print Assumptions C32_sub.
(** C32: is_on_curve decides the curve equation of the denoted point. *)
Theorem C32_on_curve : forall c p (Pp : prime (value p)) a b, curve_ok c p Pp a b -> forall P,
  good3 c p P -> exists v, proj_is_on_curve (fe_ops c p) (coeffs_of c p a b) P = Ok v /\ (v = true <-> on_curve (kval p Pp a) (kval p Pp b) (proj_pt p Pp P)).
Proof. exact proj_on_claim. Qed.
Print Assumptions C32_on_curve.
(** C32: == decides equality of the denoted points, so it ignores the scaling factor. *)
Theorem C32_equal : forall c p (Pp : prime (value p)) a b, curve_ok c p Pp a b -> forall P Q,
  good3 c p P -> good3 c p Q -> exists v, proj_eqb (fe_ops c p) P Q = Ok v /\ (v = true <-> proj_pt p Pp P = proj_pt p Pp Q).
Proof. exact proj_eqb_claim. Qed.
Print Assumptions C32_equal.
(** C32: a tuple scaled by any non-zero factor compares equal. *)
Theorem C32_scaling : forall c p (Pp : prime (value p)) a b, curve_ok c p Pp a b -> forall x y z k x' y' z',
  elem c p x -> elem c p y -> elem c p z -> elem c p k -> value (fv k) <> 0 ->
  fe_mul c x k = Ok x' -> fe_mul c y k = Ok y' -> fe_mul c z k = Ok z' -> proj_eqb (fe_ops c p) (Some (x, y, z)) (Some (x', y', z')) = Ok true.
Proof. exact proj_scale_claim. Qed.
Print Assumptions C32_scaling.
(** C32: is_identity. *)
Theorem C32_is_identity : forall c p (Pp : prime (value p)) a b, curve_ok c p Pp a b -> forall P,
  good3 c p P -> (is_identity3 (fe_ops c p) P = true <-> proj_pt p Pp P = Inf).
Proof. exact proj_id_claim. Qed.
Print Assumptions C32_is_identity.
(** C32: conversion from affine keeps the point. *)
Theorem C32_of_affine : forall c p (Pp : prime (value p)) a b, curve_ok c p Pp a b -> forall P,
  good2 c p P -> good3 c p (of_affine (fe_ops c p) P) /\ proj_pt p Pp (of_affine (fe_ops c p) P) = aff_pt p Pp P.
Proof. exact proj_of_affine_claim. Qed.
Print Assumptions C32_of_affine.
(** C32: conversion to affine divides out the scaling factor. *)
Theorem C32_to_affine : forall c p (Pp : prime (value p)) a b, curve_ok c p Pp a b -> forall P,
  good3 c p P -> exists R, proj_to_affine (fe_ops c p) P = Ok R /\ good2 c p R /\ raw_pt p Pp R = proj_pt p Pp P.
Proof. exact proj_to_affine_raw. Qed.
Print Assumptions C32_to_affine.
(** C32: normalisation keeps the point and makes z = 1. *)
Theorem C32_normalize : forall c p (Pp : prime (value p)) a b, curve_ok c p Pp a b -> forall P,
  good3 c p P -> exists R, proj_normalize (fe_ops c p) P = Ok R /\ good3 c p R /\ proj_pt p Pp R = proj_pt p Pp P /\
  (proj_pt p Pp P <> Inf -> exists x y z, R = Some (x, y, z) /\ value (fv z) = 1).
Proof. exact proj_normalize_claim. Qed.
Print Assumptions C32_normalize.
(** C32: adding and converting is converting and adding (curves with b <> 0). *)
Theorem C32_agrees : forall c p (Pp : prime (value p)) a b, curve_ok c p Pp a b -> value b <> 0 -> forall P Q,
  good3 c p P -> good3 c p Q -> on_curve (kval p Pp a) (kval p Pp b) (proj_pt p Pp P) -> on_curve (kval p Pp a) (kval p Pp b) (proj_pt p Pp Q) ->
  exists R r p' q' s, proj_add (fe_ops c p) (coeffs_of c p a b) P Q = Ok R /\ proj_to_affine (fe_ops c p) R = Ok r /\ proj_to_affine (fe_ops c p) P = Ok p' /\ proj_to_affine (fe_ops c p) Q = Ok q' /\
    aff_add (fe_ops c p) (coeffs_of c p a b) p' q' = Ok s /\ aff_eqb (fe_ops c p) r s = true.
Proof. exact proj_agrees_claim. Qed.
Print Assumptions C32_agrees.
(** C32: likewise for doubling. *)
Theorem C32_double_agrees : forall c p (Pp : prime (value p)) a b, curve_ok c p Pp a b -> value b <> 0 -> forall P,
  good3 c p P -> on_curve (kval p Pp a) (kval p Pp b) (proj_pt p Pp P) ->
  exists R r p' s, proj_doubled (fe_ops c p) (coeffs_of c p a b) P = Ok R /\ proj_to_affine (fe_ops c p) R = Ok r /\ proj_to_affine (fe_ops c p) P = Ok p' /\ aff_doubled (fe_ops c p) (coeffs_of c p a b) p' = Ok s /\ aff_eqb (fe_ops c p) r s = true.
Proof. exact proj_double_agrees_claim. Qed.
Print Assumptions C32_double_agrees.
Example C32_ex : curve_ok ex_c ex_p ex_prime ex_2 ex_2 /\ 8 < value ex_p /\ good3 ex_c ex_p (ex_pt3 4 8 8) /\
  on_curve (kval ex_p ex_prime ex_2) (kval ex_p ex_prime ex_2) (proj_pt ex_p ex_prime (ex_pt3 4 8 8)) /\
  proj_eqb (fe_ops ex_c ex_p) (ex_pt3 4 8 8) (ex_pt3 9 1 1) = Ok true /\
  match bind (proj_add (fe_ops ex_c ex_p) (coeffs_of ex_c ex_p ex_2 ex_2) (ex_pt3 4 8 8) (ex_pt3 5 1 1)) (proj_to_affine (fe_ops ex_c ex_p)),
        bind (proj_doubled (fe_ops ex_c ex_p) (coeffs_of ex_c ex_p ex_2 ex_2) (ex_pt3 4 8 8)) (proj_to_affine (fe_ops ex_c ex_p)),
        aff_add (fe_ops ex_c ex_p) (coeffs_of ex_c ex_p ex_2 ex_2) (ex_pt 9 1) (ex_pt 5 1),
        aff_doubled (fe_ops ex_c ex_p) (coeffs_of ex_c ex_p ex_2 ex_2) (ex_pt 9 1) with
  | Ok U, Ok D, Ok s, Ok d => aff_eqb (fe_ops ex_c ex_p) U s = true /\ aff_eqb (fe_ops ex_c ex_p) D d = true /\ U <> None /\ D <> None | _, _, _, _ => False end.
Proof.
  split; [exact ex_curve|]. split; [reflexivity|]. split; [repeat split; apply ex_elem; lia|]. split; [apply zval_inj; vm_compute; reflexivity|].
  split; [vm_compute; reflexivity|]. vm_compute. repeat split; discriminate.
Qed.
(** C33: Jacobian addition of any representatives is the group law, without abort. *)
Theorem C33_add : forall c p (Pp : prime (value p)) a b, curve_ok c p Pp a b -> 8 < value p -> forall P Q,
  good3 c p P -> good3 c p Q -> on_curve (kval p Pp a) (kval p Pp b) (jac_pt p Pp P) -> on_curve (kval p Pp a) (kval p Pp b) (jac_pt p Pp Q) ->
  exists R, jac_add (fe_ops c p) (coeffs_of c p a b) P Q = Ok R /\ good3 c p R /\ jac_pt p Pp R = padd (kval p Pp a) (jac_pt p Pp P) (jac_pt p Pp Q).
Proof. exact jac_add_claim. Qed.
Print Assumptions C33_add.
(** C33: doubling. *)
Theorem C33_doubled : forall c p (Pp : prime (value p)) a b, curve_ok c p Pp a b -> 8 < value p -> forall P,
  good3 c p P -> on_curve (kval p Pp a) (kval p Pp b) (jac_pt p Pp P) -> exists R, jac_doubled (fe_ops c p) (coeffs_of c p a b) P = Ok R /\ good3 c p R /\ jac_pt p Pp R = padd (kval p Pp a) (jac_pt p Pp P) (jac_pt p Pp P).
Proof. exact jac_doubled_claim. Qed.
Print Assumptions C33_doubled.
(** C33: negation. *)
Theorem C33_inverted : forall c p (Pp : prime (value p)) a b, curve_ok c p Pp a b -> forall P,
  good3 c p P -> exists R, inverted3 (fe_ops c p) P = Ok R /\ good3 c p R /\ jac_pt p Pp R = popp (jac_pt p Pp P).
Proof. exact jac_inverted_claim. Qed.
Print Assumptions C33_inverted.
(** C33: subtraction. *)
Theorem C33_sub : forall c p (Pp : prime (value p)) a b, curve_ok c p Pp a b -> 8 < value p -> forall P Q,
  good3 c p P -> good3 c p Q -> on_curve (kval p Pp a) (kval p Pp b) (jac_pt p Pp P) -> on_curve (kval p Pp a) (kval p Pp b) (jac_pt p Pp Q) ->
  exists R, jac_sub (fe_ops c p) (coeffs_of c p a b) P Q = Ok R /\ good3 c p R /\ jac_pt p Pp R = padd (kval p Pp a) (jac_pt p Pp P) (popp (jac_pt p Pp Q)).
Proof. exact jac_sub_claim. Qed.
Print Assumptions C33_sub.
(** C33: is_on_curve decides the curve equation of the denoted point. *)
Theorem C33_on_curve : forall c p (Pp : prime (value p)) a b, curve_ok c p Pp a b -> forall P,
  good3 c p P -> exists v, jac_is_on_curve (fe_ops c p) (coeffs_of c p a b) P = Ok v /\ (v = true <-> on_curve (kval p Pp a) (kval p Pp b) (jac_pt p Pp P)).
Proof. exact jac_on_claim. Qed.
Print Assumptions C33_on_curve.
(** C33: == decides equality of the denoted points, so it ignores the scaling factor. *)
Theorem C33_equal : forall c p (Pp : prime (value p)) a b, curve_ok c p Pp a b -> forall P Q,
  good3 c p P -> good3 c p Q -> exists v, jac_eqb (fe_ops c p) P Q = Ok v /\ (v = true <-> jac_pt p Pp P = jac_pt p Pp Q).
Proof. exact jac_eqb_claim. Qed.
Print Assumptions C33_equal.
(** C33: a tuple scaled by any non-zero factor compares equal. *)
Theorem C33_scaling : forall c p (Pp : prime (value p)) a b, curve_ok c p Pp a b -> forall x y z k k2 k3 x' y' z',
  elem c p x -> elem c p y -> elem c p z -> elem c p k -> value (fv k) <> 0 ->
  fe_mul c k k = Ok k2 -> fe_mul c k2 k = Ok k3 ->
  fe_mul c x k2 = Ok x' -> fe_mul c y k3 = Ok y' -> fe_mul c z k = Ok z' -> jac_eqb (fe_ops c p) (Some (x, y, z)) (Some (x', y', z')) = Ok true.
Proof. exact jac_scale_claim. Qed.
Print Assumptions C33_scaling.
(** C33: is_identity. *)
Theorem C33_is_identity : forall c p (Pp : prime (value p)) a b, curve_ok c p Pp a b -> forall P,
  good3 c p P -> (is_identity3 (fe_ops c p) P = true <-> jac_pt p Pp P = Inf).
Proof. exact jac_id_claim. Qed.
Print Assumptions C33_is_identity.
(** C33: conversion from affine keeps the point. *)
Theorem C33_of_affine : forall c p (Pp : prime (value p)) a b, curve_ok c p Pp a b -> forall P,
  good2 c p P -> good3 c p (of_affine (fe_ops c p) P) /\ jac_pt p Pp (of_affine (fe_ops c p) P) = aff_pt p Pp P.
Proof. exact jac_of_affine_claim. Qed.
Print Assumptions C33_of_affine.
(** C33: conversion to affine divides out the scaling factor. *)
Theorem C33_to_affine : forall c p (Pp : prime (value p)) a b, curve_ok c p Pp a b -> forall P,
  good3 c p P -> exists R, jac_to_affine (fe_ops c p) P = Ok R /\ good2 c p R /\ raw_pt p Pp R = jac_pt p Pp P.
Proof. exact jac_to_affine_raw. Qed.
Print Assumptions C33_to_affine.
(** C33: normalisation keeps the point and makes z = 1. *)
Theorem C33_normalize : forall c p (Pp : prime (value p)) a b, curve_ok c p Pp a b -> 8 < value p -> forall P,
  good3 c p P -> exists R, jac_normalize (fe_ops c p) P = Ok R /\ good3 c p R /\ jac_pt p Pp R = jac_pt p Pp P /\
  (jac_pt p Pp P <> Inf -> exists x y z, R = Some (x, y, z) /\ value (fv z) = 1).
Proof. exact jac_normalize_claim. Qed.
Print Assumptions C33_normalize.
(** C33: adding and converting is converting and adding (curves with b <> 0). *)
Theorem C33_agrees : forall c p (Pp : prime (value p)) a b, curve_ok c p Pp a b -> value b <> 0 -> 8 < value p -> forall P Q,
  good3 c p P -> good3 c p Q -> on_curve (kval p Pp a) (kval p Pp b) (jac_pt p Pp P) -> on_curve (kval p Pp a) (kval p Pp b) (jac_pt p Pp Q) ->
  exists R r p' q' s, jac_add (fe_ops c p) (coeffs_of c p a b) P Q = Ok R /\ jac_to_affine (fe_ops c p) R = Ok r /\ jac_to_affine (fe_ops c p) P = Ok p' /\ jac_to_affine (fe_ops c p) Q = Ok q' /\
    aff_add (fe_ops c p) (coeffs_of c p a b) p' q' = Ok s /\ aff_eqb (fe_ops c p) r s = true.
Proof. exact jac_agrees_claim. Qed.
Print Assumptions C33_agrees.
(** C33: likewise for doubling. *)
Theorem C33_double_agrees : forall c p (Pp : prime (value p)) a b, curve_ok c p Pp a b -> value b <> 0 -> 8 < value p -> forall P,
  good3 c p P -> on_curve (kval p Pp a) (kval p Pp b) (jac_pt p Pp P) ->
  exists R r p' s, jac_doubled (fe_ops c p) (coeffs_of c p a b) P = Ok R /\ jac_to_affine (fe_ops c p) R = Ok r /\ jac_to_affine (fe_ops c p) P = Ok p' /\ aff_doubled (fe_ops c p) (coeffs_of c p a b) p' = Ok s /\ aff_eqb (fe_ops c p) r s = true.
Proof. exact jac_double_agrees_claim. Qed.
Print Assumptions C33_double_agrees.
(** C33: in a field of fewer than 9 elements the multiplier 8 is not reduced and doubling can return an unreduced coordinate, so the result differs from the affine one. *)
Theorem C33_small_field_refuted : exists c p (Pp : prime (value p)) a b P R r s,
  curve_ok c p Pp a b /\ value b <> 0 /\ good2 c p P /\ on_curve (kval p Pp a) (kval p Pp b) (aff_pt p Pp P) /\
  jac_doubled (fe_ops c p) (coeffs_of c p a b) (of_affine (fe_ops c p) P) = Ok R /\ jac_to_affine (fe_ops c p) R = Ok r /\
  aff_doubled (fe_ops c p) (coeffs_of c p a b) P = Ok s /\ aff_eqb (fe_ops c p) r s = false /\ ~ good2 c p r.
Proof. exact jac_small_refute. Qed.
Print Assumptions C33_small_field_refuted.
Example C33_ex : curve_ok ex_c ex_p ex_prime ex_2 ex_2 /\ 8 < value ex_p /\ good3 ex_c ex_p (ex_pt3 8 13 4) /\
  on_curve (kval ex_p ex_prime ex_2) (kval ex_p ex_prime ex_2) (jac_pt ex_p ex_prime (ex_pt3 8 13 4)) /\
  jac_eqb (fe_ops ex_c ex_p) (ex_pt3 8 13 4) (ex_pt3 9 1 1) = Ok true /\
  match bind (jac_add (fe_ops ex_c ex_p) (coeffs_of ex_c ex_p ex_2 ex_2) (ex_pt3 8 13 4) (ex_pt3 5 1 1)) (jac_to_affine (fe_ops ex_c ex_p)),
        bind (jac_doubled (fe_ops ex_c ex_p) (coeffs_of ex_c ex_p ex_2 ex_2) (ex_pt3 8 13 4)) (jac_to_affine (fe_ops ex_c ex_p)),
        aff_add (fe_ops ex_c ex_p) (coeffs_of ex_c ex_p ex_2 ex_2) (ex_pt 9 1) (ex_pt 5 1),
        aff_doubled (fe_ops ex_c ex_p) (coeffs_of ex_c ex_p ex_2 ex_2) (ex_pt 9 1) with
  | Ok U, Ok D, Ok s, Ok d => aff_eqb (fe_ops ex_c ex_p) U s = true /\ aff_eqb (fe_ops ex_c ex_p) D d = true /\ U <> None /\ D <> None | _, _, _, _ => False end.
Proof.
  split; [exact ex_curve|]. split; [reflexivity|]. split; [repeat split; apply ex_elem; lia|]. split; [apply zval_inj; vm_compute; reflexivity|].
  split; [vm_compute; reflexivity|]. vm_compute. repeat split; discriminate.
Qed.
(** C34: affine k*P is the repeated sum, for every storable k (a negative k gives the repeated sum of -P). *)
Theorem C34_affine : forall c p (Pp : prime (value p)) a b, curve_ok c p Pp a b -> value b <> 0 -> forall P s,
  good2 c p P -> on_curve (kval p Pp a) (kval p Pp b) (aff_pt p Pp P) -> valid c s ->
  exists R, aff_mul (fe_ops c p) (coeffs_of c p a b) P s = Ok R /\ good2 c p R /\ aff_pt p Pp R = zmul (kval p Pp a) (value s) (aff_pt p Pp P).
Proof. exact aff_mul_claim. Qed.
Print Assumptions C34_affine.
(** C34: homogeneous coordinates. *)
Theorem C34_projective : forall c p (Pp : prime (value p)) a b, curve_ok c p Pp a b -> forall P s,
  good3 c p P -> on_curve (kval p Pp a) (kval p Pp b) (proj_pt p Pp P) -> valid c s ->
  exists R, proj_mul (fe_ops c p) (coeffs_of c p a b) P s = Ok R /\ good3 c p R /\ proj_pt p Pp R = zmul (kval p Pp a) (value s) (proj_pt p Pp P).
Proof. exact proj_mul_claim. Qed.
Print Assumptions C34_projective.
(** C34: Jacobian coordinates, by the non-adjacent form. *)
Theorem C34_jacobian : forall c p (Pp : prime (value p)) a b, curve_ok c p Pp a b -> 8 < value p -> forall P s,
  good3 c p P -> on_curve (kval p Pp a) (kval p Pp b) (jac_pt p Pp P) -> valid c s -> room c (size s + 1) ->
  exists R, jac_mul (fe_ops c p) (coeffs_of c p a b) c P s = Ok R /\ good3 c p R /\ jac_pt p Pp R = zmul (kval p Pp a) (value s) (jac_pt p Pp P).
Proof. exact jac_mul_claim. Qed.
Print Assumptions C34_jacobian.
(** C34: over GF(7) the Jacobian 2*P differs from the affine one. *)
Theorem C34_small_field_refuted : exists c p (Pp : prime (value p)) a b P k R r s,
  curve_ok c p Pp a b /\ value b <> 0 /\ good2 c p P /\ on_curve (kval p Pp a) (kval p Pp b) (aff_pt p Pp P) /\ valid c k /\ room c (size k + 1) /\
  jac_mul (fe_ops c p) (coeffs_of c p a b) c (of_affine (fe_ops c p) P) k = Ok R /\ jac_to_affine (fe_ops c p) R = Ok r /\
  aff_mul (fe_ops c p) (coeffs_of c p a b) P k = Ok s /\ aff_eqb (fe_ops c p) r s = false.
Proof. exact jac_mul_small_refute. Qed.
Print Assumptions C34_small_field_refuted.
(** C34: on a curve with b = 0 the affine 3*P is wrong when 2*P = (0, 0). *)
Theorem C34_b_zero_refuted : exists c p (Pp : prime (value p)) a b P k R,
  curve_ok c p Pp a b /\ good2 c p P /\ on_curve (kval p Pp a) (kval p Pp b) (raw_pt p Pp P) /\ valid c k /\ 0 <= value k /\
  aff_mul (fe_ops c p) (coeffs_of c p a b) P k = Ok R /\ raw_pt p Pp R <> zmul (kval p Pp a) (value k) (raw_pt p Pp P).
Proof. exact aff_mul_b_zero_refute. Qed.
Print Assumptions C34_b_zero_refuted.
(** C34: is_valid tests the curve equation and the order. *)
Theorem C34_affine_valid : forall c p (Pp : prime (value p)) a b, curve_ok c p Pp a b -> value b <> 0 -> forall n P,
  good2 c p P -> valid c n ->
  exists v, aff_is_valid (fe_ops c p) (coeffs_of c p a b) n P = Ok v /\ (v = true <-> aff_pt p Pp P <> Inf /\ on_curve (kval p Pp a) (kval p Pp b) (aff_pt p Pp P) /\ zmul (kval p Pp a) (value n) (aff_pt p Pp P) = Inf).
Proof. exact aff_valid_claim. Qed.
Print Assumptions C34_affine_valid.
(** C34: likewise. *)
Theorem C34_projective_valid : forall c p (Pp : prime (value p)) a b, curve_ok c p Pp a b -> forall n P,
  good3 c p P -> valid c n -> 
  exists v, proj_is_valid (fe_ops c p) (coeffs_of c p a b)  n P = Ok v /\ (v = true <-> proj_pt p Pp P <> Inf /\ on_curve (kval p Pp a) (kval p Pp b) (proj_pt p Pp P) /\ zmul (kval p Pp a) (value n) (proj_pt p Pp P) = Inf).
Proof. exact proj_valid_claim. Qed.
Print Assumptions C34_projective_valid.
(** C34: likewise. *)
Theorem C34_jacobian_valid : forall c p (Pp : prime (value p)) a b, curve_ok c p Pp a b -> 8 < value p -> forall n P,
  good3 c p P -> valid c n -> room c (size n + 1) ->
  exists v, jac_is_valid (fe_ops c p) (coeffs_of c p a b) c n P = Ok v /\ (v = true <-> jac_pt p Pp P <> Inf /\ on_curve (kval p Pp a) (kval p Pp b) (jac_pt p Pp P) /\ zmul (kval p Pp a) (value n) (jac_pt p Pp P) = Inf).
Proof. exact jac_valid_claim. Qed.
Print Assumptions C34_jacobian_valid.
Example C34_ex : curve_ok ex_c ex_p ex_prime ex_2 ex_2 /\ good3 ex_c ex_p (ex_pt3 8 13 4) /\ valid ex_c (of_int ex_c 25) /\ room ex_c (size (of_int ex_c 25) + 1) /\
  match bind (jac_mul (fe_ops ex_c ex_p) (coeffs_of ex_c ex_p ex_2 ex_2) ex_c (ex_pt3 8 13 4) (of_int ex_c 25)) (jac_to_affine (fe_ops ex_c ex_p)),
        bind (proj_mul (fe_ops ex_c ex_p) (coeffs_of ex_c ex_p ex_2 ex_2) (ex_pt3 4 8 8) (of_int ex_c 25)) (proj_to_affine (fe_ops ex_c ex_p)),
        aff_mul (fe_ops ex_c ex_p) (coeffs_of ex_c ex_p ex_2 ex_2) (ex_pt 9 1) (of_int ex_c 6),
        jac_mul (fe_ops ex_c ex_p) (coeffs_of ex_c ex_p ex_2 ex_2) ex_c (ex_pt3 8 13 4) (of_int ex_c 19) with
  | Ok J, Ok P, Ok Q, Ok Z => aff_eqb (fe_ops ex_c ex_p) J Q = true /\ aff_eqb (fe_ops ex_c ex_p) P Q = true /\ Q <> None /\ is_identity3 (fe_ops ex_c ex_p) Z = true
  | _, _, _, _ => False end.
Proof.
  split; [exact ex_curve|]. split; [repeat split; apply ex_elem; lia|]. split; [apply (of_int_ok ex_c 25 26); cbn; lia|]. split; [vm_compute; lia|]. vm_compute. repeat split; discriminate.
Qed.
(** C35: ec_mul_add_fast on Jacobian points, scalars of any two lengths. *)
Theorem C35_jacobian : forall c p (Pp : prime (value p)) a b, curve_ok c p Pp a b -> 8 < value p -> forall x P y Q,
  good3 c p P -> good3 c p Q -> on_curve (kval p Pp a) (kval p Pp b) (jac_pt p Pp P) -> on_curve (kval p Pp a) (kval p Pp b) (jac_pt p Pp Q) -> valid c x -> valid c y -> 0 <= value x -> 0 <= value y ->
  room c (size x + 1) -> room c (size y + 1) ->
  exists R, jac_mul_add (fe_ops c p) (coeffs_of c p a b) c x P y Q = Ok R /\ good3 c p R /\ jac_pt p Pp R = padd (kval p Pp a) (zmul (kval p Pp a) (value x) (jac_pt p Pp P)) (zmul (kval p Pp a) (value y) (jac_pt p Pp Q)).
Proof. exact jac_mul_add_claim. Qed.
Print Assumptions C35_jacobian.
(** C35: on homogeneous points. *)
Theorem C35_projective : forall c p (Pp : prime (value p)) a b, curve_ok c p Pp a b -> forall x P y Q,
  good3 c p P -> good3 c p Q -> on_curve (kval p Pp a) (kval p Pp b) (proj_pt p Pp P) -> on_curve (kval p Pp a) (kval p Pp b) (proj_pt p Pp Q) -> valid c x -> valid c y -> 0 <= value x -> 0 <= value y ->
  room c (size x + 1) -> room c (size y + 1) ->
  exists R, proj_mul_add (fe_ops c p) (coeffs_of c p a b) c x P y Q = Ok R /\ good3 c p R /\ proj_pt p Pp R = padd (kval p Pp a) (zmul (kval p Pp a) (value x) (proj_pt p Pp P)) (zmul (kval p Pp a) (value y) (proj_pt p Pp Q)).
Proof. exact proj_mul_add_claim. Qed.
Print Assumptions C35_projective.
(** C35: on affine points. *)
Theorem C35_affine : forall c p (Pp : prime (value p)) a b, curve_ok c p Pp a b -> value b <> 0 -> forall x P y Q,
  good2 c p P -> good2 c p Q -> on_curve (kval p Pp a) (kval p Pp b) (aff_pt p Pp P) -> on_curve (kval p Pp a) (kval p Pp b) (aff_pt p Pp Q) -> valid c x -> valid c y -> 0 <= value x -> 0 <= value y ->
  room c (size x + 1) -> room c (size y + 1) ->
  exists R, aff_mul_add (fe_ops c p) (coeffs_of c p a b) c x P y Q = Ok R /\ good2 c p R /\ aff_pt p Pp R = padd (kval p Pp a) (zmul (kval p Pp a) (value x) (aff_pt p Pp P)) (zmul (kval p Pp a) (value y) (aff_pt p Pp Q)).
Proof. exact aff_mul_add_claim. Qed.
Print Assumptions C35_affine.
Example C35_ex : curve_ok ex_c ex_p ex_prime ex_2 ex_2 /\ good3 ex_c ex_p (ex_pt3 8 13 4) /\ good3 ex_c ex_p (ex_pt3 5 1 1) /\
  match bind (jac_mul_add (fe_ops ex_c ex_p) (coeffs_of ex_c ex_p ex_2 ex_2) ex_c (of_int ex_c 300) (ex_pt3 8 13 4) (of_int ex_c 7) (ex_pt3 5 1 1)) (jac_to_affine (fe_ops ex_c ex_p)),
        aff_mul (fe_ops ex_c ex_p) (coeffs_of ex_c ex_p ex_2 ex_2) (ex_pt 9 1) (of_int ex_c 300),
        aff_mul (fe_ops ex_c ex_p) (coeffs_of ex_c ex_p ex_2 ex_2) (ex_pt 5 1) (of_int ex_c 7) with
  | Ok J, Ok P, Ok Q => match aff_add (fe_ops ex_c ex_p) (coeffs_of ex_c ex_p ex_2 ex_2) P Q with Ok U => aff_eqb (fe_ops ex_c ex_p) J U = true /\ U <> None | _ => False end
  | _, _, _ => False end.
Proof.
  split; [exact ex_curve|]. do 2 (split; [repeat split; apply ex_elem; lia|]). vm_compute. repeat split; discriminate.
Qed.
