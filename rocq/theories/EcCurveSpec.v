(** Meaning of curve objects: well-formedness, the curve equation over the integers modulo p. *)
From Coq Require Import List ZArith Znumtheory Bool.
From Verif Require Import Outcome WordsModel BigintModel BigintSpec NumModel FpModel FpSpec EcGroup ZpField EcModel EcSpec EcFeSpec EcCurveModel.
Import ListNotations.
Open Scope Z_scope.

(** a curve object whose constants are those of a non-singular curve over a prime field above 3, with the
    cached flags its constructor computes *)
Definition curve_base (c : cap) (C : curve) (Pp : prime (value (cu_p C))) : Prop :=
  curve_ok c (cu_p C) Pp (cu_a C) (cu_b C) /\ cu_coeffs c C = coeffs_of c (cu_p C) (cu_a C) (cu_b C).
(** the right-hand side of the curve equation *)
Definition rhs (C : curve) (x : Z) : Z := x * x * x + value (cu_a C) * x + value (cu_b C).
(** y^2 = x^3 + a x + b (mod p) *)
Definition satisfies (C : curve) (x y : Z) : Prop := (y * y) mod value (cu_p C) = rhs C x mod value (cu_p C).
(** x is the abscissa of a point of the curve *)
Definition abscissa (C : curve) (x : Z) : Prop := exists y, satisfies C x y.
(** big-endian number of a fixed length: the SEC1 field element encoding *)
Fixpoint octets (n : nat) (v : Z) : list Z :=
  match n with O => [] | S n => (v / 256 ^ Z.of_nat n) mod 256 :: octets n v end.
