(** The numbers denoted by hex literals and the consistency of curve domain parameters, over plain integers. *)
From Coq Require Import ZArith Znumtheory Bool Ascii String.
From Verif Require Import Outcome UtilsModel WordsModel BigintModel BigintSpec FpModel FpSpec EcFeSpec EcCurveModel NamedModel.
Open Scope Z_scope.

(** the value of a lower-case hexadecimal digit *)
Definition digit (a : ascii) : option Z :=
  let c := Z.of_N (N_of_ascii a) in
  if (48 <=? c) && (c <=? 57) then Some (c - 48) else if (97 <=? c) && (c <=? 102) then Some (c - 87) else None.
(** the number written by a string of hexadecimal digits, most significant first *)
Fixpoint hexnum (acc : Z) (s : string) : option Z :=
  match s with
  | EmptyString => Some acc
  | String a s => match digit a with Some d => hexnum (16 * acc + d) s | None => None end
  end.
Definition hexval (s : string) : Z := match hexnum 0 s with Some v => v | None => -1 end.

(** domain parameters: reduced constants, a non-singular curve, the generator on it, and a group size n h in the
    interval of Hasse's theorem *)
Definition consistent (p a b gx gy n h : Z) : Prop :=
  3 < p /\ 0 <= a < p /\ 0 <= b < p /\ 0 <= gx < p /\ 0 <= gy < p /\
  (4 * a ^ 3 + 27 * b ^ 2) mod p <> 0 /\ (gy ^ 2) mod p = (gx ^ 3 + a * gx + b) mod p /\
  1 < n /\ 1 <= h /\ (p + 1 - n * h) ^ 2 <= 4 * p.
(** a curve object that holds these parameters *)
Definition holds (c : cap) (C : curve) (p a b gx gy n h : Z) : Prop :=
  modulus_ok c (cu_p C) /\ value (cu_p C) = p /\ reduced c (cu_p C) (cu_a C) /\ value (cu_a C) = a /\ reduced c (cu_p C) (cu_b C) /\ value (cu_b C) = b /\
  (exists x y, cu_g C = Some (x, y) /\ elem c (cu_p C) x /\ value (fv x) = gx /\ elem c (cu_p C) y /\ value (fv y) = gy) /\
  modulus_ok c (cu_n C) /\ value (cu_n C) = n /\ cu_h C = h /\
  cu_a_is_zero C = (a =? 0) /\ cu_a_is_minus_3 C = (a =? p - 3) /\ valid c (cu_p_minus_n C) /\ value (cu_p_minus_n C) = p - n.
