(** The Legendre and Jacobi symbols as defined in textbooks. *)
From Coq Require Import ZArith Znumtheory.
Open Scope Z_scope.

(** a is a square modulo p *)
Definition square_mod (a p : Z) : Prop := exists x, (x * x) mod p = a mod p.
(** (a/p) for a prime p *)
Inductive legendre (a p : Z) : Z -> Prop :=
  | leg_zero : (p | a) -> legendre a p 0
  | leg_square : ~ (p | a) -> square_mod a p -> legendre a p 1
  | leg_nonsquare : ~ (p | a) -> ~ square_mod a p -> legendre a p (-1).
(** (a/n): the product of the Legendre symbols over the prime factors of n, with multiplicity *)
Inductive jacobi_symbol (a : Z) : Z -> Z -> Prop :=
  | jac_one : jacobi_symbol a 1 1
  | jac_mul : forall p n l j, prime p -> legendre a p l -> jacobi_symbol a n j -> jacobi_symbol a (p * n) (l * j).
