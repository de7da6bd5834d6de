(** What the software exponentiation is taken to compute for an even modulus: products of which only the upper half
    is kept.  [r] is the power of two above the numbers. *)
From Coq Require Import ZArith.
From Verif Require Import PowmSpec.
Open Scope Z_scope.

Definition high (r x y : Z) : Z := x * y / r.
(** the bits j .. 1 of e, from the top *)
Fixpoint high_bits (r e : Z) (j : nat) (acc a : Z) : Z :=
  match j with
  | O => acc
  | S j' => let t := high r acc acc in high_bits r e j' (if Z.testbit e (Z.of_nat j) then high r t a else t) a
  end.
(** square and multiply with such products, from x (r^2 mod n) / r; at the end n is subtracted once if it can be *)
Definition truncated_power (r n x e : Z) : Z :=
  let a := high r x (r * r mod n) in
  let acc := high_bits r e (Z.to_nat (Z.log2 e - 1)) a a in
  let v := high r (high r acc acc) x in
  if n <=? v then v - n else v.
