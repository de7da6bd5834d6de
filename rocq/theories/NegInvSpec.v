(** Specification for modular inverses of negative numbers: the number of divisions Euclid's
    algorithm makes.  Independent of the code. *)
From Coq Require Import ZArith.
Open Scope Z_scope.

(** Euclid's algorithm started on (a, b) with b >= 0 ends after k divisions. *)
Inductive divisions : Z -> Z -> nat -> Prop :=
| D_end a : divisions a 0 0
| D_step a b k : 0 < b -> divisions b (a mod b) k -> divisions a b (S k).
