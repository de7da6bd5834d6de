(** Key pairs of ECDSA: what it means for an integer to be the private key of a point. *)
From Coq Require Import ZArith List.
From Verif Require Import EcGroup EcSpec.
Open Scope Z_scope.

(** [d] is the private key of the point [Q] for the generator [G] of order [n] *)
Definition private_key {F : fieldT} (a : F) (G : point F) (n d : Z) (Q : point F) : Prop := 1 <= d < n /\ Q = zmul a d G.
(** the curve y^2 = x^3 + a x + b has [n] points, the identity included *)
Definition has_points {F : fieldT} (a b : F) (n : Z) : Prop :=
  exists l : list (point F), NoDup l /\ (forall X, In X l <-> on_curve a b X) /\ Z.of_nat (length l) = n.
