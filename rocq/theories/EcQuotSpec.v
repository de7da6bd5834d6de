(** Curves through the origin.  On y^2 = x^3 + a x the pair (0, 0) is a point of order two; the affine class of
    the library takes it for the identity.  Specification file: no code of the library is modelled here. *)
From Coq Require Import Bool.
From Verif Require Import EcGroup EcSpec.
Open Scope f_scope.

Section QUOT.
Variable F : fieldT.
Variable a : F.
(** the origin as a point *)
Definition origin : point F := Aff 0 0.
(** two points that are equal or differ by the origin *)
Definition same_class (P Q : point F) : Prop := P = Q \/ P = padd a Q origin.
(** the point at infinity in place of the origin, every other point as it is *)
Definition collapse (P : point F) : point F :=
  match P with Inf => Inf | Aff x y => if fb x 0 && fb y 0 then Inf else Aff x y end.
End QUOT.
Arguments origin {F}. Arguments same_class {F}. Arguments collapse {F}.
