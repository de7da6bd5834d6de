(** Points that need not lie on the curve of the object. *)
From Coq Require Import ZArith.
From Verif Require Import EcGroup.
Local Open Scope f_scope.

(** the constant term of the curve y^2 = x^3 + a x + b' that passes through a pair of coordinates *)
Definition own_b {F : fieldT} (a : F) (P : point F) : F := match P with Inf => 1 | Aff x y => y * y - (x * x * x + a * x) end.
