(** What ECDSA verification compares: the abscissa with r and with r + n.  It is the standard's condition
    x mod n = r exactly when no abscissa reaches r + 2n. *)
From Coq Require Import ZArith.
From Verif Require Import EcGroup EcSpec EcdsaSpec.
Open Scope Z_scope.

Definition accepts_once {F : fieldT} (toZ : F -> Z) (a : F) (G : point F) (n : Z) (Q : point F) (e r s : Z) : Prop :=
  Q <> Inf /\ 1 <= r < n /\ 1 <= s < n /\
  exists w x y, (s * w) mod n = 1 /\ padd a (zmul a ((e * w) mod n) G) (zmul a ((r * w) mod n) Q) = Aff x y /\ (toZ x = r \/ toZ x = r + n).
