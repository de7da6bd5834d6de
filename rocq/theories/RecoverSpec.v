(** Key recovery as SEC 1, section 4.1.6, describes it, independent of the code. *)
From Coq Require Import List ZArith Znumtheory Bool.
From Verif Require Import EcGroup EcSpec.
Open Scope Z_scope.

Section RECOVER.
Variable F : fieldT.
(** the integer of a coordinate *)
Variable toZ : F -> Z.
Variables a b : F.
Variable G : point F.
Variable n : Z.
(** the identifier [id] names the point R: its abscissa is r or r + n, its ordinate even or odd *)
Definition nonce_point (id r : Z) (R : point F) : Prop :=
  exists x y, R = Aff x y /\ on_curve a b R /\ toZ x = r + id / 2 * n /\ Z.odd (toZ y) = Z.odd id.
(** Q = r^-1 (s R - e G) *)
Definition recovers (id : Z) (Q : point F) (e r s : Z) : Prop :=
  0 <= id <= 3 /\ 1 <= r < n /\ 1 <= s < n /\
  exists R w, nonce_point id r R /\ (r * w) mod n = 1 /\ Q = zmul a w (padd a (zmul a s R) (popp (zmul a e G))).
End RECOVER.
Arguments nonce_point {F}. Arguments recovers {F}.
