(** Specification for builds with assertions enabled: an operation yields the exact result or stops. *)
From Coq Require Import ZArith.
From Verif Require Import Outcome BigintModel BigintSpec.
Open Scope Z_scope.

(** the operation returns a valid object of value [v] when [P] holds and stops otherwise *)
Definition exact_or_stop (c : cap) (P : Prop) (v : Z) (o : outcome bigint) : Prop :=
  (P -> exists r, o = Ok r /\ valid c r /\ value r = v) /\ (~ P -> o = Abort).


(** the assertions only stop the program: the outcome is that of the release build or a stop *)
Definition below {A : Type} (debug release : outcome A) : Prop := debug = Abort \/ debug = release.

(** [o] is the inverse of [x] modulo [m] if there is one and reports failure otherwise *)
Definition inverse_of (c : cap) (x m : Z) (o : option bigint) : Prop :=
  (Z.gcd x m = 1 -> exists r, o = Some r /\ valid c r /\ 0 <= value r < m /\ (x * value r) mod m = 1) /\ (Z.gcd x m <> 1 -> o = None).
