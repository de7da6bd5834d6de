(** What modular exponentiation gives for every base, exponent and modulus. *)
From Coq Require Import ZArith Bool.
From Verif Require Import Outcome BigintModel BigintSpec NumModel.
Open Scope Z_scope.

Definition powm_result (x e m r : Z) : Prop :=
  if e =? 0 then r = 1 else if e =? 1 then r = x else r = Z.rem (x ^ e) m.
(** the outcome of the function: division by a zero modulus aborts as soon as something is multiplied *)
Definition modexp_any (c : cap) (o : pow_res) (x e m : Z) : Prop :=
  if (m =? 0) && (2 <=? e) then o = Abort
  else exists r, o = Ok (Some r) /\ valid c r /\ powm_result x e m (value r).
