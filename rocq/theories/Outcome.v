(** Outcomes of modelled C++ code. *)
From Coq Require Import List ZArith.
Import ListNotations.

(** [Ok v]     : normal return with value [v]
    [Abort]    : a [check] failed (utils.hpp:27-35), the transaction is aborted
    [UB]       : C++ undefined behaviour (out-of-bounds access, null dereference,
                 over-wide shift, use after free)
    [NoFuel]   : the model's loop bound was exhausted; never a result of the code,
                 theorems prove it does not occur. *)
Inductive outcome (A : Type) : Type :=
| Ok (v : A)
| Abort
| UB
| NoFuel.
Arguments Ok {A} v.
Arguments Abort {A}.
Arguments UB {A}.
Arguments NoFuel {A}.

Definition bind {A B} (m : outcome A) (f : A -> outcome B) : outcome B :=
  match m with
  | Ok v => f v
  | Abort => Abort
  | UB => UB
  | NoFuel => NoFuel
  end.

Declare Scope outcome_scope.
Delimit Scope outcome_scope with outcome.
Notation "'let*' x ':=' m 'in' k" := (bind m (fun x => k))
  (at level 200, x pattern, m at level 100, k at level 200, right associativity) : outcome_scope.
Open Scope outcome_scope.

(** utils.hpp:27-35 [check(expr,msg)]; the message text is dropped. *)
Definition check (b : bool) : outcome unit := if b then Ok tt else Abort.
