(** Bounded iteration used to model C++ loops that have no structural bound:
    [loop2 k step s] performs at most 2^k steps and stops at the first [Done]. *)
From Coq Require Import ZArith.
From Verif Require Import Outcome.

Inductive loopres (S R : Type) : Type :=
| Next (s : S)
| Done (r : R).
Arguments Next {S R} s.
Arguments Done {S R} r.

Fixpoint loop2 {S R : Type} (k : nat) (step : S -> loopres S R) (s : S) : loopres S R :=
  match k with
  | O => step s
  | Datatypes.S k' =>
      match loop2 k' step s with
      | Next s' => loop2 k' step s'
      | Done r => Done r
      end
  end.

(** Run a loop whose body may abort; exhausting the 2^k steps is [NoFuel]. *)
Definition run_loop {S A : Type} (k : nat) (step : S -> loopres S (outcome A)) (s : S) : outcome A :=
  match loop2 k step s with
  | Done r => r
  | Next _ => NoFuel
  end.
