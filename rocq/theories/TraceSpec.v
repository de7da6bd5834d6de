(** What it means that an observer of the trace learns nothing about some of the memory. *)
From Coq Require Import List ZArith Bool.
From Verif Require Import Outcome RawModel RawSpec TraceModel.
Import ListNotations.

(** a set of cells: array and index *)
Definition cells := nat -> nat -> Prop.
Definition nowhere : cells := fun _ _ => False.
(** the one cell p[i] *)
Definition cell (p : loc) (i : nat) : cells := fun b k => b = fst p /\ k = (snd p + i)%nat.
Definition either (P Q : cells) : cells := fun b k => P b k \/ Q b k.
(** the same arrays with the same lengths; the cells of [P], which the observer may know, have the same
    contents; nothing is said about the others *)
Definition alike (P : cells) (m m' : memory) : Prop :=
  map (@length Z) m = map (@length Z) m' /\ forall b k, P b k -> rd m b k = rd m' b k.
(** two runs that cannot be told apart: the same trace, and they end in the same way *)
Definition same_end {A : Type} (x y : outcome A) : Prop :=
  match x, y with Ok _, Ok _ | Abort, Abort | UB, UB | NoFuel, NoFuel => True | _, _ => False end.
Definition indistinguishable {A : Type} (x y : traced A) : Prop := snd x = snd y /\ same_end (fst x) (fst y).
