(** C69: what points with three coordinates stand for without memory. *)
From Coq Require Import List ZArith Bool.
From Verif Require Import Outcome WordsModel BigintModel NumModel FpModel EcModel EcCurveModel PointerModel PointerSpec JacPointerModel.
Import ListNotations.
Open Scope Z_scope.

Definition look3 (h : heap) (P : tobj) : option (fe * fe * fe) :=
  match tc P with None => None | Some _ => Some (look h (tx P), look h (ty P), look h (tz P)) end.
(** the curve objects at the addresses [S] exist and have the parameters and flags of [k] *)
Definition alike3 (h : heap) (k : cobj) (S : nat -> Prop) : Prop :=
  forall i, S i -> exists k', at_addr (h_curves h) i = Some k' /\ k_p k' = k_p k /\ k_a k' = k_a k /\ k_b k' = k_b k /\ k_n k' = k_n k /\ k_m3 k' = k_m3 k /\ k_z k' = k_z k.
(** a point of one of these curves, or the default-constructed one *)
Definition point3_of (h : heap) (S : nat -> Prop) (P : tobj) : Prop :=
  live h (tx P) /\ live h (ty P) /\ live h (tz P) /\ forall i, tc P = Some i -> S i.
(** an element of the field of the curve [k] *)
Definition in_field (h : heap) (k : cobj) (x : fobj) : Prop := exists q, om x = Some q /\ deref h q = Some (k_p k).
(** the addresses of the existing curve objects made from one original, by copying *)
Definition family (ls : list life) (r j : nat) : Prop := exists y, nth_error ls j = Some y /\ l_alive y = true /\ l_from y = r.
