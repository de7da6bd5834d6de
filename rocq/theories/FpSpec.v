(** Arithmetic modulo p, the meaning of the field element classes. *)
From Coq Require Import ZArith Znumtheory List.
From Verif Require Import Outcome WordsModel BigintModel BigintSpec NumModel FpModel.
Open Scope Z_scope.

(** a modulus that the storage type can handle: products of two reduced numbers fit *)
Definition modulus_ok (c : cap) (p : bigint) : Prop := valid c p /\ 1 < value p /\ room c (2 * size p).
(** the reduced representative [v] of an integer *)
Definition reduced (c : cap) (p x : bigint) : Prop := valid c x /\ 0 <= value x < value p.
Definition represents (c : cap) (p x : bigint) (v : Z) : Prop := reduced c p x /\ value x = v mod value p.

(** expressions over field operations, with variables *)
Inductive fexpr :=
  | EVar (n : nat)
  | EAdd (a b : fexpr) | ESub (a b : fexpr) | EMul (a b : fexpr)
  | ESqr (a : fexpr) | ENeg (a : fexpr).
(** their integer value *)
Fixpoint zeval (env : nat -> Z) (e : fexpr) : Z :=
  match e with
  | EVar n => env n
  | EAdd a b => zeval env a + zeval env b
  | ESub a b => zeval env a - zeval env b
  | EMul a b => zeval env a * zeval env b
  | ESqr a => zeval env a * zeval env a
  | ENeg a => - zeval env a
  end.

(** a field element object bound to the modulus [p] and reduced; [denotes ... v]: it stands for v *)
Definition elem (c : cap) (p : bigint) (x : fe) : Prop := fm x = Some p /\ reduced c p (fv x).
Definition denotes (c : cap) (p : bigint) (x : fe) (v : Z) : Prop := elem c p x /\ value (fv x) = v mod value p.
Definition returns (c : cap) (p : bigint) (o : outcome fe) (v : Z) : Prop := exists r, o = Ok r /\ denotes c p r v.
(** the same expressions evaluated by the code *)
Fixpoint feval (c : cap) (env : nat -> fe) (e : fexpr) : outcome fe :=
  match e with
  | EVar n => Ok (env n)
  | EAdd a b => let* x := feval c env a in let* y := feval c env b in fe_add c x y
  | ESub a b => let* x := feval c env a in let* y := feval c env b in fe_sub c x y
  | EMul a b => let* x := feval c env a in let* y := feval c env b in fe_mul c x y
  | ESqr a => let* x := feval c env a in fe_sqr c x
  | ENeg a => let* x := feval c env a in fe_neg c x
  end.
