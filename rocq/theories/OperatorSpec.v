(** What the operators of C++ mean on integers, independent of the code. *)
From Coq Require Import ZArith Bool.
From Verif Require Import Outcome BigintModel BigintSpec OperatorModel.
Open Scope Z_scope.

Inductive arith := Plus | Minus | Times | Quotient | Remainder.
(** the integer a op b denotes; none for a division by zero *)
Definition denotes (op : arith) (a b : Z) : option Z :=
  match op with
  | Plus => Some (a + b)
  | Minus => Some (a - b)
  | Times => Some (a * b)
  | Quotient => if b =? 0 then None else Some (Z.quot a b)
  | Remainder => if b =? 0 then None else Some (Z.rem a b)
  end.
Inductive relation := Eq | Ne | Lt | Le | Gt | Ge.
Definition holds_rel (r : relation) (a b : Z) : bool :=
  match r with Eq => a =? b | Ne => negb (a =? b) | Lt => a <? b | Le => a <=? b | Gt => b <? a | Ge => b <=? a end.

(** the integer of an operand whose left neighbour has the value a, the ranges of the types, the words it may take *)
Definition operand_value (a : Z) (o : operand) : Z :=
  match o with KInt k | KWord k | KI64 k | KU64 k => k | KBig b => value b | KSelf => a end.
Definition operand_ok (c : cap) (o : operand) : Prop :=
  match o with
  | KInt k => - 2 ^ 31 <= k < 2 ^ 31
  | KWord k => 0 <= k < 2 ^ 32
  | KI64 k => - 2 ^ 63 <= k < 2 ^ 63
  | KU64 k => 0 <= k < 2 ^ 64
  | KBig b => valid c b
  | KSelf => True
  end.
Definition operand_size (a : bigint) (o : operand) : nat :=
  match o with KInt _ | KWord _ => 1 | KI64 _ | KU64 _ => 2 | KBig b => size b | KSelf => size a end.
(** a op o, or a op= o *)
Definition run (asg : bool) (op : arith) (c : cap) (a : bigint) (o : operand) : outcome bigint :=
  match op, asg with
  | Plus, false => bin_add c a o | Plus, true => asg_add c a o
  | Minus, false => bin_sub c a o | Minus, true => asg_sub c a o
  | Times, false => bin_mul c a o | Times, true => asg_mul c a o
  | Quotient, false => bin_div c a o | Quotient, true => asg_div c a o
  | Remainder, false => bin_mod c a o | Remainder, true => asg_mod c a o
  end.
(** the overloads that are wrong: a negative number by a word not above it, anything modulo a word, and the assignment
    of a remainder modulo a 64-bit integer *)
Definition wrong (asg : bool) (op : arith) (a : Z) (o : operand) : bool :=
  match op, o with
  | Quotient, KWord k => negb (k =? 0) && (a <=? - k)
  | Remainder, KWord k => negb (k =? 0)
  | Remainder, KI64 k | Remainder, KU64 k => asg && negb (k =? 0)
  | _, _ => false
  end.

(** comparisons: with a word, a negative zero counts as -1 *)
Definition seen (x : bigint) (o : operand) : Z := match o with KWord _ => if neg x && (value x =? 0) then -1 else value x | _ => value x end.
Definition cmp (c : cap) (r : relation) x o : outcome bool :=
  match r with Eq => cmp_eq c x o | Ne => cmp_ne c x o | Lt => cmp_lt c x o | Le => cmp_le c x o | Gt => cmp_gt c x o | Ge => cmp_ge c x o end.
Definition rcmp (c : cap) (r : relation) o y : outcome bool :=
  match r with Eq => rcmp_eq c o y | Ne => rcmp_ne c o y | Lt => rcmp_lt c o y | Le => rcmp_le c o y | Gt => rcmp_gt c o y | Ge => rcmp_ge c o y end.
(** bitwise operators *)
Definition uoperand_value (a : Z) (o : uoperand) : Z := match o with UWord k | UU64 k => k | UBig b => value b | USelf => a end.
Definition uoperand_ok (c : cap) (o : uoperand) : Prop :=
  match o with UWord k => 0 <= k < 2 ^ 32 | UU64 k => 0 <= k < 2 ^ 64 | UBig b => valid c b /\ 0 <= value b | USelf => True end.
