(** What the operators of a field element should give for an arbitrary integer operand, and what they give. *)
From Coq Require Import ZArith Bool.
From Verif Require Import Outcome BigintModel BigintSpec FpModel OperatorModel OperatorSpec FieldOpModel.
Open Scope Z_scope.

(** the integer the operation denotes; the class of it modulo p is the right answer *)
Definition exact (s : side) (op : fop) (x v : Z) : Z :=
  match op, s with FPlus, _ => x + v | FMinus, ElementRight => v - x | FMinus, _ => x - v | FTimes, _ => x * v end.
(** the operator that computes the opposite: a scalar minus an element *)
Definition swapped (s : side) (op : fop) : bool := match op, s with FMinus, ElementRight => true | _, _ => false end.
(** the operands for which the answer comes out reduced: one subtraction or addition of p suffices; a product is reduced by
    a truncating remainder, unless the element is 1 *)
Definition in_range (op : fop) (p x v : Z) : Prop :=
  match op with
  | FPlus => - x <= v < 2 * p - x
  | FMinus => x - p < v <= x + p
  | FTimes => if x =? 1 then 0 <= v < p else 0 <= v \/ (p | x * v)
  end.
(** the number that is stored in any case *)
Definition stored (op : fop) (p x v : Z) : Z :=
  match op with
  | FPlus => if p <=? x + v then x + v - p else x + v
  | FMinus => if x - v <? 0 then x - v + p else x - v
  | FTimes => if x =? 1 then v else Z.rem (x * v) p
  end.
(** comparisons *)
Definition fe_cmp (c : cap) (r : relation) x o : outcome bool :=
  match r with Eq => fe_eq c x o | Ne => fe_ne c x o | Lt => fe_lt c x o | Le => fe_le c x o | Gt => fe_gt c x o | Ge => fe_ge c x o end.
