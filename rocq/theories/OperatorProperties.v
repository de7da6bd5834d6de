(** C65: the operators of bigint. *)
From Coq Require Import ZArith List Bool.
From Verif Require Import Outcome WordsModel BigintModel BigintSpec BigintClaims OperatorModel OperatorSpec OperatorClaims.
Import ListNotations.
Open Scope Z_scope.

(** C65: a op b and a op= b for + - * / %, every type of operand and a itself as operand, other than the wrong overloads: the result denotes the integer, and a division by zero aborts. *)
Theorem C65_arithmetic : forall c asg op a o, valid c a -> operand_ok c o -> room c (size a + operand_size a o + 1) -> wrong asg op (value a) o = false ->
  match denotes op (value a) (operand_value (value a) o) with
  | Some v => exists r, run asg op c a o = Ok r /\ valid c r /\ value r = v
  | None => run asg op c a o = Abort
  end.
Proof. exact operators_claim. Qed.
Print Assumptions C65_arithmetic.
(** C65: every comparison, with the bigint on either side; compared with a word, a zero that carries a minus sign counts as -1. *)
Theorem C65_relations : forall c r x o, valid c x -> operand_ok c o -> room c 2 ->
  cmp c r x o = Ok (holds_rel r (seen x o) (operand_value (value x) o)) /\ rcmp c r o x = Ok (holds_rel r (operand_value (value x) o) (seen x o)).
Proof. exact relations_claim. Qed.
Print Assumptions C65_relations.
(** C65: ++ and --, before and after. *)
Theorem C65_increments : forall c x, valid c x -> room c (size x + 1) ->
  (valid c (pre_inc c x) /\ value (pre_inc c x) = value x + 1) /\ (valid c (pre_dec c x) /\ value (pre_dec c x) = value x - 1) /\
  (fst (post_inc c x) = x /\ snd (post_inc c x) = pre_inc c x) /\ (fst (post_dec c x) = x /\ snd (post_dec c x) = pre_dec c x).
Proof. exact incdec_claim. Qed.
Print Assumptions C65_increments.
(** C65: & and | on non-negative operands. *)
Theorem C65_bitwise : forall c x o, valid c x -> 0 <= value x -> neg x = false -> uoperand_ok c o -> room c 2 ->
  (exists r, bin_and c x o = Ok r /\ valid c r /\ value r = Z.land (value x) (uoperand_value (value x) o)) /\
  (exists r, asg_and c x o = Ok r /\ valid c r /\ value r = Z.land (value x) (uoperand_value (value x) o)) /\
  (exists r, bin_or c x o = Ok r /\ valid c r /\ value r = Z.lor (value x) (uoperand_value (value x) o)) /\
  (exists r, asg_or c x o = Ok r /\ valid c r /\ value r = Z.lor (value x) (uoperand_value (value x) o)).
Proof. exact bitwise_claim. Qed.
Print Assumptions C65_bitwise.
(** C65: shifts and the unary minus. *)
Theorem C65_shifts : forall c x n, valid c x -> 0 <= n ->
  (room c (size x + Z.to_nat ((n + 31) / 32)) -> exists r, bin_shl c x n = Ok r /\ asg_shl c x n = Ok r /\ valid c r /\ value r = value x * 2 ^ n) /\
  (bin_shr x n = asg_shr x n /\ valid c (asg_shr x n) /\ value (asg_shr x n) = Z.quot (value x) (2 ^ n)) /\
  (valid c (unary_minus x) /\ value (unary_minus x) = - value x).
Proof. exact shift_claim. Qed.
Print Assumptions C65_shifts.
(** C65: the member functions mul and sqr give the product, or zero if there is no room for it. *)
Theorem C65_members : forall c x y, valid c x -> valid c y ->
  value (member_mul c x y) = (if can_resize c (size x + size y) then value x * value y else 0) /\
  value (member_sqr c x) = (if can_resize c (size x + size x) then value x * value x else 0).
Proof. exact member_claim. Qed.
Print Assumptions C65_members.
(** C65: on a one-word buffer every operator with a 64-bit operand aborts, whatever its value. *)
Theorem C65_narrow : forall c asg op a o, can_resize c 2 = false -> match o with KI64 _ | KU64 _ => True | _ => False end -> run asg op c a o = Abort /\ three_way c a o = Abort.
Proof. exact narrow_claim. Qed.
Print Assumptions C65_narrow.
(** C65: x %= k with a 64-bit k stores the quotient of x by k, not the remainder (bigint.hpp:2571-2572 call div). *)
Theorem C65_remainder_assignment : forall c a o, valid c a -> operand_ok c o -> room c (size a + 3) -> match o with KI64 k | KU64 k => k <> 0 | _ => False end ->
  exists r, run true Remainder c a o = Ok r /\ valid c r /\ value r = Z.quot (value a) (operand_value (value a) o).
Proof. exact mod64_any. Qed.
Print Assumptions C65_remainder_assignment.
(** C65: division by a 32-bit word drops the sign: the result is |x| / k. *)
Theorem C65_word_quotient : forall c asg a k, valid c a -> 0 < k < 2 ^ 32 -> exists r, run asg Quotient c a (KWord k) = Ok r /\ valid c r /\ value r = Z.abs (value a) / k.
Proof. exact div_word_any. Qed.
Print Assumptions C65_word_quotient.
(** C65, refuted: that every operator denotes its integer.  (-7) / 2u is 3; (-7) %= 2 with a 64-bit 2 leaves -3. *)
Theorem C65_refuted : exists c a, valid c a /\ room c (size a + 3) /\
  (exists r, run false Quotient c a (KWord 2) = Ok r /\ denotes Quotient (value a) 2 <> Some (value r)) /\
  (exists r, run true Remainder c a (KI64 2) = Ok r /\ denotes Remainder (value a) 2 <> Some (value r)) /\
  (exists r, run true Remainder c a (KU64 2) = Ok r /\ denotes Remainder (value a) 2 <> Some (value r)).
Proof. exact operators_refute. Qed.
Print Assumptions C65_refuted.
(** C65: the remainder by a 32-bit word is undefined behaviour for every x: the quotient is written through a null pointer. *)
Theorem C65_word_remainder_ub : forall c asg a k, 0 < k < 2 ^ 32 -> run asg Remainder c a (KWord k) = UB.
Proof. exact mod_word_any. Qed.
Print Assumptions C65_word_remainder_ub.

Definition op_c := Fixed 7.
Definition op_x := mk [5; 0; 1; 9; 9; 9; 9] 3 true.
(** x = -(2^64 + 5): the hypotheses hold for every operator; x %= 10 with an int64_t is not the remainder *)
Example C65_ex : valid op_c op_x /\ value op_x = - (2 ^ 64 + 5) /\ operand_ok op_c (KI64 (- 2 ^ 63)) /\ room op_c (size op_x + operand_size op_x KSelf + 1) /\
  room op_c (size op_x + operand_size op_x (KI64 (- 2 ^ 63)) + 1) /\ wrong true Quotient (value op_x) (KI64 (- 2 ^ 63)) = false /\
  (exists r, run true Quotient op_c op_x (KI64 (- 2 ^ 63)) = Ok r /\ value r = 2) /\
  (exists r, run true Remainder op_c op_x (KI64 10) = Ok r /\ value r = -1844674407370955162) /\
  (exists r, run false Remainder op_c op_x (KI64 10) = Ok r /\ value r = -1) /\
  (exists r, run true Quotient op_c op_x KSelf = Ok r /\ value r = 1) /\
  (exists r, run false Quotient op_c op_x (KWord 10) = Ok r /\ value r = 1844674407370955162) /\
  cmp op_c Eq (mk [0; 0; 0; 0; 0; 0; 0] 1 true) (KWord 0) = Ok false /\ cmp op_c Eq (mk [0; 0; 0; 0; 0; 0; 0] 1 true) (KInt 0) = Ok true /\
  rcmp op_c Lt (KU64 (2 ^ 64 - 1)) op_x = Ok false.
Proof.
  split; [apply validb_ok; vm_compute; reflexivity|]. split; [reflexivity|]. split; [split; [discriminate|reflexivity]|]. split; [cbn; repeat constructor|]. split; [cbn; repeat constructor|]. split; [reflexivity|].
  do 5 (split; [eexists; split; vm_compute; reflexivity|]). repeat split.
Qed.
