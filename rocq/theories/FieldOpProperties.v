(** C66: the operators of a prime field element with operands of every type. *)
From Coq Require Import ZArith Znumtheory List Bool Lia.
From Verif Require Import Outcome WordsModel BigintModel BigintSpec BigintClaims NumModel FpModel FpSpec FpClaims OperatorModel OperatorSpec FieldOpModel FieldOpSpec FieldOpClaims.
Import ListNotations.
Open Scope Z_scope.

(** C66: x op k, k op x and x op= k for + - * and an operand of any type and any value: the result is always congruent to the
    exact one modulo p (to its negative for k - x, see C30), it is the reduced representative exactly for operands in the stated range, and the number stored otherwise is known. *)
Theorem C66_operators : forall c p, modulus_ok c p -> forall s op x o, elem c p x -> operand_ok c o -> room c (size (fv x) + operand_size (fv x) o + 1) ->
  exists r, field_op c s op x o = Ok r /\ fm r = Some p /\ valid c (fv r) /\
    value (fv r) = stored op (value p) (value (fv x)) (operand_value (value (fv x)) o) /\
    value (fv r) mod value p = (let e := exact s op (value (fv x)) (operand_value (value (fv x)) o) in if swapped s op then - e else e) mod value p /\
    (elem c p r <-> in_range op (value p) (value (fv x)) (operand_value (value (fv x)) o)).
Proof. exact field_claim. Qed.
Print Assumptions C66_operators.
(** C66: division by any non-negative big integer, reduced or not: the reduced quotient, or an abort if there is no inverse. *)
Theorem C66_division : forall c p, modulus_ok c p -> forall x y, elem c p x -> valid c y -> 0 <= value y -> room c (Nat.max (size y) (size p) + 1) ->
  (Z.gcd (value y) (value p) = 1 -> exists r, fe_div_of c x y = Ok r /\ elem c p r /\ (value (fv r) * value y) mod value p = value (fv x)) /\
  (Z.gcd (value y) (value p) <> 1 -> fe_div_of c x y = Abort).
Proof. exact field_div_claim. Qed.
Print Assumptions C66_division.
(** C66: the six comparisons compare the representative with the integer; a zero that carries a minus sign counts as -1 against a word. *)
Theorem C66_comparisons : forall c p r x o, elem c p x -> operand_ok c o -> room c 2 -> fe_cmp c r x o = Ok (holds_rel r (seen (fv x) o) (operand_value (value (fv x)) o)).
Proof. exact field_cmp_claim. Qed.
Print Assumptions C66_comparisons.
(** C66: fp_is_valid of an integer of any type. *)
Theorem C66_is_valid : forall c p, modulus_ok c p -> forall o, operand_ok c o -> room c 2 -> exists b, fp_is_valid_of c o p = Ok b /\ (b = true <-> 0 <= operand_value (value p) o < value p).
Proof. exact valid_of_claim. Qed.
Print Assumptions C66_is_valid.
(** C66: fp_neg of an integer of any type: congruent to its negative, reduced exactly from 0 to p. *)
Theorem C66_negation : forall c p, modulus_ok c p -> forall o, operand_ok c o -> room c (size p + operand_size p o + 1) ->
  exists r, fp_neg_of c o p = Ok r /\ valid c r /\ value r = (if operand_value (value p) o =? 0 then 0 else value p - operand_value (value p) o) /\
    value r mod value p = (- operand_value (value p) o) mod value p /\ (0 <= value r < value p <-> 0 <= operand_value (value p) o <= value p).
Proof. exact neg_of_claim. Qed.
Print Assumptions C66_negation.
(** C66: assignment keeps the modulus; only assign with the check refuses a number that is not reduced. *)
Theorem C66_assignment : forall c p, modulus_ok c p -> forall x v, elem c p x -> valid c v ->
  fe_set x v = Ok (mkfe v (Some p)) /\ fe_assign x v true = (if (0 <=? value v) && (value v <? value p) then Ok (mkfe v (Some p)) else Abort) /\
  (elem c p (mkfe v (Some p)) <-> 0 <= value v < value p) /\ fe_value (mkfe v (Some p)) = v /\ fe_modulus x = Ok p.
Proof. exact assign_claim. Qed.
Print Assumptions C66_assignment.
(** C66: an element without a modulus, such as zero() or one(): an assignment is silently dropped, the operators dereference the null pointer. *)
Theorem C66_null_modulus_ub : forall c x v chk, fm x = None -> fe_assign x v chk = Ok x /\ fe_set x v = Ok x /\ fe_modulus x = Abort /\
  (forall s op o, match op with FTimes => operand_is_one (fv x) o = false \/ is_one (fv x) = true | _ => True end -> field_op c s op x o = UB).
Proof. exact null_claim. Qed.
Print Assumptions C66_null_modulus_ub.
(** C66: zero() and one() hold 0 and 1 and no modulus; an element made from a modulus holds 0. *)
Theorem C66_constants : forall c p, valid c p -> room c 1 -> valid c (fv (fe_zero c)) /\ value (fv (fe_zero c)) = 0 /\ fm (fe_zero c) = None /\ valid c (fv (fe_one c)) /\ value (fv (fe_one c)) = 1 /\ fm (fe_one c) = None /\
  value (fv (fe_of_modulus c p)) = 0 /\ fm (fe_of_modulus c p) = Some p.
Proof. exact constants_claim. Qed.
Print Assumptions C66_constants.
(** C66: the base class: is_negative and is_zero are right, is_one answers is_zero. *)
Theorem C66_base_members : forall c p, modulus_ok c p -> forall x, elem c p x -> fe_is_negative x = false /\ base_is_zero x = (value (fv x) =? 0) /\ base_is_one x = (value (fv x) =? 0).
Proof. exact base_claim. Qed.
Print Assumptions C66_base_members.
(** C66, refuted: that field_element::is_one tells whether the element is 1.  It calls is_zero (fe.hpp:82): through a reference to the base class the element 1 is not one, and 0 is. *)
Theorem C66_base_is_one_refuted : exists p x y, modulus_ok fx_c p /\ elem fx_c p x /\ elem fx_c p y /\ value (fv x) = 1 /\ base_is_one x = false /\ value (fv y) = 0 /\ base_is_one y = true.
Proof. exact base_one_refute. Qed.
Print Assumptions C66_base_is_one_refuted.
(** C66, refuted: that the operators give an element of the field for every operand of the allowed types: with p = 101, 77 + 500 is stored as 476, 77 - (-500) as 577, -3 * 77 as -29, 1 * 500 as 500. *)
Theorem C66_unreduced_refuted : exists p x y r1 r2 r3 r4, modulus_ok fx_c p /\ elem fx_c p x /\ elem fx_c p y /\
  field_op fx_c ElementLeft FPlus x (KWord 500) = Ok r1 /\ value (fv r1) = 476 /\ field_op fx_c ElementLeft FMinus x (KI64 (-500)) = Ok r2 /\ value (fv r2) = 577 /\
  field_op fx_c ElementRight FTimes x (KInt (-3)) = Ok r3 /\ value (fv r3) = -29 /\ field_op fx_c Assignment FTimes y (KU64 500) = Ok r4 /\ value (fv r4) = 500.
Proof. exact unreduced_refute. Qed.
Print Assumptions C66_unreduced_refuted.

Example C66_ex : modulus_ok fx_c (fx 101) /\ elem fx_c (fx 101) (fxe 77 101) /\ operand_ok fx_c (KU64 120) /\ room fx_c (size (fv (fxe 77 101)) + operand_size (fv (fxe 77 101)) (KU64 120) + 1) /\
  (exists r, field_op fx_c ElementLeft FPlus (fxe 77 101) (KU64 120) = Ok r /\ value (fv r) = 96) /\ in_range FPlus 101 77 120 /\
  (exists r, field_op fx_c Assignment FMinus (fxe 77 101) (KI64 120) = Ok r /\ value (fv r) = 58) /\
  (exists r, field_op fx_c ElementRight FTimes (fxe 77 101) (KWord (2 ^ 32 - 1)) = Ok r /\ value (fv r) = 77 * (2 ^ 32 - 1) mod 101) /\
  (exists r, fe_div_of fx_c (fxe 77 101) (fx 303) = Abort /\ fe_div_of fx_c (fxe 77 101) (fx 305) = Ok r /\ (value (fv r) * 305) mod 101 = 77) /\
  fe_cmp fx_c Gt (fxe 77 101) (KI64 (-3)) = Ok true /\ fp_is_valid_of fx_c (KU64 101) (fx 101) = Ok false /\
  (exists r, fp_neg_of fx_c (KWord 77) (fx 101) = Ok r /\ value r = 24).
Proof.
  split; [apply fx_mod; lia|]. split; [apply fx_elem; lia|]. split; [cbn; lia|]. split; [vm_compute; repeat constructor|].
  split; [eexists; split; vm_compute; reflexivity|]. split; [cbn; lia|]. split; [eexists; split; vm_compute; reflexivity|]. split; [eexists; split; vm_compute; reflexivity|].
  split; [eexists; split; [vm_compute; reflexivity|split; vm_compute; reflexivity]|]. split; [reflexivity|]. split; [reflexivity|]. eexists; split; vm_compute; reflexivity.
Qed.
Example C66_constants_ex : valid (Fixed 4) (of_int (Fixed 4) 7) /\ room (Fixed 4) 1 /\ value (fv (fe_one (Fixed 4))) = 1 /\ fe_add_big (Fixed 4) (fe_one (Fixed 4)) (of_int (Fixed 4) 2) = UB.
Proof. split; [apply (validb_ok (Fixed 4)); vm_compute; reflexivity|]. vm_compute. repeat split; auto. Qed.
