(** C19 and C66: the modular inverse of negative numbers. *)
From Coq Require Import ZArith List Bool Lia PeanoNat.
From Verif Require Import Outcome WordsModel BigintModel BigintSpec BigintClaims NumModel FpModel FpSpec FpClaims OperatorModel OperatorSpec FieldOpModel FieldOpSpec NegInvSpec NegInvClaims.
Import ListNotations.
Open Scope Z_scope.

(** C19: a negative number: its inverse is found exactly when it exists and Euclid's algorithm on m and |x| makes an even number of divisions. *)
Theorem C19_negative : forall c y x m, valid c y -> valid c x -> valid c m -> value x < 0 -> 1 < value m ->
  room c (Nat.max (size x) (size m) + 1) ->
  exists o k, modinv c y x m = Ok o /\ divisions (value m) (- value x) k /\
  (Z.gcd (value x) (value m) = 1 -> Nat.even k = true ->
     exists r, o = Some r /\ valid c r /\ 0 <= value r < value m /\ (value x * value r) mod value m = 1) /\
  (Z.gcd (value x) (value m) <> 1 \/ Nat.even k = false -> o = None).
Proof. exact modinv_negative_claim. Qed.
Print Assumptions C19_negative.
(** C19: the number of divisions is well defined. *)
Theorem C19_divisions : forall a b, 0 <= b -> (exists k, divisions a b k) /\ (forall k k', divisions a b k -> divisions a b k' -> k = k').
Proof. exact divisions_claim. Qed.
Print Assumptions C19_divisions.
(** C19, refuted for negative numbers: modinv reports that -1, its own inverse, has no inverse, for every modulus, and the member function aborts. *)
Theorem C19_minus_one_refuted : forall c y x m, valid c y -> valid c x -> valid c m -> value x = -1 -> 1 < value m ->
  room c (Nat.max (size x) (size m) + 1) -> (value x * (value m - 1)) mod value m = 1 /\ modinv c y x m = Ok None /\ op_modinv c x m = Abort.
Proof. exact minus_one_claim. Qed.
Print Assumptions C19_minus_one_refuted.
(** C66: division of an element by a negative big integer. *)
Theorem C66_division_negative : forall c p, modulus_ok c p -> forall x y, elem c p x -> valid c y -> value y < 0 -> room c (Nat.max (size y) (size p) + 1) ->
  exists k, divisions (value p) (- value y) k /\
  (Z.gcd (value y) (value p) = 1 -> Nat.even k = true -> exists r, fe_div_of c x y = Ok r /\ elem c p r /\ (value (fv r) * value y) mod value p = value (fv x)) /\
  (Z.gcd (value y) (value p) <> 1 \/ Nat.even k = false -> fe_div_of c x y = Abort).
Proof. exact field_div_negative_claim. Qed.
Print Assumptions C66_division_negative.
(** C66: the inverse of an element whose stored number is negative. *)
Theorem C66_inverse_negative : forall c p, modulus_ok c p -> forall x, fm x = Some p -> valid c (fv x) -> value (fv x) < 0 -> room c (Nat.max (size (fv x)) (size p) + 1) ->
  exists k, divisions (value p) (- value (fv x)) k /\
  (Z.gcd (value (fv x)) (value p) = 1 -> Nat.even k = true -> exists r, fe_inv c x = Ok r /\ elem c p r /\ (value (fv x) * value (fv r)) mod value p = 1) /\
  (Z.gcd (value (fv x)) (value p) <> 1 \/ Nat.even k = false -> fe_inv c x = Abort).
Proof. exact inv_negative_claim. Qed.
Print Assumptions C66_inverse_negative.
(** C66, refuted: that an element made by multiplication with an integer can be inverted.  With p = 101, -3 * 77 is stored as -29 and inverse() aborts, as does division by -29; -2 * 77 is stored as -53, which is inverted correctly. *)
Theorem C66_negative_inverse_refuted : exists p x y r1 r2, modulus_ok fx_c p /\ elem fx_c p x /\
  field_op fx_c ElementRight FTimes x (KInt (-3)) = Ok r1 /\ value (fv r1) = -29 /\ Z.gcd (-29) (value p) = 1 /\ fe_inv fx_c r1 = Abort /\
  value y = -29 /\ fe_div_of fx_c x y = Abort /\
  field_op fx_c ElementRight FTimes x (KInt (-2)) = Ok r2 /\ value (fv r2) = -53 /\ (exists i, fe_inv fx_c r2 = Ok i /\ (-53 * value (fv i)) mod value p = 1).
Proof. exact negative_inverse_refute. Qed.
Print Assumptions C66_negative_inverse_refuted.

(** the operands of the theorems above, with 3, 6 and 2 divisions *)
Example C19_negative_ex : valid fx_c (fx (-29)) /\ valid fx_c (fx 101) /\ room fx_c (Nat.max (size (fx (-29))) (size (fx 101)) + 1) /\
  divisions 101 29 3 /\ modinv fx_c (fx 0) (fx (-29)) (fx 101) = Ok None /\
  divisions 101 53 6 /\ (exists r, modinv fx_c (fx 0) (fx (-53)) (fx 101) = Ok (Some r) /\ value r = 40) /\
  divisions 101 505 2 /\ modinv fx_c (fx 0) (fx (-505)) (fx 101) = Ok None /\
  modulus_ok fx_c (fx 101) /\ elem fx_c (fx 101) (fxe 77 101).
Proof.
  split; [apply validb_ok; reflexivity|]. split; [apply validb_ok; reflexivity|]. split; [vm_compute; repeat constructor|].
  split; [repeat (constructor; [reflexivity|]); apply D_end|]. split; [vm_compute; reflexivity|].
  split; [repeat (constructor; [reflexivity|]); apply D_end|]. split; [eexists; split; vm_compute; reflexivity|].
  split; [repeat (constructor; [reflexivity|]); apply D_end|]. split; [vm_compute; reflexivity|].
  split; [apply fx_mod; lia|apply fx_elem; lia].
Qed.
