(** C19, C20, C22: gcd, lcm and modinv for operands of either sign; jacobi for an even second operand. *)
From Coq Require Import List ZArith Bool Lia PeanoNat.
From Verif Require Import Outcome WordsModel BigintModel BigintSpec BigintClaims NumModel NegInvSpec JacobiSpec NumSigned JacobiEven NumSignedClaims.
Import ListNotations.
Open Scope Z_scope.

Definition sx_c : cap := Fixed 4.
Definition sx (m : Z) (s : bool) : bigint := mk [m; 7; 7; 7] 1 s.
Ltac evs := first [apply validb_ok; reflexivity | cbn; lia | discriminate | exact I | reflexivity].

(** C20: for every sign the result of gcd has the greatest common divisor as its absolute value. *)
Theorem C20_gcd_any : forall c x y, valid c x -> valid c y ->
  exists r, gcd c x y = Ok r /\ valid c r /\ Z.abs (value r) = Z.gcd (value x) (value y).
Proof. exact gcd_any_claim. Qed.
Print Assumptions C20_gcd_any.
(** C20, refuted for negative operands: of two numbers that are not positive gcd always returns the negative of the greatest common divisor. *)
Theorem C20_gcd_negative_refuted : forall c x y, valid c x -> valid c y -> value x <= 0 -> value y <= 0 -> value x <> 0 \/ value y <> 0 ->
  exists r, gcd c x y = Ok r /\ valid c r /\ value r = - Z.gcd (value x) (value y) /\ value r < 0.
Proof. exact gcd_negative_refute. Qed.
Print Assumptions C20_gcd_negative_refuted.
Example C20_gcd_any_ex : (exists r, gcd sx_c (sx 12 true) (sx 18 true) = Ok r /\ valid sx_c r /\ value r = - 6 /\ value r < 0) /\
  (exists r, gcd sx_c (sx 12 true) (sx 18 false) = Ok r /\ value r = 6).
Proof.
  split; [apply (C20_gcd_negative_refuted sx_c (sx 12 true) (sx 18 true)); try evs; left; discriminate|].
  eexists. split; [vm_compute; reflexivity|reflexivity].
Qed.

(** C20: lcm for operands of any sign outside the case C20_lcm_refuted: its product with the result of gcd is the product of the operands. *)
Theorem C20_lcm_any : forall c z x y, valid c z -> valid c x -> valid c y -> (value x <> 0 \/ value y <> 0) -> room c (size x + size y) ->
  ~ (2 ^ 32 <= Z.gcd (value x) (value y) /\ (Z.log2 (Z.gcd (value x) (value y)) + 1) mod 32 = 0 /\
     2 ^ (Z.log2 (Z.gcd (value x) (value y)) + 1) <= Z.abs (value x)) ->
  exists r g, lcm c z x y = Ok r /\ gcd c x y = Ok g /\ valid c r /\ value g * value r = value x * value y /\ Z.abs (value r) = Z.lcm (value x) (value y).
Proof. exact lcm_any. Qed.
Print Assumptions C20_lcm_any.
(** C20, refuted for negative operands: of two negative numbers lcm returns the negative of the least common multiple. *)
Theorem C20_lcm_negative_refuted : forall c z x y, valid c z -> valid c x -> valid c y -> value x < 0 -> value y < 0 -> room c (size x + size y) ->
  ~ (2 ^ 32 <= Z.gcd (value x) (value y) /\ (Z.log2 (Z.gcd (value x) (value y)) + 1) mod 32 = 0 /\
     2 ^ (Z.log2 (Z.gcd (value x) (value y)) + 1) <= Z.abs (value x)) ->
  exists r, lcm c z x y = Ok r /\ valid c r /\ value r = - Z.lcm (value x) (value y).
Proof. exact lcm_nonpos. Qed.
Print Assumptions C20_lcm_negative_refuted.
Example C20_lcm_any_ex : exists r, lcm sx_c (sx 1 false) (sx 12 true) (sx 18 true) = Ok r /\ valid sx_c r /\ value r = - 36.
Proof. apply (C20_lcm_negative_refuted sx_c (sx 1 false) (sx 12 true) (sx 18 true)); try evs. intros (H & _). vm_compute in H. apply H. reflexivity. Qed.

(** C19: a positive number and a negative modulus: the inverse is found, in [0, -m), exactly when it exists and Euclid's algorithm on -m and x makes an odd number of divisions. *)
Theorem C19_negative_modulus : forall c y x m, valid c y -> valid c x -> valid c m -> 0 < value x -> value m < -1 ->
  room c (Nat.max (size x) (size m) + 1) ->
  exists o k, modinv c y x m = Ok o /\ divisions (- value m) (value x) k /\
  (Z.gcd (value x) (value m) = 1 -> Nat.even k = false ->
     exists r, o = Some r /\ valid c r /\ 0 <= value r < - value m /\ (value x * value r) mod (- value m) = 1) /\
  (Z.gcd (value x) (value m) <> 1 \/ Nat.even k = true -> o = None).
Proof. exact modinv_negm_claim. Qed.
Print Assumptions C19_negative_modulus.
(** C19, refuted: with number and modulus both negative modinv reports that there is no inverse, whether or not there is one. *)
Theorem C19_both_negative_refuted : forall c y x m, valid c x -> valid c m -> value x < 0 -> value m < 0 -> modinv c y x m = Ok None.
Proof. exact modinv_both_negative. Qed.
Print Assumptions C19_both_negative_refuted.
Example C19_signed_ex : (exists o k, modinv sx_c (sx 0 false) (sx 3 false) (sx 7 true) = Ok o /\ divisions 7 3 k /\
    (Z.gcd 3 (-7) = 1 -> Nat.even k = false -> exists r, o = Some r /\ valid sx_c r /\ 0 <= value r < 7 /\ (3 * value r) mod 7 = 1) /\
    (Z.gcd 3 (-7) <> 1 \/ Nat.even k = true -> o = None)) /\
  modinv sx_c (sx 0 false) (sx 3 true) (sx 7 true) = Ok None.
Proof.
  split; [apply (C19_negative_modulus sx_c (sx 0 false) (sx 3 false) (sx 7 true)); evs|].
  apply C19_both_negative_refuted; evs.
Qed.
Example C19_signed_values : (exists r, modinv sx_c (sx 0 false) (sx 4 false) (sx 7 true) = Ok (Some r) /\ value r = 2) /\
  modinv sx_c (sx 0 false) (sx 3 false) (sx 7 true) = Ok None.
Proof. split; [eexists; split; vm_compute; reflexivity|vm_compute; reflexivity]. Qed.

(** C22: for an even second operand, which is_odd at line 2376 excludes only when assertions are compiled in, jacobi returns the symbol of the operands exchanged: (n / m mod n). *)
Theorem C22_even : forall c m n, valid c m -> valid c n -> 0 < value n -> Z.even (value n) = true ->
  exists j, jacobi c m n = Ok j /\
  (Z.gcd (value m) (value n) <> 1 -> j = 0) /\ (Z.gcd (value m) (value n) = 1 -> jacobi_symbol (value n) (value m mod value n) j).
Proof. exact jacobi_even_claim. Qed.
Print Assumptions C22_even.
Example C22_even_ex : jacobi sx_c (sx 3 false) (sx 8 false) = Ok (-1) /\ jacobi sx_c (sx 7 false) (sx 8 false) = Ok 1 /\ jacobi sx_c (sx 6 false) (sx 8 false) = Ok 0.
Proof. repeat split; vm_compute; reflexivity. Qed.
