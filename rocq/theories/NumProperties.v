(** Property theorems C19-C21: modular inverse, gcd, lcm, powers. *)
From Coq Require Import List ZArith.
From Coq Require Lia.
From Verif Require Import Outcome WordsModel WordsSpec BigintModel BigintSpec BigintClaims NumModel NumLcm NumClaims.
Import ListNotations.
Open Scope Z_scope.

(** operands used by the examples: 2^64 + 3, 10, 12 in a 6-word buffer *)
Definition nx_c : cap := Fixed 6.
Definition nx_m : bigint := mk [3; 0; 1; 9; 9; 9] 3 false.
Definition nx_x : bigint := mk [10; 9; 9; 9; 9; 9] 1 false.
Definition nx_y : bigint := mk [12; 0; 0; 0; 0; 0] 1 false.
Definition val (o : outcome (option bigint)) : Z := match o with Ok (Some r) => value r | _ => -1 end.
Ltac ev := first [apply validb_ok; reflexivity | cbn; Lia.lia | discriminate | exact I | reflexivity].

(** C19: every positive x, reduced or not, and every modulus above one. *)
Theorem C19_modinv : forall c y x m,
  valid c y -> valid c x -> valid c m -> 0 < value x -> 1 < value m ->
  room c (Nat.max (size x) (size m) + 1) ->
  exists o, modinv c y x m = Ok o /\
  (Z.gcd (value x) (value m) = 1 ->
     exists r, o = Some r /\ valid c r /\ 0 <= value r < value m /\ (value x * value r) mod value m = 1) /\
  (Z.gcd (value x) (value m) <> 1 -> o = None).
Proof. exact modinv_claim. Qed.
Print Assumptions C19_modinv.
Example C19_ex : exists o, modinv nx_c nx_y nx_x nx_m = Ok o /\
  (Z.gcd 10 (2 ^ 64 + 3) = 1 -> exists r, o = Some r /\ valid nx_c r /\ 0 <= value r < 2 ^ 64 + 3 /\ (10 * value r) mod (2 ^ 64 + 3) = 1) /\
  (Z.gcd 10 (2 ^ 64 + 3) <> 1 -> o = None).
Proof. apply (C19_modinv nx_c nx_y nx_x nx_m); ev. Qed.
Example C19_ex_values : val (modinv nx_c nx_y nx_x nx_m) = 1844674407370955162 /\ modinv nx_c nx_y nx_x nx_y = Ok None.
Proof. split; vm_compute; reflexivity. Qed.
Theorem C19_unique : forall m x y z,
  1 < m -> 0 <= y < m -> 0 <= z < m -> (x * y) mod m = 1 -> (x * z) mod m = 1 -> y = z.
Proof. exact modinv_unique_claim. Qed.
Print Assumptions C19_unique.
Theorem C19_zero_has_no_inverse : forall c y x m,
  valid c y -> valid c x -> valid c m -> value x = 0 -> 1 < value m ->
  modinv c y x m = Ok None /\ op_modinv c x m = Abort.
Proof. exact modinv_zero_claim. Qed.
Print Assumptions C19_zero_has_no_inverse.
Theorem C19_zero_modulus_aborts : forall c y x m,
  valid c m -> value m = 0 -> modinv c y x m = Abort.
Proof. exact modinv_zero_modulus_claim. Qed.
Print Assumptions C19_zero_modulus_aborts.
Example C19_zero_ex : modinv nx_c nx_y (zero nx_c) nx_x = Ok None /\ modinv nx_c nx_y nx_x (zero nx_c) = Abort.
Proof. split; vm_compute; reflexivity. Qed.
(** Outside 0<x<m: modulo 1 the result is 1, not in range. *)
Theorem C19_modulus_one_refuted : exists x m r, produced (Flex 4) x /\ produced (Flex 4) m /\ value m = 1 /\
  modinv (Flex 4) (zero (Flex 4)) x m = Ok (Some r) /\ ~ (0 <= value r < value m).
Proof. exact modinv_one_refute. Qed.
Print Assumptions C19_modulus_one_refuted.

(** C20 *)
Theorem C20_gcd : forall c x y,
  valid c x -> valid c y -> 0 <= value x -> 0 <= value y ->
  exists r, gcd c x y = Ok r /\ valid c r /\ 0 <= value r /\
    (value r | value x) /\ (value r | value y) /\ (forall d, (d | value x) -> (d | value y) -> (d | value r)).
Proof. exact gcd_claim. Qed.
Print Assumptions C20_gcd.
Example C20_gcd_ex : exists r, gcd nx_c nx_y nx_x = Ok r /\ value r = 2. Proof. eexists. split; [vm_compute; reflexivity|reflexivity]. Qed.
(** The excluded case is a gcd of at least two words whose top bit is set, with x longer than it; there lcm is wrong, see C20_lcm_refuted.  lcm(0,0) is excluded too (it divides by zero and aborts). *)
Theorem C20_lcm_partial : forall c z x y,
  valid c z -> valid c x -> valid c y -> 0 <= value x -> 0 <= value y ->
  (value x <> 0 \/ value y <> 0) -> room c (size x + size y) ->
  ~ (2 ^ 32 <= Z.gcd (value x) (value y) /\ (Z.log2 (Z.gcd (value x) (value y)) + 1) mod 32 = 0 /\
     2 ^ (Z.log2 (Z.gcd (value x) (value y)) + 1) <= value x) ->
  exists r, lcm c z x y = Ok r /\ valid c r /\ 0 <= value r /\
    (value x | value r) /\ (value y | value r) /\ (forall k, (value x | k) -> (value y | k) -> (value r | k)).
Proof. exact lcm_claim. Qed.
Print Assumptions C20_lcm_partial.
Example C20_lcm_ex : exists r, lcm nx_c nx_m nx_y nx_x = Ok r /\ valid nx_c r /\ 0 <= value r /\
  (12 | value r) /\ (10 | value r) /\ (forall k, (12 | k) -> (10 | k) -> (value r | k)).
Proof.
  apply (C20_lcm_partial nx_c nx_m nx_y nx_x); try ev; [left; discriminate|]. intros (H & _). vm_compute in H. apply H. reflexivity.
Qed.
(** C20: lcm is wrong when the gcd has at least two words with the top bit set: the quotient x / gcd is written over the gcd while it is still the divisor. *)
Theorem C20_lcm_refuted : exists x y r, valid (Flex 4) x /\ valid (Flex 4) y /\ 0 < value x /\ 0 < value y /\
  lcm (Flex 4) (zero (Flex 4)) x y = Ok r /\ value r <> Z.lcm (value x) (value y).
Proof. exact lcm_refute. Qed.
Print Assumptions C20_lcm_refuted.

(** C21: bignum; any non-negative exponent object. *)
Theorem C21_pow : forall n z x y,
  valid (Flex n) z -> valid (Flex n) x -> valid (Flex n) y -> neg y = false ->
  exists r, pow (Flex n) z x y = Ok (Some r) /\ valid (Flex n) r /\ value r = value x ^ value y.
Proof. exact pow_claim. Qed.
Print Assumptions C21_pow.
Theorem C21_pow_int : forall n z x k,
  valid (Flex n) z -> valid (Flex n) x -> 0 <= k < 2 ^ 63 ->
  exists r, pow_i64 (Flex n) z x k = Ok (Some r) /\ valid (Flex n) r /\ value r = value x ^ k.
Proof. exact pow_i64_claim. Qed.
Print Assumptions C21_pow_int.
(** Fixed capacity: a reported success is exact. *)
Theorem C21_pow_sound : forall c z x y r,
  valid c z -> valid c x -> valid c y -> neg y = false ->
  pow c z x y = Ok (Some r) -> valid c r /\ value r = value x ^ value y.
Proof. exact pow_sound_claim. Qed.
Print Assumptions C21_pow_sound.
Theorem C21_pow_negative_fails : forall c z x y,
  neg y = true -> pow c z x y = Ok None.
Proof. exact pow_negative_claim. Qed.
Print Assumptions C21_pow_negative_fails.
Example C21_pow_ex : val (pow (Flex 6) nx_m nx_x nx_y) = 10 ^ 12 /\ val (pow_i64 (Flex 6) nx_m nx_x 4) = 10 ^ 4 /\
  val (pow_i64 (Flex 6) nx_m nx_x 37) = 10 ^ 37.
Proof. repeat split; vm_compute; reflexivity. Qed.
(** Exponents below two need a reduced base and a modulus above one. *)
Theorem C21_modexp : forall c z x y m,
  valid c z -> valid c x -> valid c y -> valid c m -> 0 <= value x -> neg y = false -> 0 < value m ->
  room c (2 * Nat.max (size x) (size m)) -> (2 <= value y \/ (value x < value m /\ 1 < value m)) ->
  exists r, modexp c z x y m = Ok (Some r) /\ valid c r /\ value r = value x ^ value y mod value m.
Proof. exact modexp_claim. Qed.
Print Assumptions C21_modexp.
Example C21_modexp_ex : exists r, modexp nx_c nx_y nx_x nx_m nx_m = Ok (Some r) /\ valid nx_c r /\ value r = 10 ^ (2 ^ 64 + 3) mod (2 ^ 64 + 3).
Proof. apply (C21_modexp nx_c nx_y nx_x nx_m nx_m); try ev. left. vm_compute. discriminate. Qed.
Example C21_modexp_ex_value : val (modexp nx_c nx_y nx_x nx_y nx_m) = 10 ^ 12. Proof. vm_compute. reflexivity. Qed.
Theorem C21_modexp_word : forall c z x w m,
  valid c z -> valid c x -> 0 <= w < 2 ^ 32 -> valid c m -> 0 <= value x -> 0 < value m ->
  room c (2 * Nat.max (size x) (size m)) -> (2 <= w \/ (value x < value m /\ 1 < value m)) ->
  exists r, modexp_word c z x w m = Ok (Some r) /\ valid c r /\ value r = value x ^ w mod value m.
Proof. exact modexp_word_claim. Qed.
Print Assumptions C21_modexp_word.
Example C21_modexp_word_ex : val (modexp_word nx_c nx_y nx_m 3 nx_x) = 9. Proof. vm_compute. reflexivity. Qed.
(** 10^1 mod 7 is returned as 10 *)
Theorem C21_modexp_unreduced_base_refuted : exists x y m r, produced (Flex 4) x /\ produced (Flex 4) y /\ produced (Flex 4) m /\
  value y = 1 /\ 0 < value m /\ modexp (Flex 4) (zero (Flex 4)) x y m = Ok (Some r) /\ value r <> value x ^ value y mod value m.
Proof. exact modexp_one_refute. Qed.
Print Assumptions C21_modexp_unreduced_base_refuted.
(** 10^0 mod 1 is returned as 1 *)
Theorem C21_modexp_modulus_one_refuted : exists x y m r, produced (Flex 4) x /\ produced (Flex 4) y /\ produced (Flex 4) m /\
  value y = 0 /\ value m = 1 /\ modexp (Flex 4) (zero (Flex 4)) x y m = Ok (Some r) /\ value r <> value x ^ value y mod value m.
Proof. exact modexp_zero_refute. Qed.
Print Assumptions C21_modexp_modulus_one_refuted.
