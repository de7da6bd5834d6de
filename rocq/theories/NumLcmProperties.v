(** C20: the operands for which lcm never returns. *)
From Coq Require Import List ZArith Bool Lia.
From Verif Require Import Outcome LoopModel WordsModel BigintModel BigintSpec BigintProofs BigintClaims NumModel NumFuelModel NumLcmHang.
Import ListNotations.
Open Scope Z_scope.

(** C20: lcm does not return, however many passes are allowed, whenever the gcd has at least two words with the top bit set and x has at least twice as many words: the whole divisor is cleared before the division, and zero is subtracted for ever. *)
Theorem C20_lcm_hangs_refuted : forall c z x y k, valid c x -> valid c y -> 0 <= value x -> 0 <= value y ->
  let g := Z.gcd (value x) (value y) in
  2 ^ 32 <= g -> (Z.log2 g + 1) mod 32 = 0 -> 2 ^ (2 * (Z.log2 g + 1) - 32) <= value x ->
  lcm_fuel k c z x y = NoFuel.
Proof. exact lcm_hangs. Qed.
Print Assumptions C20_lcm_hangs_refuted.
(** C20: [lcm_fuel] is [lcm] with its bound left open. *)
Theorem C20_lcm_bound : forall c z x y, lcm c z x y = lcm_fuel (33 * length (firstn (get_real_size (words x)) (words x)) + 1) c z x y.
Proof. exact lcm_fuel_eq. Qed.
Print Assumptions C20_lcm_bound.
(** lcm(2^103, 2^63), whose gcd is 2^63; with one more factor 2 in the second operand the result is exact *)
Definition hx_x : bigint := mk [0; 0; 0; 128] 4 false.
Definition hx_y : bigint := mk [0; 2147483648; 0; 0] 2 false.
Example C20_lcm_hangs_ex : value hx_x = 2 ^ 103 /\ value hx_y = 2 ^ 63 /\ (forall k, lcm_fuel k (Flex 4) (zero (Flex 4)) hx_x hx_y = NoFuel) /\
  exists r, lcm_fuel 20 (Flex 4) (zero (Flex 4)) hx_x (mk [0; 0; 1; 0] 3 false) = Ok r /\ value r = 2 ^ 103.
Proof.
  assert (V : valid (Flex 4) hx_x /\ valid (Flex 4) hx_y) by (split; apply validb_ok; reflexivity). split; [vm_compute; reflexivity|]. split; [vm_compute; reflexivity|]. split.
  - intros k. apply C20_lcm_hangs_refuted; [apply V|apply V|vm_compute; discriminate|vm_compute; discriminate|vm_compute; discriminate|vm_compute; reflexivity|vm_compute; discriminate].
  - eexists. split; vm_compute; reflexivity.
Qed.
