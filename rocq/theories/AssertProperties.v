(** C72: the arithmetic in builds with assertions enabled, at any capacity. *)
From Coq Require Import List ZArith Bool Lia PeanoNat.
From Verif Require Import Outcome WordsModel BigintModel BigintSpec BigintClaims NumModel JacobiSpec AssertModel AssertSpec AssertExact AssertLoops AssertPow AssertClaims.
Import ListNotations.
Open Scope Z_scope.

Definition ax_c : cap := Fixed 1.
Definition ax (m : Z) (s : bool) : bigint := mk [m] 1 s.
Definition ax2_c : cap := Fixed 2.
Definition ax2 (m : Z) (s : bool) : bigint := mk [m; 7] 1 s.
Ltac evs := first [apply validb_ok; reflexivity | cbn; lia | discriminate | exact I | reflexivity].

(** C72: every function of a debug build stops or does what the release build does. *)
Theorem C72_refines : forall c s a b z x y n w v i,
  below (d_add c z x y) (Ok (add c z x y)) /\ below (d_sub c z x y) (Ok (sub c z x y)) /\
  below (d_add1_signed c s z x w a) (Ok (add1_signed c s z x w a)) /\ below (d_adds1 c s z x w) (Ok (adds1 c s z x w)) /\ below (d_subs1 c s z x w) (Ok (subs1 c s z x w)) /\
  below (d_mul c a b z x y) (Ok (mul c a b z x y)) /\ below (d_mulu1 c z x w) (Ok (mulu1 c z x w)) /\ below (d_muls1 c z x w) (Ok (muls1 c z x w)) /\
  below (d_div_mod c (Some z) n x y) (div_mod c (Some z) n x y) /\ below (d_quot_rem c (Some z) n x y) (quot_rem c (Some z) n x y) /\
  below (d_divs1 c z x w) (divs1 c z x w) /\ below (d_mods1 c z x w) (mods1 z x w) /\ below (d_divu1 c z x w) (divu1 c z x w) /\ below (d_modu1 c z x w) (modu1 z x w) /\
  below (d_shl c z x w) (shl c z x w) /\ below (d_shr c z x w) (Ok (shr z x w)) /\ below (d_or_bit c z x y) (Ok (or_bit z x y)) /\ below (d_and_bit c z x y) (Ok (and_bit z x y)) /\
  below (d_set_bit c x i v) (set_bit c x i v) /\ below (d_bit_length x) (Ok (bit_length x)) /\ below (d_to_naf c x) (to_naf c x) /\
  below (d_pow c z x y) (pow c z x y) /\ below (d_modexp c z x y n) (modexp c z x y n) /\ below (d_modinv c z x y) (modinv c z x y) /\
  below (d_gcd c x y) (gcd c x y) /\ below (d_lcm c z x y) (lcm c z x y) /\ below (d_jacobi c x y) (jacobi c x y).
Proof. exact refines_claim. Qed.
Print Assumptions C72_refines.

(** C72: addition and subtraction are exact or stop, and stop exactly when magnitudes are added and the capacity has no room for a carry word. *)
Theorem C72_add : forall c z x y, valid c z -> valid c x -> valid c y ->
  exact_or_stop c (neg x = neg y -> room c (Nat.max (size x) (size y) + 1)) (value x + value y) (d_add c z x y).
Proof. exact add_debug_claim. Qed.
Print Assumptions C72_add.
Theorem C72_sub : forall c z x y, valid c z -> valid c x -> valid c y ->
  exact_or_stop c (neg x <> neg y -> room c (Nat.max (size x) (size y) + 1)) (value x - value y) (d_sub c z x y).
Proof. exact sub_debug_claim. Qed.
Print Assumptions C72_sub.
Example C72_add_ex : d_add ax_c (ax 0 false) (ax 4294967295 false) (ax 1 false) = Abort /\
  (exists r, d_sub ax_c (ax 0 false) (ax 4294967295 false) (ax 1 false) = Ok r /\ valid ax_c r /\ value r = 4294967294).
Proof.
  split; [apply (C72_add ax_c (ax 0 false) (ax 4294967295 false) (ax 1 false)); try evs; intros H; specialize (H eq_refl); cbn in H; lia|].
  apply (C72_sub ax_c (ax 0 false) (ax 4294967295 false) (ax 1 false)); evs.
Qed.

(** C72: the operations with a word. *)
Theorem C72_word : forall c same z x y, valid c z -> valid c x -> 0 <= y < 2 ^ 32 -> (same = true -> z = x) ->
  exact_or_stop c (neg x = false -> room c (size x + 1)) (value x + y) (d_addu1 c same z x y) /\
  exact_or_stop c (neg x = true -> room c (size x + 1)) (value x - y) (d_subu1 c same z x y) /\
  exact_or_stop c (room c (size x + 1)) (value x * y) (d_mulu1 c z x y).
Proof. exact word_claim. Qed.
Print Assumptions C72_word.
(** C72: the operations with an int; the smallest int is refused. *)
Theorem C72_int : forall c same z x y, valid c z -> valid c x -> - 2 ^ 31 <= y < 2 ^ 31 -> (same = true -> z = x) ->
  exact_or_stop c (y <> - 2 ^ 31 /\ (neg x = (y <? 0) -> room c (size x + 1))) (value x + y) (d_adds1 c same z x y) /\
  exact_or_stop c (y <> - 2 ^ 31 /\ (neg x = (0 <=? y) -> room c (size x + 1))) (value x - y) (d_subs1 c same z x y) /\
  exact_or_stop c (y <> - 2 ^ 31 /\ room c (size x + 1)) (value x * y) (d_muls1 c z x y).
Proof. exact int_claim. Qed.
Print Assumptions C72_int.
Theorem C72_compare : forall x y, d_compares1 x y = if y =? - 2 ^ 31 then Abort else Ok (compares1 x y).
Proof. exact compare_debug_claim. Qed.
Print Assumptions C72_compare.
Example C72_word_ex : (exists r, d_subu1 ax_c false (ax 0 false) (ax 5 false) 9 = Ok r /\ valid ax_c r /\ value r = - 4) /\
  d_mulu1 ax_c (ax 0 false) (ax 5 false) 2 = Abort /\ d_adds1 ax2_c false (ax2 0 false) (ax2 5 false) (- 2 ^ 31) = Abort.
Proof.
  destruct (C72_word ax_c false (ax 0 false) (ax 5 false) 9) as (_ & S & _); try evs.
  destruct (C72_word ax_c false (ax 0 false) (ax 5 false) 2) as (_ & _ & M); try evs.
  destruct (C72_int ax2_c false (ax2 0 false) (ax2 5 false) (- 2 ^ 31)) as (A & _); try evs.
  split; [apply S; intros H; discriminate H|]. split; [apply M; cbn; lia|]. apply A. intros [N _]. apply N. reflexivity.
Qed.

(** C72: multiplication, with the destination among its operands or not. *)
Theorem C72_mul : forall c sX sY z x y, valid c z -> valid c x -> valid c y -> (sX = true -> z = x) -> (sY = true -> z = y) ->
  (room c (size x + size y) -> exists r, d_mul c sX sY z x y = Ok (true, r) /\ valid c r /\ value r = value x * value y) /\
  (~ room c (size x + size y) -> d_mul c sX sY z x y = Abort).
Proof. exact mul_debug_claim. Qed.
Print Assumptions C72_mul.
Example C72_mul_ex : (exists r, d_mul ax2_c false false (ax2 0 false) (ax2 4294967295 false) (ax2 4294967295 true) = Ok (true, r) /\ valid ax2_c r /\ value r = - (4294967295 * 4294967295)) /\
  d_mul ax_c false false (ax 0 false) (ax 2 false) (ax 3 false) = Abort.
Proof.
  split; [apply (C72_mul ax2_c false false (ax2 0 false) (ax2 4294967295 false) (ax2 4294967295 true)); evs|].
  apply (C72_mul ax_c false false (ax 0 false) (ax 2 false) (ax 3 false)); evs.
Qed.

(** C72: division needs no room: it is exact for every divisor that is not zero. *)
Theorem C72_div : forall c q r x y, valid c q -> valid c r -> valid c x -> valid c y ->
  exact_or_stop c (value y <> 0) (Z.quot (value x) (value y)) (let* d := d_div_q c q x y in Ok (snd d)) /\
  exact_or_stop c (value y <> 0) (Z.rem (value x) (value y)) (let* d := d_mod_r c r x y in Ok (snd d)).
Proof. exact div_claim. Qed.
Print Assumptions C72_div.
Example C72_div_ex : exists r, (let* d := d_mod_r ax_c (ax 0 false) (ax 17 true) (ax 5 false) in Ok (snd d)) = Ok r /\ valid ax_c r /\ value r = - 2.
Proof. apply (C72_div ax_c (ax 0 false) (ax 0 false) (ax 17 true) (ax 5 false)); evs. Qed.
(** C72: the floor division. *)
Theorem C72_quot_rem : forall c q r x y, valid c q -> valid c r -> valid c x -> valid c y -> value y <> 0 ->
  (d_quot_rem c (Some q) r x y = Abort /\ ~ room c (size x + 1) /\ value x mod value y <> 0 /\ neg x <> neg y) \/
  exists q' r', d_quot_rem c (Some q) r x y = Ok (Some q', r') /\ valid c q' /\ valid c r' /\ value q' = value x / value y /\ value r' = value x mod value y.
Proof. exact quot_rem_debug_claim. Qed.
Print Assumptions C72_quot_rem.
Example C72_quot_rem_ex : exists q' r', d_quot_rem ax2_c (Some (ax2 0 false)) (ax2 0 false) (ax2 17 true) (ax2 5 false) = Ok (Some q', r') /\ value q' = - 4 /\ value r' = 3.
Proof.
  destruct (C72_quot_rem ax2_c (ax2 0 false) (ax2 0 false) (ax2 17 true) (ax2 5 false)) as [(_ & N & _)|(q & r & E & _ & _ & Q & R)]; try evs; [exfalso; cbn in N; lia|].
  exists q, r. split; [exact E|]. split; [exact Q|exact R].
Qed.
(** C72: division by an int and by a word. *)
Theorem C72_div_word : forall c q x y, valid c q -> valid c x ->
  (- 2 ^ 31 <= y < 2 ^ 31 -> exact_or_stop c (y <> 0 /\ y <> - 2 ^ 31) (Z.quot (value x) y) (d_divs1 c q x y) /\
                             exact_or_stop c (y <> 0 /\ y <> - 2 ^ 31) (Z.rem (value x) y) (d_mods1 c q x y)) /\
  (0 <= y < 2 ^ 32 -> exact_or_stop c (y <> 0 /\ neg x = false) (value x / y) (d_divu1 c q x y)).
Proof. exact div_word_claim. Qed.
Print Assumptions C72_div_word.
Example C72_div_word_ex : (exists r, d_divs1 ax_c (ax 0 false) (ax 17 true) 5 = Ok r /\ valid ax_c r /\ value r = - 3) /\ d_divu1 ax_c (ax 0 false) (ax 17 true) 5 = Abort.
Proof.
  destruct (C72_div_word ax_c (ax 0 false) (ax 17 true) 5) as (S & U); try evs. split.
  - apply S; [lia|split; discriminate].
  - apply U; [lia|]. intros [_ N]. discriminate N.
Qed.
(** C72: modu1 writes through a null pointer for every operand that is not negative, in debug builds too (bigint.hpp 1785-1790 and 1898-1909). *)
Theorem C72_mod_word_ub : forall c r x y, 0 < y -> d_modu1 c r x y = if neg x then Abort else UB.
Proof. exact d_modu1_ub. Qed.
Print Assumptions C72_mod_word_ub.
Example C72_mod_word_ex : d_modu1 ax_c (ax 0 false) (ax 17 false) 5 = UB.
Proof. rewrite C72_mod_word_ub by lia. reflexivity. Qed.

(** C72: assignment of an int, of an unsigned 64-bit and of a signed 64-bit number. *)
Theorem C72_assign : forall c z x, valid c z ->
  (- 2 ^ 31 <= x < 2 ^ 31 -> exact_or_stop c (x <> - 2 ^ 31) x (d_assign_int c z x)) /\
  (0 <= x < 2 ^ 64 -> exact_or_stop c (room c 2) x (d_assign_u64 c z x)) /\
  (- 2 ^ 63 <= x < 2 ^ 63 -> exact_or_stop c (x <> - 2 ^ 31 /\ room c 2) x (d_assign_i64 c z x)).
Proof. exact assign_claim. Qed.
Print Assumptions C72_assign.
(** C72, refuted: the assertion of the 64-bit assignment is meant to refuse the smallest number of its type but compares with the smallest int (bigint.hpp 1250):
    it refuses -2^31, which is representable, and accepts -2^63. *)
Theorem C72_int64_refuted : forall c z, valid c z -> room c 2 -> d_assign_i64 c z (- 2 ^ 31) = Abort /\
  exists r, d_assign_i64 c z (- 2 ^ 63) = Ok r /\ valid c r /\ value r = - 2 ^ 63.
Proof. exact int64_refute. Qed.
Print Assumptions C72_int64_refuted.
Example C72_assign_ex : d_assign_i64 ax2_c (ax2 0 false) (- 2 ^ 31) = Abort /\ d_assign_u64 ax_c (ax 0 false) 3 = Abort /\
  (exists r, d_assign_u64 ax2_c (ax2 0 false) (2 ^ 64 - 1) = Ok r /\ valid ax2_c r /\ value r = 2 ^ 64 - 1).
Proof.
  split; [apply (C72_int64_refuted ax2_c (ax2 0 false)); evs|]. destruct (C72_assign ax_c (ax 0 false) 3) as (_ & U1 & _); [evs|].
  destruct (C72_assign ax2_c (ax2 0 false) (2 ^ 64 - 1)) as (_ & U2 & _); [evs|].
  split; [apply U1; [lia|cbn; lia]|apply U2; [lia|cbn; lia]].
Qed.

(** C72: shifts; the right shift needs no room. *)
Theorem C72_shift : forall c z x n, valid c z -> valid c x -> 0 <= n ->
  exact_or_stop c (room c (size x + Z.to_nat ((n + 31) / 32))) (value x * 2 ^ n) (d_shl c z x n) /\
  exists r, d_shr c z x n = Ok r /\ valid c r /\ value r = Z.quot (value x) (2 ^ n).
Proof. exact shift_claim. Qed.
Print Assumptions C72_shift.
Example C72_shift_ex : d_shl ax_c (ax 0 false) (ax 1 false) 1 = Abort /\ (exists r, d_shl ax2_c (ax2 0 false) (ax2 3 true) 31 = Ok r /\ valid ax2_c r /\ value r = - 3 * 2 ^ 31).
Proof. split; [apply (C72_shift ax_c (ax 0 false) (ax 1 false) 1); evs|apply (C72_shift ax2_c (ax2 0 false) (ax2 3 true) 31); evs]. Qed.

(** C72: bitwise operations stop for a negative operand. *)
Theorem C72_bits : forall c z x y w, valid c z -> valid c x -> valid c y -> 0 <= w < 2 ^ 32 -> neg z = false ->
  exact_or_stop c (neg x = false /\ neg y = false) (Z.lor (value x) (value y)) (d_or_bit c z x y) /\
  exact_or_stop c (neg x = false /\ neg y = false) (Z.land (value x) (value y)) (d_and_bit c z x y) /\
  exact_or_stop c (neg x = false) (Z.lor (value x) w) (d_or_bitu1 x w) /\
  exact_or_stop c (neg x = false) (Z.land (value x) w) (d_and_bitu1 c z x w).
Proof. exact bits_claim. Qed.
Print Assumptions C72_bits.
(** C72: set_bit within the words of the object, and beyond them without room; with room it is what C16_set_bit_beyond_size_refuted says of the release build. *)
Theorem C72_set_bit : forall c x i v, valid c x -> 0 <= i ->
  (i < 32 * Z.of_nat (size x) -> exists r, d_set_bit c x i v = Ok r /\ valid c r /\
    (forall j, 0 <= j -> Z.testbit (Z.abs (value r)) j = if j =? i then v else Z.testbit (Z.abs (value x)) j) /\ (value r <> 0 -> neg r = neg x)) /\
  (32 * Z.of_nat (size x) <= i -> ~ room c (Z.to_nat (i / 32) + 1) -> d_set_bit c x i v = Abort) /\
  (32 * Z.of_nat (size x) <= i -> room c (Z.to_nat (i / 32) + 1) -> d_set_bit c x i v = set_bit c x i v).
Proof. exact d_set_bit_exact. Qed.
Print Assumptions C72_set_bit.
Example C72_bits_ex : (exists r, d_or_bit ax_c (ax 0 false) (ax 12 false) (ax 10 false) = Ok r /\ valid ax_c r /\ value r = 14) /\
  d_and_bit ax_c (ax 0 false) (ax 12 true) (ax 10 false) = Abort /\ d_set_bit ax_c (ax 5 false) 32 true = Abort.
Proof.
  split; [apply (C72_bits ax_c (ax 0 false) (ax 12 false) (ax 10 false) 0); try evs; split; reflexivity|].
  split; [apply (C72_bits ax_c (ax 0 false) (ax 12 true) (ax 10 false) 0); try evs; intros [N _]; discriminate N|].
  apply (C72_set_bit ax_c (ax 5 false) 32 true); evs.
Qed.

(** C72: gcd needs no room. *)
Theorem C72_gcd : forall c x y, valid c x -> valid c y -> exists r, d_gcd c x y = Ok r /\ valid c r /\ Z.abs (value r) = Z.gcd (value x) (value y).
Proof. exact gcd_debug_claim. Qed.
Print Assumptions C72_gcd.
(** C72: lcm stops in the case C20_lcm_refuted; in the others it is exact or stops for want of room. *)
Theorem C72_lcm : forall c z x y, valid c z -> valid c x -> valid c y -> value x <> 0 \/ value y <> 0 ->
  let g := Z.gcd (value x) (value y) in
  let own := 2 ^ 32 <= g /\ (Z.log2 g + 1) mod 32 = 0 /\ 2 ^ (Z.log2 g + 1) <= Z.abs (value x) in
  (own -> d_lcm c z x y = Abort) /\
  (~ own -> (d_lcm c z x y = Abort /\ ~ room c (size x + size y)) \/ exists r, d_lcm c z x y = Ok r /\ valid c r /\ Z.abs (value r) = Z.lcm (value x) (value y)).
Proof. exact d_lcm_exact. Qed.
Print Assumptions C72_lcm.
Example C72_gcd_ex : (exists r, d_gcd ax_c (ax 12 false) (ax 18 false) = Ok r /\ valid ax_c r /\ Z.abs (value r) = 6) /\
  (exists r, d_lcm ax2_c (ax2 0 false) (ax2 12 false) (ax2 18 false) = Ok r /\ valid ax2_c r /\ Z.abs (value r) = 36).
Proof.
  split; [apply (C72_gcd ax_c (ax 12 false) (ax 18 false)); evs|].
  destruct (C72_lcm ax2_c (ax2 0 false) (ax2 12 false) (ax2 18 false)) as (_ & H); try evs; [left; discriminate|].
  destruct H as [(_ & N)|H]; [intros (G & _); apply G; reflexivity|exfalso; cbn in N; lia|exact H].
Qed.
(** C72: jacobi needs no room and stops for an even second operand. *)
Theorem C72_jacobi : forall c m n, valid c m -> valid c n ->
  (Z.odd (value n) = true -> 0 < value n -> exists j, d_jacobi c m n = Ok j /\ jacobi_symbol (value m) (value n) j) /\
  (Z.odd (value n) = false -> d_jacobi c m n = Abort).
Proof. exact jacobi_debug_claim. Qed.
Print Assumptions C72_jacobi.
Example C72_jacobi_ex : (exists j, d_jacobi ax_c (ax 2 false) (ax 15 false) = Ok j /\ jacobi_symbol 2 15 j) /\ d_jacobi ax_c (ax 2 false) (ax 16 false) = Abort.
Proof. split; [apply (C72_jacobi ax_c (ax 2 false) (ax 15 false)); evs|apply (C72_jacobi ax_c (ax 2 false) (ax 16 false)); evs]. Qed.
(** C72: modinv, also when the capacity has no room for its intermediate results. *)
Theorem C72_modinv : forall c y x m, valid c y -> valid c x -> valid c m -> 0 < value x -> 1 < value m ->
  (d_modinv c y x m = Abort /\ ~ room c (Nat.max (size x) (size m) + 1)) \/ exists o, d_modinv c y x m = Ok o /\ inverse_of c (value x) (value m) o.
Proof. exact d_modinv_exact. Qed.
Print Assumptions C72_modinv.
Example C72_modinv_ex : exists o, d_modinv ax2_c (ax2 0 false) (ax2 3 false) (ax2 7 false) = Ok o /\ inverse_of ax2_c 3 7 o.
Proof. destruct (C72_modinv ax2_c (ax2 0 false) (ax2 3 false) (ax2 7 false)) as [(_ & N)|H]; try evs; [exfalso; cbn in N; lia|exact H]. Qed.
(** C72: pow. *)
Theorem C72_pow : forall c z x y, valid c z -> valid c x -> valid c y -> neg y = false ->
  (d_pow c z x y = Abort /\ exists n, ~ room c n) \/ exists r, d_pow c z x y = Ok (Some r) /\ valid c r /\ value r = value x ^ value y.
Proof. exact d_pow_exact. Qed.
Print Assumptions C72_pow.
(** C72: modexp, outside the cases C21_modexp_unreduced_base_refuted and C21_modexp_modulus_one_refuted. *)
Theorem C72_modexp : forall c z x y m, valid c z -> valid c x -> valid c y -> valid c m -> 0 <= value x -> neg y = false -> 0 < value m ->
  2 <= value y \/ (value x < value m /\ 1 < value m) ->
  (d_modexp c z x y m = Abort /\ ~ room c (2 * Nat.max (size x) (size m))) \/
  exists r, d_modexp c z x y m = Ok (Some r) /\ valid c r /\ value r = value x ^ value y mod value m.
Proof. exact d_modexp_exact. Qed.
Print Assumptions C72_modexp.
Example C72_modexp_ex : (exists r, d_modexp ax2_c (ax2 0 false) (ax2 3 false) (ax2 5 false) (ax2 7 false) = Ok (Some r) /\ valid ax2_c r /\ value r = 5) /\
  (exists r, d_pow (Flex 2) (zero (Flex 2)) (ax2 3 false) (ax2 5 false) = Ok (Some r) /\ valid (Flex 2) r /\ value r = 243).
Proof.
  split.
  - destruct (C72_modexp ax2_c (ax2 0 false) (ax2 3 false) (ax2 5 false) (ax2 7 false)) as [(_ & N)|H]; [evs|evs|evs|evs|evs|evs|evs|left; evs|exfalso; apply N; cbn; lia|exact H].
  - destruct (C72_pow (Flex 2) (zero (Flex 2)) (ax2 3 false) (ax2 5 false)) as [(_ & n & N)|H]; [evs|evs|evs|evs|exfalso; apply N; exact I|]. destruct H as (r & Er & V & Ev). exists r. split; [exact Er|]. split; [exact V|]. rewrite Ev. reflexivity.
Qed.
(** C72: the non-adjacent form. *)
Theorem C72_naf : forall c x, valid c x -> neg x = false ->
  (d_to_naf c x = Abort /\ ~ room c (size x + 1)) \/ exists l, d_to_naf c x = Ok l /\ is_naf l (value x).
Proof. exact d_to_naf_exact. Qed.
Print Assumptions C72_naf.
Example C72_naf_ex : exists l, d_to_naf ax2_c (ax2 7 false) = Ok l /\ is_naf l 7.
Proof. destruct (C72_naf ax2_c (ax2 7 false)) as [(_ & N)|H]; try evs; [exfalso; cbn in N; lia|exact H]. Qed.
