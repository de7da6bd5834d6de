(** Property theorems C13-C18 and C23-C26: big integers.
    Objects are [valid] (every object programs can build is: C23_valid), [z] is the destination, which may be
    one of the operands; [room c n] says the capacity holds n words (always true for the growable bignum). *)
From Coq Require Import List ZArith.
From Coq Require Lia.
From Verif Require Import Outcome UtilsSpec WordsModel WordsSpec BigintModel BigintSpec BigintClaims.
Import ListNotations.
Open Scope Z_scope.

(** operands used by the examples: 2^64 + 3, - (2^33 + 1), 7 in a 4-word buffer with stale words above *)
Definition ex_c : cap := Fixed 4.
Definition ex_x : bigint := mk [3; 0; 1; 9] 3 false.
Definition ex_y : bigint := mk [1; 2; 8; 8] 2 true.
Definition ex_z : bigint := mk [7; 6; 5; 4] 1 false.
Example ex_valid : valid ex_c ex_x /\ valid ex_c ex_y /\ valid ex_c ex_z /\
  value ex_x = 2 ^ 64 + 3 /\ value ex_y = - (2 ^ 33 + 1) /\ value ex_z = 7.
Proof. do 3 (split; [apply validb_ok; reflexivity|]). repeat split. Qed.
Ltac ev := first [apply validb_ok; reflexivity | cbn; Lia.lia | discriminate | exact I | reflexivity].

(** C13: with one spare word beyond the larger operand the sum is exact, whatever the signs. *)
Theorem C13_add : forall c z x y,
  valid c z -> valid c x -> valid c y -> room c (Nat.max (size x) (size y) + 1) ->
  valid c (add c z x y) /\ value (add c z x y) = value x + value y.
Proof. exact add_claim. Qed.
Print Assumptions C13_add.
Example C13_add_ex : valid ex_c (add ex_c ex_x ex_x ex_y) /\ value (add ex_c ex_x ex_x ex_y) = 2 ^ 64 - 2 ^ 33 + 2.
Proof. apply (C13_add ex_c ex_x ex_x ex_y); ev. Qed.
Theorem C13_sub : forall c z x y,
  valid c z -> valid c x -> valid c y -> room c (Nat.max (size x) (size y) + 1) ->
  valid c (sub c z x y) /\ value (sub c z x y) = value x - value y.
Proof. exact sub_claim. Qed.
Print Assumptions C13_sub.
Example C13_sub_ex : valid ex_c (sub ex_c ex_z ex_x ex_y) /\ value (sub ex_c ex_z ex_x ex_y) = 2 ^ 64 + 2 ^ 33 + 4.
Proof. apply (C13_sub ex_c ex_z ex_x ex_y); ev. Qed.
(** Magnitudes that subtract never need a spare word. *)
Theorem C13_add_opposite_signs : forall c z x y,
  valid c z -> valid c x -> valid c y -> neg x <> neg y ->
  valid c (add c z x y) /\ value (add c z x y) = value x + value y.
Proof. exact add_opposite_claim. Qed.
Print Assumptions C13_add_opposite_signs.
Example C13_add_opposite_ex : value (add (Fixed 1) (mk [9] 1 false) (mk [9] 1 false) (mk [4] 1 true)) = 5.
Proof. apply (C13_add_opposite_signs (Fixed 1)); ev. Qed.
Theorem C13_sub_same_signs : forall c z x y,
  valid c z -> valid c x -> valid c y -> neg x = neg y ->
  valid c (sub c z x y) /\ value (sub c z x y) = value x - value y.
Proof. exact sub_same_claim. Qed.
Print Assumptions C13_sub_same_signs.
Example C13_sub_same_ex : value (sub (Fixed 1) (mk [9] 1 false) (mk [4] 1 true) (mk [9] 1 true)) = 5.
Proof. apply (C13_sub_same_signs (Fixed 1)); ev. Qed.
(** The results the six comparison operators test order the objects as integers (also for negative zero). *)
Theorem C13_compare : forall c x y,
  valid c x -> valid c y ->
  ((compare x y =? 0) = (value x =? value y)) /\ ((compare x y <? 0) = (value x <? value y)) /\
  ((compare x y <=? 0) = (value x <=? value y)) /\ ((compare x y >? 0) = (value x >? value y)) /\
  ((compare x y >=? 0) = (value x >=? value y)).
Proof. exact compare_claim. Qed.
Print Assumptions C13_compare.
Example C13_compare_ex : (compare ex_y ex_x <? 0) = true /\ compare ex_x ex_x = 0. Proof. split; reflexivity. Qed.

(** C14: [sX]/[sY] say that the destination is the object x / y. *)
Theorem C14_mul : forall c sX sY z x y,
  valid c z -> valid c x -> valid c y -> room c (size x + size y) ->
  (sX = true -> z = x) -> (sY = true -> z = y) ->
  exists r, mul c sX sY z x y = (true, r) /\ valid c r /\ value r = value x * value y.
Proof. exact mul_claim. Qed.
Print Assumptions C14_mul.
Example C14_mul_ex : exists r, mul (Fixed 5) true false (mk [3; 0; 1; 9; 9] 3 false) (mk [3; 0; 1; 9; 9] 3 false) (mk [1; 2; 0; 0; 0] 2 true) = (true, r) /\
  valid (Fixed 5) r /\ value r = - (2 ^ 64 + 3) * (2 ^ 33 + 1).
Proof. apply (C14_mul (Fixed 5) true false (mk [3; 0; 1; 9; 9] 3 false)); ev. Qed.
(** At any capacity a reported success is the exact product. *)
Theorem C14_mul_sound : forall c sX sY z x y r,
  valid c z -> valid c x -> valid c y ->
  (sX = true -> z = x) -> (sY = true -> z = y) ->
  mul c sX sY z x y = (true, r) -> valid c r /\ value r = value x * value y.
Proof. exact mul_sound_claim. Qed.
Print Assumptions C14_mul_sound.
Example C14_mul_sound_ex : exists r, mul (Fixed 4) false false ex_z ex_y ex_z = (true, r) /\ value r = -7 * (2 ^ 33 + 1).
Proof. eexists. split; reflexivity. Qed.
Theorem C14_mul_word : forall c z x w,
  valid c z -> valid c x -> 0 <= w < 2 ^ 32 -> room c (size x + 1) ->
  valid c (mulu1 c z x w) /\ value (mulu1 c z x w) = value x * w.
Proof. exact mulu1_claim. Qed.
Print Assumptions C14_mul_word.
Theorem C14_mul_int : forall c z x k,
  valid c z -> valid c x -> - 2 ^ 31 <= k < 2 ^ 31 -> room c (size x + 1) ->
  valid c (muls1 c z x k) /\ value (muls1 c z x k) = value x * k.
Proof. exact muls1_claim. Qed.
Print Assumptions C14_mul_int.
Example C14_small_ex : value (mulu1 ex_c ex_x ex_x 4294967295) = (2 ^ 64 + 3) * (2 ^ 32 - 1) /\
  value (muls1 ex_c ex_z ex_x (-2147483648)) = (2 ^ 64 + 3) * - 2 ^ 31.
Proof. split; [apply (C14_mul_word ex_c)|apply (C14_mul_int ex_c)]; ev. Qed.

(** C15: truncated division ([/], [%]); no capacity condition. *)
Theorem C15_div_mod : forall c q r x y,
  valid c q -> valid c r -> valid c x -> valid c y -> value y <> 0 ->
  exists q' r', div_mod c (Some q) r x y = Ok (true, Some q', r') /\ valid c q' /\ valid c r' /\
    value x = value q' * value y + value r' /\ Z.abs (value r') < Z.abs (value y) /\
    (value r' = 0 \/ Z.sgn (value r') = Z.sgn (value x)).
Proof. exact div_mod_claim. Qed.
Print Assumptions C15_div_mod.
Example C15_div_mod_ex : exists q r, div_mod ex_c (Some ex_x) ex_z ex_x ex_y = Ok (true, Some q, r) /\
  value q = - 2147483647 /\ value r = 6442450948.
Proof. do 2 eexists. split; [vm_compute; reflexivity|split; reflexivity]. Qed.
Theorem C15_div : forall c q x y,
  valid c q -> valid c x -> valid c y -> value y <> 0 ->
  exists q', div_q c q x y = Ok (true, q') /\ valid c q' /\ value q' = Z.quot (value x) (value y).
Proof. exact div_q_claim. Qed.
Print Assumptions C15_div.
Theorem C15_mod : forall c r x y,
  valid c r -> valid c x -> valid c y -> value y <> 0 ->
  exists r', mod_r c r x y = Ok (true, r') /\ valid c r' /\ value r' = Z.rem (value x) (value y).
Proof. exact mod_r_claim. Qed.
Print Assumptions C15_mod.
Example C15_div_ex : exists q, div_q ex_c ex_y ex_y ex_z = Ok (true, q) /\ valid ex_c q /\ value q = Z.quot (- (2 ^ 33 + 1)) 7.
Proof. apply (C15_div ex_c ex_y ex_y ex_z); ev. Qed.
Example C15_mod_ex : exists q, mod_r ex_c ex_y ex_y ex_z = Ok (true, q) /\ valid ex_c q /\ value q = Z.rem (- (2 ^ 33 + 1)) 7.
Proof. apply (C15_mod ex_c ex_y ex_y ex_z); ev. Qed.
(** Floored division: the remainder has the sign of the divisor. *)
Theorem C15_quot_rem : forall c q r x y,
  valid c q -> valid c r -> valid c x -> valid c y -> value y <> 0 -> room c (size x + 1) ->
  exists q' r', quot_rem c (Some q) r x y = Ok (Some q', r') /\ valid c q' /\ valid c r' /\
    value x = value q' * value y + value r' /\
    (0 <= value r' < value y \/ value y < value r' <= 0).
Proof. exact quot_rem_claim. Qed.
Print Assumptions C15_quot_rem.
Example C15_quot_rem_ex : exists q r, quot_rem ex_c (Some ex_x) ex_z ex_x ex_y = Ok (Some q, r) /\
  value q = - 2147483648 /\ value r = - 2147483645.
Proof. do 2 eexists. split; [vm_compute; reflexivity|split; reflexivity]. Qed.
Theorem C15_div_by_zero_aborts : forall c q r x y,
  valid c x -> valid c y -> value y = 0 ->
  div_mod c q r x y = Abort /\ quot_rem c q r x y = Abort.
Proof. exact div_zero_claim. Qed.
Print Assumptions C15_div_by_zero_aborts.
Theorem C15_div_by_word_zero_aborts : forall c q x,
  valid c x ->
  divs1 c q x 0 = Abort /\ mods1 q x 0 = Abort /\ divu1 c q x 0 = Abort.
Proof. exact div_word_zero_claim. Qed.
Print Assumptions C15_div_by_word_zero_aborts.
Example C15_zero_ex : div_mod ex_c (Some ex_z) ex_z ex_x (mk [0; 0; 0; 0] 1 true) = Abort.
Proof. apply (C15_div_by_zero_aborts ex_c); ev. Qed.

(** C16 *)
Theorem C16_shl : forall c z x n,
  valid c z -> valid c x -> 0 <= n -> room c (size x + Z.to_nat ((n + 31) / 32)) ->
  exists r, shl c z x n = Ok r /\ valid c r /\ value r = value x * 2 ^ n.
Proof. exact shl_claim. Qed.
Print Assumptions C16_shl.
Example C16_shl_ex : exists r, shl ex_c ex_y ex_y 37 = Ok r /\ valid ex_c r /\ value r = - (2 ^ 33 + 1) * 2 ^ 37.
Proof. apply (C16_shl ex_c ex_y ex_y 37); ev. Qed.
Theorem C16_shr : forall c z x n,
  valid c z -> valid c x -> 0 <= n ->
  valid c (shr z x n) /\ value (shr z x n) = Z.quot (value x) (2 ^ n).
Proof. exact shr_claim. Qed.
Print Assumptions C16_shr.
Example C16_shr_ex : value (shr ex_x ex_x 33) = 2 ^ 31 /\ value (shr ex_z ex_y 1) = - 2 ^ 32.
Proof. split; reflexivity. Qed.
Theorem C16_test_bit : forall c x i,
  valid c x -> 0 <= i -> test_bit x i = Z.testbit (Z.abs (value x)) i.
Proof. exact test_bit_claim. Qed.
Print Assumptions C16_test_bit.
Theorem C16_bit_length : forall c x,
  valid c x -> value x <> 0 ->
  2 ^ (bit_length x - 1) <= Z.abs (value x) < 2 ^ bit_length x.
Proof. exact bit_length_claim. Qed.
Print Assumptions C16_bit_length.
Theorem C16_bit_length_zero : forall c x,
  valid c x -> value x = 0 -> bit_length x = 1.
Proof. exact bit_length_zero_claim. Qed.
Print Assumptions C16_bit_length_zero.
Example C16_bits_ex : test_bit ex_x 64 = true /\ test_bit ex_x 96 = false /\ bit_length ex_x = 65 /\ bit_length (zero ex_c) = 1.
Proof. repeat split; reflexivity. Qed.
(** Setting a bit below the current word count changes exactly that bit. *)
Theorem C16_set_bit : forall c x i v,
  valid c x -> 0 <= i < 32 * Z.of_nat (size x) ->
  exists r, set_bit c x i v = Ok r /\ valid c r /\
    (forall j, 0 <= j -> Z.testbit (Z.abs (value r)) j = if j =? i then v else Z.testbit (Z.abs (value x)) j) /\
    (value r <> 0 -> neg r = neg x).
Proof. exact set_bit_claim. Qed.
Print Assumptions C16_set_bit.
Example C16_set_bit_ex : exists r, set_bit ex_c ex_y 1 true = Ok r /\ value r = - (2 ^ 33 + 3).
Proof. eexists. split; reflexivity. Qed.
(** Beyond the current word count set_bit exposes stale words: setting bit 33 of 1 gives another number. *)
Theorem C16_set_bit_beyond_size_refuted : exists x, produced (Fixed 4) x /\ value x = 1 /\
  exists r, set_bit (Fixed 4) x 33 true = Ok r /\ value r <> 1 + 2 ^ 33.
Proof. exact set_bit_refute. Qed.
Print Assumptions C16_set_bit_beyond_size_refuted.

(** C17 *)
Theorem C17_of_bytes : forall c d,
  all_bytes d -> room c (Nat.max 1 ((length d + 3) / 4)) ->
  exists r, of_bytes c d = Ok r /\ canonical c r /\ value r = be_value d.
Proof. exact of_bytes_claim. Qed.
Print Assumptions C17_of_bytes.
Example C17_of_bytes_ex : exists r, of_bytes ex_c [0; 0; 1; 2; 3; 4; 5] = Ok r /\ canonical ex_c r /\ value r = 4328719365.
Proof. apply (C17_of_bytes ex_c [0; 0; 1; 2; 3; 4; 5]); [repeat constructor; unfold is_byte; Lia.lia|ev]. Qed.
Theorem C17_of_bytes_too_long_aborts : forall c d,
  ~ room c ((length d + 3) / 4) -> of_bytes c d = Abort.
Proof. exact of_bytes_fail. Qed.
Print Assumptions C17_of_bytes_too_long_aborts.
Example C17_too_long_ex : of_bytes (Fixed 1) [0; 0; 0; 0; 1] = Abort. Proof. apply C17_of_bytes_too_long_aborts. cbn. Lia.lia. Qed.
Theorem C17_set_bytes : forall c z d,
  valid c z -> all_bytes d -> room c (Nat.max 1 ((length d + 3) / 4)) ->
  exists r r', set_bytes c z d = (true, r) /\ set_array_be c z d = (true, r') /\
    canonical c r /\ canonical c r' /\ value r = be_value d /\ value r' = be_value d.
Proof. exact set_bytes_claim. Qed.
Print Assumptions C17_set_bytes.
Example C17_set_bytes_ex : exists r, set_bytes ex_c ex_y [1; 0; 0; 0; 9] = (true, r) /\ value r = 2 ^ 32 + 9.
Proof. eexists. split; reflexivity. Qed.
(** The export is the minimal encoding: it has no leading zero byte to strip. *)
Theorem C17_to_bytes : forall c x,
  valid c x ->
  all_bytes (to_bytes x) /\ be_value (to_bytes x) = Z.abs (value x) /\ strip0 (to_bytes x) = to_bytes x.
Proof. exact to_bytes_claim. Qed.
Print Assumptions C17_to_bytes.
Theorem C17_bytes_roundtrip : forall c d r,
  all_bytes d -> room c 1 -> of_bytes c d = Ok r -> to_bytes r = strip0 d.
Proof. exact bytes_roundtrip_claim. Qed.
Print Assumptions C17_bytes_roundtrip.
Theorem C17_value_roundtrip : forall c x,
  valid c x -> 0 <= value x ->
  exists r, of_bytes c (to_bytes x) = Ok r /\ value r = value x.
Proof. exact value_bytes_roundtrip_claim. Qed.
Print Assumptions C17_value_roundtrip.
Example C17_to_bytes_ex : to_bytes ex_x = [1; 0; 0; 0; 0; 0; 0; 0; 3] /\ to_bytes (zero ex_c) = [0].
Proof. split; reflexivity. Qed.
Theorem C17_get_bytes : forall c x buf,
  valid c x ->
  (Z.of_nat (length buf) < byte_length x -> get_bytes x buf = None) /\
  (byte_length x <= Z.of_nat (length buf) ->
     get_bytes x buf = Some (to_bytes x ++ skipn (length (to_bytes x)) buf)) /\
  Z.of_nat (length (to_bytes x)) = byte_length x.
Proof. exact get_bytes_claim. Qed.
Print Assumptions C17_get_bytes.
Example C17_get_bytes_ex : get_bytes ex_z [8; 8; 8] = Some [7; 8; 8] /\ get_bytes ex_y [0; 0; 0; 0] = None.
Proof. split; reflexivity. Qed.

(** C18 *)
Theorem C18_naf : forall c x,
  valid c x -> neg x = false -> room c (size x + 1) ->
  exists l, to_naf c x = Ok l /\ to_rnaf c x = Ok (rev l) /\ is_naf l (value x).
Proof. exact naf_claim. Qed.
Print Assumptions C18_naf.
Example C18_naf_ex : exists l, to_naf ex_c ex_z = Ok l /\ to_rnaf ex_c ex_z = Ok (rev l) /\ is_naf l 7.
Proof. apply (C18_naf ex_c ex_z); ev. Qed.
Example C18_naf_digits : to_naf ex_c ex_z = Ok [-1; 0; 0; 1]. Proof. reflexivity. Qed.
Theorem C18_naf_unique : forall l,
  forall m v, is_naf l v -> is_naf m v -> l = m.
Proof. exact naf_unique. Qed.
Print Assumptions C18_naf_unique.
(** An operand filling its fixed capacity is recoded wrongly. *)
Theorem C18_naf_full_capacity_refuted : exists x l, produced (Fixed 1) x /\ value x = 2 ^ 32 - 1 /\ to_naf (Fixed 1) x = Ok l /\ naf_value l <> value x.
Proof. exact naf_full_refute. Qed.
Print Assumptions C18_naf_full_capacity_refuted.

(** C23: everything programs build, in any order of operations, in place or not, at any capacity and after any failure, is well formed. *)
Theorem C23_valid : forall c x,
  room c 1 -> produced c x -> valid c x.
Proof. exact produced_claim. Qed.
Print Assumptions C23_valid.
Example C23_valid_ex : produced ex_c (mulu1 ex_c (of_int ex_c (-5)) (of_int ex_c (-5)) 3) /\ room ex_c 1.
Proof. split; [apply P_mulu1; [apply P_int; reflexivity|apply P_int; reflexivity|Lia.lia]|ev]. Qed.
(** Operations that always give zero a non-negative sign. *)
Theorem C23_canonical_ops : forall c z x n w s,
  canonical c z -> valid c x -> 0 <= n -> 0 <= w < 2 ^ 32 ->
  canonical c (shr z x n) /\ canonical c (abs_op x) /\ canonical c (and_bitu1 z x w) /\
  (room c (size z + 1) -> canonical c (add1_signed c true z z w s)) /\
  (forall r, room c (size x + Z.to_nat ((n + 31) / 32)) -> shl c z x n = Ok r -> canonical c r) /\
  (room c (size x + 1) -> canonical c (mulu1 c z x w)).
Proof. exact canonical_ops_claim. Qed.
Print Assumptions C23_canonical_ops.
Example C23_canonical_ex : canonical ex_c (shr ex_z ex_y 40) /\ value (shr ex_z ex_y 40) = 0.
Proof. split; [|reflexivity]. refine (proj1 (C23_canonical_ops ex_c ex_z ex_y 40 0 true _ _ _ _)); try ev. split; [ev|discriminate]. Qed.
(** Zero can be negative: (-5) + 5. *)
Theorem C23_zero_sign_refuted : exists x, produced (Flex 4) x /\ value x = 0 /\ neg x = true.
Proof. exact negative_zero_refute. Qed.
Print Assumptions C23_zero_sign_refuted.
(** ... and that zero differs from the unsigned literal 0. *)
Theorem C23_negative_zero_unequal_refuted : exists x, produced (Flex 4) x /\ value x = 0 /\ compareu1 x 0 <> 0.
Proof. exact negative_zero_unequal_refute. Qed.
Print Assumptions C23_negative_zero_unequal_refuted.

(** C24 *)
Theorem C24_or : forall c z x y,
  valid c z -> valid c x -> valid c y -> 0 <= value x -> 0 <= value y -> neg z = false ->
  valid c (or_bit z x y) /\ value (or_bit z x y) = Z.lor (value x) (value y).
Proof. exact or_claim. Qed.
Print Assumptions C24_or.
Theorem C24_and : forall c z x y,
  valid c z -> valid c x -> valid c y -> 0 <= value x -> 0 <= value y -> neg z = false ->
  valid c (and_bit z x y) /\ value (and_bit z x y) = Z.land (value x) (value y).
Proof. exact and_claim. Qed.
Print Assumptions C24_and.
Theorem C24_or_word : forall c x w,
  valid c x -> 0 <= value x -> 0 <= w < 2 ^ 32 ->
  valid c (or_bitu1 x w) /\ (neg x = false -> value (or_bitu1 x w) = Z.lor (value x) w).
Proof. exact or1_claim. Qed.
Print Assumptions C24_or_word.
Theorem C24_and_word : forall c z x w,
  valid c z -> valid c x -> 0 <= value x -> 0 <= w < 2 ^ 32 ->
  canonical c (and_bitu1 z x w) /\ value (and_bitu1 z x w) = Z.land (value x) w.
Proof. exact and1_claim. Qed.
Print Assumptions C24_and_word.
Example C24_ex : value (or_bit ex_z ex_x ex_z) = 2 ^ 64 + 7 /\ value (and_bit ex_z ex_x ex_z) = 3 /\
  value (or_bitu1 ex_x 12) = 2 ^ 64 + 15 /\ value (and_bitu1 ex_z ex_x 2) = 2.
Proof. repeat split; reflexivity. Qed.

(** C25: at any capacity sums and differences are exact or cleared to zero because one more word was not available. *)
Theorem C25_add_sub_exact_or_zero : forall c z x y,
  valid c z -> valid c x -> valid c y ->
  (value (add c z x y) = value x + value y \/
   value (add c z x y) = 0 /\ can_resize c (Nat.max (size x) (size y) + 1) = false) /\
  (value (sub c z x y) = value x - value y \/
   value (sub c z x y) = 0 /\ can_resize c (Nat.max (size x) (size y) + 1) = false).
Proof. exact add_exact_or_zero. Qed.
Print Assumptions C25_add_sub_exact_or_zero.
Example C25_ex : value (add (Fixed 1) (mk [1] 1 false) (mk [1] 1 false) (mk [4294967295] 1 false)) = 0. Proof. reflexivity. Qed.
(** The growable representation always has room. *)
Theorem C25_flex_has_room : forall n m,
  room (Flex n) m.
Proof. exact capacity_flex_claim. Qed.
Print Assumptions C25_flex_has_room.
(** Silently wrong although the result fits: 1 + 2 in one word. *)
Theorem C25_add_refuted : exists x y, produced (Fixed 1) x /\ produced (Fixed 1) y /\
  0 <= value x + value y < 2 ^ 32 /\ value (op_add (Fixed 1) x y) <> value x + value y.
Proof. exact capacity_add_refute. Qed.
Print Assumptions C25_add_refuted.
(** 3 * 5 in one word. *)
Theorem C25_mul_refuted : exists x y, produced (Fixed 1) x /\ produced (Fixed 1) y /\
  0 <= value x * value y < 2 ^ 32 /\ value (op_mul (Fixed 1) x y) <> value x * value y.
Proof. exact capacity_mul_refute. Qed.
Print Assumptions C25_mul_refuted.
(** 3 << 1 in one word writes out of bounds. *)
Theorem C25_shl_refuted : exists x, produced (Fixed 1) x /\ 0 <= value x * 2 < 2 ^ 32 /\ op_shl (Fixed 1) x 1 = UB.
Proof. exact capacity_shl_refute. Qed.
Print Assumptions C25_shl_refuted.

(** C26: conversions *)
Theorem C26_of_int : forall c k,
  room c 1 -> Z.abs k < 2 ^ 32 -> canonical c (of_int c k) /\ value (of_int c k) = k.
Proof. exact of_int_value. Qed.
Print Assumptions C26_of_int.
Theorem C26_of_word : forall c w,
  room c 1 -> 0 <= w < 2 ^ 32 -> canonical c (of_word c w) /\ value (of_word c w) = w.
Proof. exact of_word_value. Qed.
Print Assumptions C26_of_word.
Theorem C26_of_64 : forall c w,
  room c 2 ->
  (0 <= w < 2 ^ 64 -> exists r, of_u64 c w = Ok r /\ canonical c r /\ value r = w) /\
  (- 2 ^ 63 <= w < 2 ^ 63 -> exists r, of_i64 c w = Ok r /\ canonical c r /\ value r = w).
Proof. exact of_64_value. Qed.
Print Assumptions C26_of_64.
(** signed machine integers, including the minimum *)
Theorem C26_signed : forall c same z x k,
  valid c z -> valid c x -> - 2 ^ 31 <= k < 2 ^ 31 -> room c (size x + 1) -> (same = true -> z = x) ->
  value (adds1 c same z x k) = value (op_add c x (of_int c k)) /\
  value (subs1 c same z x k) = value (op_sub c x (of_int c k)) /\
  value (muls1 c z x k) = value x * k /\
  cmp_result (compares1 x k) (value x) k /\
  (k <> 0 -> (exists q, divs1 c z x k = Ok q /\ value q = Z.quot (value x) k) /\
             (exists r, mods1 z x k = Ok r /\ value r = Z.rem (value x) k)).
Proof. exact signed_ops_claim. Qed.
Print Assumptions C26_signed.
Example C26_signed_ex : value (subs1 ex_c true ex_x ex_x (-2147483648)) = value (op_sub ex_c ex_x (of_int ex_c (-2147483648))) /\
  value (subs1 ex_c true ex_x ex_x (-2147483648)) = 2 ^ 64 + 2 ^ 31 + 3.
Proof. split; [|reflexivity]. apply (C26_signed ex_c true ex_x ex_x (-2147483648)); ev. Qed.
(** unsigned words; division of non-negative numbers only *)
Theorem C26_unsigned : forall c same z x w,
  valid c z -> valid c x -> 0 <= w < 2 ^ 32 -> room c (size x + 1) -> (same = true -> z = x) ->
  value (addu1 c same z x w) = value x + w /\
  value (subu1 c same z x w) = value x - w /\
  value (mulu1 c z x w) = value x * w /\
  ((value x = 0 -> neg x = false) -> cmp_result (compareu1 x w) (value x) w) /\
  (w <> 0 -> 0 <= value x -> exists q, divu1 c z x w = Ok q /\ value q = Z.quot (value x) w).
Proof. exact unsigned_ops_claim. Qed.
Print Assumptions C26_unsigned.
Example C26_unsigned_ex : value (subu1 ex_c false ex_z ex_y 4294967295) = - (2 ^ 33 + 2 ^ 32) /\
  exists q, divu1 ex_c ex_z ex_x 10 = Ok q /\ value q = 1844674407370955161.
Proof. split; [reflexivity|]. eexists. split; [vm_compute; reflexivity|reflexivity]. Qed.
(** -7 / 2u is 3 *)
Theorem C26_div_word_negative_refuted : exists x q, produced (Flex 4) x /\ divu1 (Flex 4) (zero (Flex 4)) x 2 = Ok q /\
  value q <> Z.quot (value x) 2 /\ value q <> value x / 2.
Proof. exact divu1_negative_refute. Qed.
Print Assumptions C26_div_word_negative_refuted.
(** x % word dereferences a null quotient pointer for every x *)
Theorem C26_mod_word_refuted : forall r x w,
  0 < w -> modu1 r x w = UB.
Proof. exact modu1_refute. Qed.
Print Assumptions C26_mod_word_refuted.
