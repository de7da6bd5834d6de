(** Property C58: the word loops at the level of memory, with equal and overlapping operands. *)
From Coq Require Import List ZArith Bool Lia.
From Verif Require Import Outcome WordsModel WordsSpec WordsProofs RawModel RawSpec RawProofs RawClaims.
Import ListNotations.
Open Scope nat_scope.

(** Comparison reads the words from the top; it needs no condition on overlap, and writes nothing. *)
Theorem C58_compare : forall m x y n X Y, holds m x n X -> holds m y n Y ->
  cmp_ge_r m x y n = Ok (Y <=? X)%Z /\ cmp_r m x y n = Ok (Z.sgn (X - Y)).
Proof. exact compare_claim. Qed.
Print Assumptions C58_compare.

Theorem C58_real_size : forall m x n X, 0 < n -> holds m x n X ->
  exists k, real_size_r m x n = Ok k /\ 1 <= k <= n /\ holds m x k X /\ (1 < k -> (cap (k - 1) <= X)%Z).
Proof. exact real_size_claim. Qed.
Print Assumptions C58_real_size.

(** In place (z = x, z = y or both), or with z starting below an operand it overlaps. *)
Theorem C58_add : forall m z x y n X Y, holds m x n X -> holds m y n Y -> room m z n -> upward z x n -> upward z y n ->
  exists m', add_n_r m z x y n = Ok ((X + Y) / cap n, m')%Z /\ holds m' z n ((X + Y) mod cap n) /\ only m m' [(z, n)].
Proof. exact add_claim. Qed.
Print Assumptions C58_add.

Theorem C58_sub : forall m z x y n X Y, holds m x n X -> holds m y n Y -> room m z n -> upward z x n -> upward z y n ->
  exists m', sub_n_r m z x y n = Ok (if X <? Y then 1 else 0, m')%Z /\ holds m' z n ((X - Y) mod cap n) /\ only m m' [(z, n)].
Proof. exact sub_claim. Qed.
Print Assumptions C58_sub.

Theorem C58_mul_word : forall m z x n X w, holds m x n X -> (0 <= w < 2 ^ 32)%Z -> room m z n -> upward z x n ->
  exists m', mul_word_n_r m z x w n = Ok ((X * w) / cap n, m')%Z /\ holds m' z n ((X * w) mod cap n) /\ only m m' [(z, n)].
Proof. exact mul_word_claim. Qed.
Print Assumptions C58_mul_word.

Theorem C58_mul_word_add : forall m z x n X Z0 w, holds m x n X -> holds m z n Z0 -> (0 <= w < 2 ^ 32)%Z -> upward z x n ->
  exists m', mul_word_add_n_r m z x w n = Ok ((Z0 + X * w) / cap n, m')%Z /\ holds m' z n ((Z0 + X * w) mod cap n) /\ only m m' [(z, n)].
Proof. exact mul_word_add_claim. Qed.
Print Assumptions C58_mul_word_add.

Theorem C58_copy : forall m y x n X, holds m x n X -> room m y n -> upward y x n ->
  exists m', copy_n_r m y x n = Ok m' /\ holds m' y n X /\ only m m' [(y, n)].
Proof. exact copy_claim. Qed.
Print Assumptions C58_copy.

Theorem C58_clear : forall m x n, room m x n -> exists m', clear_n_r m x n = Ok m' /\ holds m' x n 0%Z /\ only m m' [(x, n)].
Proof. exact clear_claim. Qed.
Print Assumptions C58_clear.

(** The loop runs from the top down, so the destination may start above x. *)
Theorem C58_shl : forall m z x n X bit, 0 < n -> holds m x n X -> (0 < bit < 32)%Z -> room m z n -> downward z x n ->
  exists m', shl_n_r m z x bit n = Ok ((X * 2 ^ bit) / cap n, m')%Z /\ holds m' z n ((X * 2 ^ bit) mod cap n) /\ only m m' [(z, n)].
Proof. exact shl_claim. Qed.
Print Assumptions C58_shl.

Theorem C58_shr : forall m z x n X bit, 0 < n -> holds m x n X -> (0 < bit < 32)%Z -> room m z n -> upward z x n ->
  exists m', shr_n_r m z x bit n = Ok m' /\ holds m' z n (X / 2 ^ bit) /\ only m m' [(z, n)].
Proof. exact shr_claim. Qed.
Print Assumptions C58_shr.

(** The destination of the words is y + bit/32; y = x is always allowed (downward). *)
Theorem C58_shift_left : forall m y x n X bit, 0 < n -> holds m x n X -> (0 <= bit)%Z -> room m y (n + Z.to_nat ((bit + 31) / 32)) -> downward (at_ y (Z.to_nat (bit / 32))) x n ->
  let k := n + Z.to_nat ((bit + 31) / 32) in
  exists m', shift_left_r m y x bit n = Ok (k, m') /\ holds m' y k (X * 2 ^ bit)%Z /\ only m m' [(y, k)].
Proof. exact shift_left_claim. Qed.
Print Assumptions C58_shift_left.

(** y = x is always allowed (upward). *)
Theorem C58_shift_right : forall m y x n X bit, 0 < n -> holds m x n X -> (0 <= bit < 32 * Z.of_nat n)%Z -> room m y (n - Z.to_nat (bit / 32)) -> upward y (at_ x (Z.to_nat (bit / 32))) (n - Z.to_nat (bit / 32)) ->
  let k := n - Z.to_nat (bit / 32) in
  exists m', shift_right_r m y x bit n = Ok (k, m') /\ holds m' y k (X / 2 ^ bit)%Z /\ only m m' [(y, k)].
Proof. exact shift_right_claim. Qed.
Print Assumptions C58_shift_right.

Theorem C58_add_word : forall m y n Y w, 0 < n -> holds m y n Y -> (0 <= w < 2 ^ 32)%Z ->
  exists m', add_word_r m y n w = Ok ((Y + w) / cap n, m')%Z /\ holds m' y n ((Y + w) mod cap n) /\ only m m' [(y, n)].
Proof. exact add_word_claim. Qed.
Print Assumptions C58_add_word.

Theorem C58_sub_word : forall m y n Y w, 0 < n -> holds m y n Y -> (0 <= w < 2 ^ 32)%Z ->
  exists m', sub_word_r m y n w = Ok (if Y <? w then 1 else 0, m')%Z /\ holds m' y n ((Y - w) mod cap n) /\ only m m' [(y, n)].
Proof. exact sub_word_claim. Qed.
Print Assumptions C58_sub_word.

(** Quotient in place (q = x), or above x. *)
Theorem C58_div_word : forall m q x n X w, holds m x n X -> (0 < w < 2 ^ 32)%Z -> room m q n -> downward q x n ->
  exists m', div_word_r m q x n w = Ok (X mod w, m')%Z /\ holds m' q n (X / w) /\ only m m' [(q, n)].
Proof. exact div_word_claim. Qed.
Print Assumptions C58_div_word.

Theorem C58_mod_word : forall m x n X w, holds m x n X -> (0 < w < 2 ^ 32)%Z -> mod_word_r m x n w = Ok (X mod w)%Z.
Proof. exact mod_word_claim. Qed.
Print Assumptions C58_mod_word.

(** z may be x or y or both: the operands are copied first. *)
Theorem C58_mul_nm : forall junk m z x y xn yn X Y, 0 < xn -> 0 < yn -> holds m x xn X -> holds m y yn Y -> room m z (xn + yn) ->
  same_or_apart z (xn + yn) x xn -> same_or_apart z (xn + yn) y yn ->
  exists m', mul_nm_r junk m z x xn y yn = Ok (true, m') /\ holds m' z (xn + yn) (X * Y) /\ only m m' [(z, xn + yn)].
Proof. exact mul_claim. Qed.
Print Assumptions C58_mul_nm.

(** The quotient, the dividend and the divisor must not overlap; the local arrays have any contents. *)
Theorem C58_div : forall junk m q qn x xn y yn X Y, 0 < xn -> 0 < yn -> holds m x xn X -> holds m y yn Y -> (0 < Y)%Z -> (cap (yn - 1) <= Y)%Z ->
  room m q qn -> 1 <= qn -> xn - yn + 1 <= qn -> apart x xn y yn -> apart q qn x xn -> apart q qn y yn ->
  exists n m', div_r junk m (Some q) qn x xn y yn = Ok (n, m') /\ 1 <= n <= yn /\ holds m' q qn (X / Y) /\ holds m' x n (X mod Y) /\ only m m' [(q, qn); (x, xn)].
Proof. exact divq_claim. Qed.
Print Assumptions C58_div.

Theorem C58_div_no_quotient : forall junk m qn x xn y yn X Y, 0 < xn -> 0 < yn -> holds m x xn X -> holds m y yn Y -> (0 < Y)%Z -> (cap (yn - 1) <= Y)%Z ->
  1 <= qn -> xn - yn + 1 <= qn -> apart x xn y yn ->
  exists n m', div_r junk m None qn x xn y yn = Ok (n, m') /\ 1 <= n <= yn /\ holds m' x n (X mod Y) /\ only m m' [(x, xn)].
Proof. exact divr_claim. Qed.
Print Assumptions C58_div_no_quotient.

(** A divisor whose top word is 0 is caught by the assertions. *)
Theorem C58_div_zero : forall junk m q qn x xn y yn X Y, 0 < xn -> 0 < yn -> holds m x xn X -> holds m y yn Y -> room m q qn -> (Y = 0 \/ Y < cap (yn - 1))%Z ->
  div_r junk m (Some q) qn x xn y yn = Abort /\ div_r junk m None qn x xn y yn = Abort.
Proof. exact div_zero_claim. Qed.
Print Assumptions C58_div_zero.

(** The bodies of the signed operations' helpers, called with the destination equal to an operand. *)
Theorem C58_uadd : forall m z x y xn yn X Y, yn <= xn -> 0 < yn -> holds m x xn X -> holds m y yn Y -> room m z (S xn) ->
  same_or_apart z (S xn) x xn -> same_or_apart z (S xn) y yn ->
  exists m', uadd_r m z x xn y yn = Ok m' /\ holds m' z (S xn) (X + Y) /\ only m m' [(z, S xn)].
Proof. exact uadd_claim. Qed.
Print Assumptions C58_uadd.

Theorem C58_uadd1 : forall m z x n X w, 0 < n -> holds m x n X -> (0 <= w < 2 ^ 32)%Z -> room m z (S n) -> same_or_apart z (S n) x n ->
  exists m', uadd1_r m z x n w = Ok m' /\ holds m' z (S n) (X + w) /\ only m m' [(z, S n)].
Proof. exact uadd1_claim. Qed.
Print Assumptions C58_uadd1.

Theorem C58_usub : forall m z x y xn yn X Y, yn <= xn -> 0 < yn -> holds m x xn X -> holds m y yn Y -> (Y <= X)%Z -> room m z xn ->
  same_or_apart z xn x xn -> same_or_apart z xn y yn ->
  exists m', usub_r m z x xn y yn = Ok m' /\ holds m' z xn (X - Y) /\ only m m' [(z, xn)].
Proof. exact usub_claim. Qed.
Print Assumptions C58_usub.

Theorem C58_usub1 : forall m z x n X w, 0 < n -> holds m x n X -> (0 <= w < 2 ^ 32)%Z -> (w <= X)%Z -> room m z n -> same_or_apart z n x n ->
  exists m', usub1_r m z x n w = Ok m' /\ holds m' z n (X - w) /\ only m m' [(z, n)].
Proof. exact usub1_claim. Qed.
Print Assumptions C58_usub1.

Theorem C58_mulu1 : forall m z x n X w, holds m x n X -> (0 <= w < 2 ^ 32)%Z -> room m z (S n) -> upward z x n ->
  exists m', mulu1_r m z x w n = Ok m' /\ holds m' z (S n) (X * w) /\ only m m' [(z, S n)].
Proof. exact mulu1_claim. Qed.
Print Assumptions C58_mulu1.

(** The dividend is copied: q may overlap x in any way, but not y. *)
Theorem C58_udiv : forall junk m q qn x xn y yn X Y, 0 < yn -> yn <= xn -> holds m x xn X -> holds m y yn Y -> (0 < Y)%Z -> (cap (yn - 1) <= Y)%Z ->
  room m q qn -> qn = xn - yn + 1 -> apart q qn y yn ->
  exists rw m', udiv_r junk m (Some q) qn x xn y yn = Ok (rw, m') /\ all_words rw /\ 1 <= length rw <= yn /\ eval rw = (X mod Y)%Z /\ holds m' q qn (X / Y) /\ only m m' [(q, qn)].
Proof. exact udivq_claim. Qed.
Print Assumptions C58_udiv.

Theorem C58_udiv_no_quotient : forall junk m qn x xn y yn X Y, 0 < yn -> yn <= xn -> holds m x xn X -> holds m y yn Y -> (0 < Y)%Z -> (cap (yn - 1) <= Y)%Z -> qn = xn - yn + 1 ->
  exists rw, udiv_r junk m None qn x xn y yn = Ok (rw, m) /\ all_words rw /\ 1 <= length rw <= yn /\ eval rw = (X mod Y)%Z.
Proof. exact udivr_claim. Qed.
Print Assumptions C58_udiv_no_quotient.

(** The condition [upward] matters: copy_n to the next word fills the destination with the first word, as memmove would not (bigint.hpp:291-297). *)
Theorem C58_copy_overlap : forall m x n a ws, length ws = n -> reads m x (a :: ws) ->
  exists m', copy_n_r m (at_ x 1) x n = Ok m' /\ reads m' x (repeat a (S n)).
Proof. exact copy_overlap_claim. Qed.
Print Assumptions C58_copy_overlap.

(** ** Examples *)
(** one array: x = words 0-2, y = words 3-4, room for a quotient and more in words 5-9 *)
Definition ex_m : memory := [[5; 4294967295; 4294967295; 7; 4026531840; 1; 2; 3; 4; 9]%Z].
Definition ex_x : loc := (0, 0).
Definition ex_y : loc := (0, 3).
Definition ex_q : loc := (0, 5).
Definition ex_X : Z := (2 ^ 96 - 2 ^ 32 + 5)%Z.
Definition ex_Y : Z := (7 + 4026531840 * 2 ^ 32)%Z.
Definition ex_junk (i k : nat) : Z := 77%Z.
Ltac held ws := exists ws; split; [reflexivity|split; [unfold all_words; repeat (apply Forall_cons; [split; [discriminate|reflexivity]|]); apply Forall_nil|split; [let j := fresh "j" in let H := fresh "H" in intros j H; do 9 (destruct j; [first [reflexivity|exfalso; vm_compute in H; lia]|]); vm_compute in H; lia|reflexivity]]].
Ltac roomy := let j := fresh "j" in let H := fresh "H" in intros j H; do 9 (destruct j; [first [discriminate|exfalso; vm_compute in H; lia]|]); vm_compute in H; lia.
Ltac placed := unfold upward, downward, apart, same_or_apart, at_; cbn; lia.
Example ex_holds : holds ex_m ex_x 3 ex_X /\ holds ex_m ex_y 2 ex_Y.
Proof. split; [held [5; 4294967295; 4294967295]%Z|held [7; 4026531840]%Z]. Qed.
(** x + x written over x; x - x; x shifted in place by 37 bits into six words, over y *)
Example ex_add : exists m', add_n_r ex_m ex_x ex_x ex_x 3 = Ok (1%Z, m') /\ holds m' ex_x 3 ((ex_X + ex_X) mod cap 3) /\ only ex_m m' [(ex_x, 3)].
Proof. apply (C58_add ex_m ex_x ex_x ex_x 3 ex_X ex_X); [apply ex_holds|apply ex_holds|roomy|placed|placed]. Qed.
Example ex_sub : exists m', sub_n_r ex_m ex_x ex_x ex_x 3 = Ok (0%Z, m') /\ holds m' ex_x 3 ((ex_X - ex_X) mod cap 3) /\ only ex_m m' [(ex_x, 3)].
Proof. apply (C58_sub ex_m ex_x ex_x ex_x 3 ex_X ex_X); [apply ex_holds|apply ex_holds|roomy|placed|placed]. Qed.
Example ex_mul_word : exists m', mul_word_n_r ex_m ex_x ex_x 10 3 = Ok (9%Z, m') /\ holds m' ex_x 3 ((ex_X * 10) mod cap 3) /\ only ex_m m' [(ex_x, 3)].
Proof. apply (C58_mul_word ex_m ex_x ex_x 3 ex_X 10); [apply ex_holds|lia|roomy|placed]. Qed.
Example ex_mul_word_add : exists m', mul_word_add_n_r ex_m ex_x ex_x 10 3 = Ok (10%Z, m') /\ holds m' ex_x 3 ((ex_X + ex_X * 10) mod cap 3) /\ only ex_m m' [(ex_x, 3)].
Proof. apply (C58_mul_word_add ex_m ex_x ex_x 3 ex_X ex_X 10); [apply ex_holds|apply ex_holds|lia|placed]. Qed.
Example ex_copy : exists m', copy_n_r ex_m (0, 2) ex_y 2 = Ok m' /\ holds m' (0, 2) 2 ex_Y /\ only ex_m m' [((0, 2), 2)].
Proof. apply (C58_copy ex_m (0, 2) ex_y 2 ex_Y); [apply ex_holds|roomy|placed]. Qed.
Example ex_clear : exists m', clear_n_r ex_m ex_x 3 = Ok m' /\ holds m' ex_x 3 0%Z /\ only ex_m m' [(ex_x, 3)].
Proof. apply (C58_clear ex_m ex_x 3). roomy. Qed.
Example ex_shl : exists m', shl_n_r ex_m (0, 1) ex_x 5 3 = Ok (31%Z, m') /\ holds m' (0, 1) 3 ((ex_X * 2 ^ 5) mod cap 3) /\ only ex_m m' [((0, 1), 3)].
Proof. apply (C58_shl ex_m (0, 1) ex_x 3 ex_X 5); [lia|apply ex_holds|lia|roomy|placed]. Qed.
Example ex_shr : exists m', shr_n_r ex_m ex_x ex_x 5 3 = Ok m' /\ holds m' ex_x 3 (ex_X / 2 ^ 5) /\ only ex_m m' [(ex_x, 3)].
Proof. apply (C58_shr ex_m ex_x ex_x 3 ex_X 5); [lia|apply ex_holds|lia|roomy|placed]. Qed.
Example ex_shift_left : exists m', shift_left_r ex_m ex_x ex_x 37 3 = Ok (5, m') /\ holds m' ex_x 5 (ex_X * 2 ^ 37)%Z /\ only ex_m m' [(ex_x, 5)].
Proof. apply (C58_shift_left ex_m ex_x ex_x 3 ex_X 37); [lia|apply ex_holds|lia|roomy|placed]. Qed.
Example ex_shift_right : exists m', shift_right_r ex_m ex_x ex_x 37 3 = Ok (2, m') /\ holds m' ex_x 2 (ex_X / 2 ^ 37)%Z /\ only ex_m m' [(ex_x, 2)].
Proof. apply (C58_shift_right ex_m ex_x ex_x 3 ex_X 37); [lia|apply ex_holds|lia|roomy|placed]. Qed.
Example ex_compare : cmp_ge_r ex_m ex_y (0, 1) 2 = Ok false /\ cmp_r ex_m ex_y (0, 1) 2 = Ok (-1)%Z.
Proof. apply (C58_compare ex_m ex_y (0, 1) 2 ex_Y (2 ^ 64 - 1)); [apply ex_holds|held [4294967295; 4294967295]%Z]. Qed.
Example ex_real_size : exists k, real_size_r ex_m ex_x 3 = Ok k /\ 1 <= k <= 3 /\ holds ex_m ex_x k ex_X /\ (1 < k -> (cap (k - 1) <= ex_X)%Z).
Proof. apply (C58_real_size ex_m ex_x 3 ex_X); [lia|apply ex_holds]. Qed.
Example ex_add_word : exists m', add_word_r ex_m ex_x 3 4294967292 = Ok (1%Z, m') /\ holds m' ex_x 3 ((ex_X + 4294967292) mod cap 3) /\ only ex_m m' [(ex_x, 3)].
Proof. apply (C58_add_word ex_m ex_x 3 ex_X 4294967292); [lia|apply ex_holds|lia]. Qed.
Example ex_sub_word : exists m', sub_word_r ex_m ex_x 3 6 = Ok (0%Z, m') /\ holds m' ex_x 3 ((ex_X - 6) mod cap 3) /\ only ex_m m' [(ex_x, 3)].
Proof. apply (C58_sub_word ex_m ex_x 3 ex_X 6); [lia|apply ex_holds|lia]. Qed.
Example ex_div_word : exists m', div_word_r ex_m ex_x ex_x 3 10 = Ok (ex_X mod 10, m')%Z /\ holds m' ex_x 3 (ex_X / 10) /\ only ex_m m' [(ex_x, 3)].
Proof. apply (C58_div_word ex_m ex_x ex_x 3 ex_X 10); [apply ex_holds|lia|roomy|placed]. Qed.
Example ex_mod_word : mod_word_r ex_m ex_x 3 10 = Ok (ex_X mod 10)%Z.
Proof. apply (C58_mod_word ex_m ex_x 3 ex_X 10); [apply ex_holds|lia]. Qed.
(** x * x over x and everything behind it, with x read from its copies *)
Example ex_mul : exists m', mul_nm_r ex_junk ex_m ex_x ex_x 3 ex_x 3 = Ok (true, m') /\ holds m' ex_x 6 (ex_X * ex_X) /\ only ex_m m' [(ex_x, 6)].
Proof. apply (C58_mul_nm ex_junk ex_m ex_x ex_x ex_x 3 3 ex_X ex_X); try lia; [apply ex_holds|apply ex_holds|roomy|now left|now left]. Qed.
Example ex_div : exists n m', div_r ex_junk ex_m (Some ex_q) 4 ex_x 3 ex_y 2 = Ok (n, m') /\ 1 <= n <= 2 /\ holds m' ex_q 4 (ex_X / ex_Y) /\ holds m' ex_x n (ex_X mod ex_Y) /\ only ex_m m' [(ex_q, 4); (ex_x, 3)].
Proof. apply (C58_div ex_junk ex_m ex_q 4 ex_x 3 ex_y 2 ex_X ex_Y); try lia; try (apply ex_holds); try reflexivity; try discriminate; [roomy|placed|placed|placed]. Qed.
Example ex_div_none : exists n m', div_r ex_junk ex_m None 2 ex_x 3 ex_y 2 = Ok (n, m') /\ 1 <= n <= 2 /\ holds m' ex_x n (ex_X mod ex_Y) /\ only ex_m m' [(ex_x, 3)].
Proof. apply (C58_div_no_quotient ex_junk ex_m 2 ex_x 3 ex_y 2 ex_X ex_Y); try lia; try (apply ex_holds); try reflexivity; try discriminate. placed. Qed.
(** the two words above x: divisor with a leading zero *)
Example ex_zero : div_r ex_junk [[1; 2; 3; 4; 0; 0; 0]%Z] (Some (0, 5)) 2 (0, 0) 3 (0, 3) 2 = Abort /\ div_r ex_junk [[1; 2; 3; 4; 0; 0; 0]%Z] None 2 (0, 0) 3 (0, 3) 2 = Abort.
Proof.
  apply (C58_div_zero ex_junk [[1; 2; 3; 4; 0; 0; 0]%Z] (0, 5) 2 (0, 0) 3 (0, 3) 2 (1 + 2 ^ 32 * (2 + 2 ^ 32 * 3)) 4); try lia; [held [1; 2; 3]%Z|held [4; 0]%Z|roomy|right; reflexivity].
Qed.
Example ex_uadd : exists m', uadd_r ex_m ex_x ex_x 3 ex_x 2 = Ok m' /\ holds m' ex_x 4 (ex_X + (2 ^ 64 - 2 ^ 32 + 5)) /\ only ex_m m' [(ex_x, 4)].
Proof. apply (C58_uadd ex_m ex_x ex_x ex_x 3 2 ex_X (2 ^ 64 - 2 ^ 32 + 5)%Z); try lia; [apply ex_holds|held [5; 4294967295]%Z|roomy|now left|now left]. Qed.
Example ex_uadd1 : exists m', uadd1_r ex_m ex_x ex_x 3 4294967295 = Ok m' /\ holds m' ex_x 4 (ex_X + 4294967295) /\ only ex_m m' [(ex_x, 4)].
Proof. apply (C58_uadd1 ex_m ex_x ex_x 3 ex_X 4294967295); try lia; [apply ex_holds|roomy|now left]. Qed.
Example ex_usub : exists m', usub_r ex_m ex_x ex_x 3 ex_x 2 = Ok m' /\ holds m' ex_x 3 (ex_X - (2 ^ 64 - 2 ^ 32 + 5)) /\ only ex_m m' [(ex_x, 3)].
Proof. apply (C58_usub ex_m ex_x ex_x ex_x 3 2 ex_X (2 ^ 64 - 2 ^ 32 + 5)%Z); try lia; [apply ex_holds|held [5; 4294967295]%Z|discriminate|roomy|now left|now left]. Qed.
Example ex_usub1 : exists m', usub1_r ex_m ex_q ex_x 3 4294967295 = Ok m' /\ holds m' ex_q 3 (ex_X - 4294967295) /\ only ex_m m' [(ex_q, 3)].
Proof. apply (C58_usub1 ex_m ex_q ex_x 3 ex_X 4294967295); try lia; [apply ex_holds|discriminate|roomy|right; placed]. Qed.
Example ex_mulu1 : exists m', mulu1_r ex_m ex_x ex_x 4294967295 3 = Ok m' /\ holds m' ex_x 4 (ex_X * 4294967295) /\ only ex_m m' [(ex_x, 4)].
Proof. apply (C58_mulu1 ex_m ex_x ex_x 3 ex_X 4294967295); try lia; [apply ex_holds|roomy|placed]. Qed.
(** the quotient over the dividend, as in a /= b *)
Example ex_udiv : exists rw m', udiv_r ex_junk ex_m (Some ex_x) 2 ex_x 3 ex_y 2 = Ok (rw, m') /\ all_words rw /\ 1 <= length rw <= 2 /\ eval rw = (ex_X mod ex_Y)%Z /\ holds m' ex_x 2 (ex_X / ex_Y) /\ only ex_m m' [(ex_x, 2)].
Proof. apply (C58_udiv ex_junk ex_m ex_x 2 ex_x 3 ex_y 2 ex_X ex_Y); try lia; try (apply ex_holds); try reflexivity; try discriminate; [roomy|placed]. Qed.
Example ex_udiv_none : exists rw, udiv_r ex_junk ex_m None 2 ex_x 3 ex_y 2 = Ok (rw, ex_m) /\ all_words rw /\ 1 <= length rw <= 2 /\ eval rw = (ex_X mod ex_Y)%Z.
Proof. apply (C58_udiv_no_quotient ex_junk ex_m 2 ex_x 3 ex_y 2 ex_X ex_Y); try lia; try (apply ex_holds); try reflexivity; try discriminate. Qed.
Example ex_overlap : exists m', copy_n_r ex_m (0, 4) ex_y 3 = Ok m' /\ reads m' ex_y [7; 7; 7; 7]%Z.
Proof. apply (C58_copy_overlap ex_m ex_y 3 7 [4026531840; 1; 2]%Z); [reflexivity|]. intros j H. do 5 (destruct j; [first [reflexivity|exfalso; vm_compute in H; lia]|]). cbn in H. lia. Qed.
