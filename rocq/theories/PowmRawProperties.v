(** Property C61: the word routines of c/powm.h and the whole exponentiation at the level of memory. *)
From Coq Require Import List ZArith Bool Lia.
From Verif Require Import Outcome UtilsSpec RsaModel RsaSpec WordsModel WordsSpec PowmSpec RawModel RawSpec PowmRawModel PowmRawSpec PowmRawMain PowmRawClaims.
Import ListNotations.
Open Scope Z_scope.

(** Conditional addition: the words are replaced only if ctl is 1, the carry is returned in either case;
    b may be a itself, or overlap it from above. *)
Theorem C61_add : forall m a b h ctl X Y, 0 < h -> h + 63 < 2 ^ 32 -> i32_at m a h (words_for h) X -> i32_at m b h (words_for h) Y -> upward a b (words_for h) ->
  exists m' c, br_i32_add_r m a b (if ctl : bool then 1 else 0) = Ok (c, m') /\ only m m' [(RawModel.at_ a 1, words_for h)] /\
    c = (X + Y) / cap (words_for h) /\ holds m' (RawModel.at_ a 1) (words_for h) (if ctl then (X + Y) mod cap (words_for h) else X).
Proof. exact add_memory. Qed.
Print Assumptions C61_add.

Theorem C61_sub : forall m a b h ctl X Y, 0 < h -> h + 63 < 2 ^ 32 -> i32_at m a h (words_for h) X -> i32_at m b h (words_for h) Y -> upward a b (words_for h) ->
  exists m' c, br_i32_sub_r m a b (if ctl : bool then 1 else 0) = Ok (c, m') /\ only m m' [(RawModel.at_ a 1, words_for h)] /\
    c = (if X <? Y then 1 else 0) /\ holds m' (RawModel.at_ a 1) (words_for h) (if ctl then (X - Y) mod cap (words_for h) else X).
Proof. exact sub_memory. Qed.
Print Assumptions C61_sub.

(** x := (x 2^32 + z) mod n, in place. *)
Theorem C61_muladd : forall m x n h X N z, has_bits N h -> h + 63 < 2 ^ 32 -> 0 <= z < 2 ^ 32 -> i32_at m x h (words_for h) X -> X < N -> i32_at m n h (words_for h) N -> apart x (S (words_for h)) n (S (words_for h)) ->
  exists m', br_i32_muladd_small_r m x z n = Ok m' /\ only m m' [(RawModel.at_ x 1, words_for h)] /\ i32_at m' x h (words_for h) ((X * 2 ^ 32 + z) mod N).
Proof. exact muladd_claim. Qed.
Print Assumptions C61_muladd.

(** x := a mod n; the old contents of x do not matter. *)
Theorem C61_reduce : forall m x a n h ah A N, has_bits N h -> h + 63 < 2 ^ 32 -> 0 <= ah -> ah + 31 < 2 ^ 32 -> A < 2 ^ ah -> room m x (S (words_for h)) -> i32_at m a ah (words_for ah) A -> i32_at m n h (words_for h) N ->
  apart x (S (words_for h)) n (S (words_for h)) -> apart x (S (words_for h)) a (S (words_for ah)) ->
  exists m', br_i32_reduce_r m x a n = Ok m' /\ only m m' [(x, S (words_for h))] /\ i32_at m' x h (words_for h) (A mod N).
Proof. exact reduce_claim. Qed.
Print Assumptions C61_reduce.

Theorem C61_compare : forall m key num N X, holds m (r_modulus key) (r_len key) N -> holds m num (r_len key) X -> greater_equal_modulus_r m key num = Ok (N <=? X).
Proof. exact ge_claim. Qed.
Print Assumptions C61_compare.

Theorem C61_subtract : forall m key num N X, holds m (r_modulus key) (r_len key) N -> holds m num (r_len key) X -> apart num (r_len key) (r_modulus key) (r_len key) ->
  exists m', subtract_modulus_r m key num = Ok m' /\ only m m' [(num, r_len key)] /\ holds m' num (r_len key) ((X - N) mod cap (r_len key)).
Proof. exact subtract_claim. Qed.
Print Assumptions C61_subtract.

(** Montgomery multiplication into a result that overlaps neither factor (a and b may be the same array). *)
Theorem C61_montgomery : forall m key result a b N X Y, holds m (r_modulus key) (r_len key) N -> Z.odd N = true -> mont_const N (r_n0inv key) -> holds m a (r_len key) X -> holds m b (r_len key) Y -> room m result (r_len key) ->
  apart result (r_len key) a (r_len key) -> apart result (r_len key) b (r_len key) -> apart result (r_len key) (r_modulus key) (r_len key) ->
  exists m' v, montgomery_mul_r m key result a b = Ok m' /\ only m m' [(result, r_len key)] /\ holds m' result (r_len key) v /\ (v * cap (r_len key)) mod N = (X * Y) mod N /\ (Y < N -> v < Y + N).
Proof. exact mont_claim. Qed.
Print Assumptions C61_montgomery.

(** The exponentiation: only the caller's buffer changes, and its bytes are the power.  The buffer, the
    modulus and R^2 may overlap in any way: the work is done in local arrays. *)
Theorem C61_pow_mod : forall junk m key inout N RR bs, (0 < r_len key)%nat -> holds m (r_modulus key) (r_len key) N -> Z.odd N = true -> mont_const N (r_n0inv key) ->
  holds m (r_rr key) (r_len key) RR -> RR mod N = (cap (r_len key) * cap (r_len key)) mod N -> Z.odd (r_exponent key) = true -> 3 <= r_exponent key < 2 ^ 64 ->
  bytes_at m inout bs -> length bs = (4 * r_len key)%nat ->
  exists m' v, pow_mod_r junk m key inout = Ok (true, m') /\ only m m' [(inout, r_len key)] /\ bytes_at m' inout (I2OSP v (4 * r_len key)) /\ 0 <= v < cap (r_len key) /\
    v mod N = OS2IP bs ^ effective (r_exponent key) mod N /\ (OS2IP bs < N \/ cap (r_len key) <= 2 * N -> v = OS2IP bs ^ effective (r_exponent key) mod N).
Proof. exact pow_mod_memory. Qed.
Print Assumptions C61_pow_mod.

(** An even exponent or one below 3 is refused and nothing is written. *)
Theorem C61_refuses : forall junk m key inout N RR bs, (0 < r_len key)%nat -> holds m (r_modulus key) (r_len key) N -> holds m (r_rr key) (r_len key) RR -> bytes_at m inout bs -> length bs = (4 * r_len key)%nat ->
  0 <= r_exponent key < 2 ^ 64 -> (Z.even (r_exponent key) = true \/ r_exponent key < 3) -> pow_mod_r junk m key inout = Ok (false, m).
Proof. exact refuses_claim. Qed.
Print Assumptions C61_refuses.

(** montgomery_mul does not work in place: it clears its result before it reads the factors, so with the
    result over either factor the outcome is 0 for all operands.  Its comment states no such restriction
    (no caller in this file passes such arguments). *)
Theorem C61_in_place_refuted : forall m key result a b, (0 < r_len key)%nat -> room m (r_modulus key) (r_len key) -> room m a (r_len key) -> room m b (r_len key) -> result = a \/ result = b ->
  exists m', montgomery_mul_r m key result a b = Ok m' /\ only m m' [(result, r_len key)] /\ holds m' result (r_len key) 0.
Proof. exact mont_alias. Qed.
Print Assumptions C61_in_place_refuted.

(** Reduction in place (x = a, which its comment forbids): memcpy of overlapping words for every modulus of more
    than 64 bits and every number of the same announced length. *)
Theorem C61_reduce_in_place_ub : forall m a n h N A, has_bits N h -> h + 63 < 2 ^ 32 -> 64 < h -> i32_at m a h (words_for h) A -> i32_at m n h (words_for h) N -> br_i32_reduce_r m a a n = UB.
Proof. exact reduce_alias. Qed.
Print Assumptions C61_reduce_in_place_ub.

(** ** Examples *)
(** 0: N = 2^64 - 59, announced length 64; 1: X = 5 2^32 + 7 likewise; 2: room; 3: A of 96 bits; 4: the bytes of X, big endian; 5: R^2 mod N *)
Definition ex_m : memory := [[64; 4294967237; 4294967295]; [64; 7; 5]; [9; 9; 9; 9]; [96; 1; 2; 2147483648]; [83886080; 117440512]; [3481; 0]].
Definition ex_N := 2 ^ 64 - 59.
Definition ex_X := 7 + 2 ^ 32 * 5.
Definition ex_A := 1 + 2 ^ 32 * (2 + 2 ^ 32 * 2147483648).
Definition ex_key (e : Z) := mkraw 2 2693454067 (0, 1)%nat (5, 0)%nat e.
Ltac rds := let j := fresh "j" in let H := fresh "H" in intros j H; do 5 (destruct j; [first [reflexivity|exfalso; vm_compute in H; lia]|]); vm_compute in H; lia.
Ltac wds := unfold all_words; repeat (apply Forall_cons; [split; [discriminate|reflexivity]|]); apply Forall_nil.
Ltac held ws := exists ws; split; [reflexivity|split; [wds|split; [rds|reflexivity]]].
Ltac roomy := let j := fresh "j" in let H := fresh "H" in intros j H; do 5 (destruct j; [first [discriminate|exfalso; vm_compute in H; lia]|]); vm_compute in H; lia.
Ltac placed := unfold upward, apart, RawModel.at_; cbn; lia.
Example ex_n : i32_at ex_m (0, 0)%nat 64 2 ex_N. Proof. split; [rds|held [4294967237; 4294967295]]. Qed.
Example ex_x : i32_at ex_m (1, 0)%nat 64 2 ex_X. Proof. split; [rds|held [7; 5]]. Qed.
Example ex_a : i32_at ex_m (3, 0)%nat 96 3 ex_A. Proof. split; [rds|held [1; 2; 2147483648]]. Qed.
Example ex_bits : has_bits ex_N 64. Proof. split; [lia|]. split; [discriminate|reflexivity]. Qed.
Example ex_const : mont_const ex_N 2693454067. Proof. split; [split; [discriminate|reflexivity]|reflexivity]. Qed.
Example ex_add : exists m' c, br_i32_add_r ex_m (0, 0)%nat (0, 0)%nat 0 = Ok (c, m') /\ only ex_m m' [((0, 1)%nat, 2%nat)] /\ c = 1 /\ holds m' (0, 1)%nat 2 ex_N.
Proof. apply (C61_add ex_m (0, 0)%nat (0, 0)%nat 64 false ex_N ex_N); try reflexivity; try exact ex_n. placed. Qed.
Example ex_sub : exists m' c, br_i32_sub_r ex_m (1, 0)%nat (0, 0)%nat 1 = Ok (c, m') /\ only ex_m m' [((1, 1)%nat, 2%nat)] /\ c = 1 /\ holds m' (1, 1)%nat 2 (ex_X - ex_N + 2 ^ 64).
Proof. apply (C61_sub ex_m (1, 0)%nat (0, 0)%nat 64 true ex_X ex_N); try reflexivity; try exact ex_n; try exact ex_x. placed. Qed.
Example ex_muladd : exists m', br_i32_muladd_small_r ex_m (1, 0)%nat 4294967295 (0, 0)%nat = Ok m' /\ only ex_m m' [((1, 1)%nat, 2%nat)] /\ i32_at m' (1, 0)%nat 64 2 ((ex_X * 2 ^ 32 + 4294967295) mod ex_N).
Proof. apply (C61_muladd ex_m (1, 0)%nat (0, 0)%nat 64 ex_X ex_N 4294967295); try reflexivity; try exact ex_n; try exact ex_x; try exact ex_bits; [lia|placed]. Qed.
Example ex_reduce : exists m', br_i32_reduce_r ex_m (2, 1)%nat (3, 0)%nat (0, 0)%nat = Ok m' /\ only ex_m m' [((2, 1)%nat, 3%nat)] /\ i32_at m' (2, 1)%nat 64 2 (ex_A mod ex_N).
Proof. apply (C61_reduce ex_m (2, 1)%nat (3, 0)%nat (0, 0)%nat 64 96 ex_A ex_N); try reflexivity; try exact ex_n; try exact ex_a; try exact ex_bits; try discriminate; [roomy|placed|placed]. Qed.
Example ex_compare : greater_equal_modulus_r ex_m (ex_key 3) (1, 1)%nat = Ok false.
Proof. apply (C61_compare ex_m (ex_key 3) (1, 1)%nat ex_N ex_X); [apply ex_n|apply ex_x]. Qed.
Example ex_subtract : exists m', subtract_modulus_r ex_m (ex_key 3) (1, 1)%nat = Ok m' /\ only ex_m m' [((1, 1)%nat, 2%nat)] /\ holds m' (1, 1)%nat 2 ((ex_X - ex_N) mod cap 2).
Proof. apply (C61_subtract ex_m (ex_key 3) (1, 1)%nat ex_N ex_X); [apply ex_n|apply ex_x|placed]. Qed.
Example ex_mont : exists m' v, montgomery_mul_r ex_m (ex_key 3) (2, 0)%nat (1, 1)%nat (1, 1)%nat = Ok m' /\ only ex_m m' [((2, 0)%nat, 2%nat)] /\ holds m' (2, 0)%nat 2 v /\ (v * cap 2) mod ex_N = (ex_X * ex_X) mod ex_N /\ (ex_X < ex_N -> v < ex_X + ex_N).
Proof. apply (C61_montgomery ex_m (ex_key 3) (2, 0)%nat (1, 1)%nat (1, 1)%nat ex_N ex_X ex_X); try reflexivity; try apply ex_n; try apply ex_x; try exact ex_const; [roomy|placed|placed|placed]. Qed.
Example ex_bytes : bytes_at ex_m (4, 0)%nat [0; 0; 0; 5; 0; 0; 0; 7]. Proof. exists [83886080; 117440512]. split; [wds|]. split; [rds|reflexivity]. Qed.
(** X^3 = 8110 2^32 + 31318 modulo N *)
Example ex_pow_mod : exists m' v, pow_mod_r (fun _ _ => 77) ex_m (ex_key 3) (4, 0)%nat = Ok (true, m') /\ only ex_m m' [((4, 0)%nat, 2%nat)] /\ bytes_at m' (4, 0)%nat (I2OSP v 8) /\ 0 <= v < cap 2 /\
  v mod ex_N = ex_X ^ 3 mod ex_N /\ (ex_X < ex_N \/ cap 2 <= 2 * ex_N -> v = ex_X ^ 3 mod ex_N).
Proof. apply (C61_pow_mod (fun _ _ => 77) ex_m (ex_key 3) (4, 0)%nat ex_N 3481 [0; 0; 0; 5; 0; 0; 0; 7]); try reflexivity; try apply ex_n; try exact ex_const; try exact ex_bytes; [cbn; lia|held [3481; 0]|split; [discriminate|reflexivity]]. Qed.
Example ex_pow_value : ex_X ^ 3 mod ex_N = 8110 * 2 ^ 32 + 31318. Proof. reflexivity. Qed.
(** the power taken of the bytes of the modulus itself, over the modulus *)
Example ex_pow_overlap : exists m' v, pow_mod_r (fun _ _ => 77) ex_m (ex_key 3) (0, 1)%nat = Ok (true, m') /\ only ex_m m' [((0, 1)%nat, 2%nat)] /\ bytes_at m' (0, 1)%nat (I2OSP v 8) /\ 0 <= v < cap 2 /\
  v mod ex_N = OS2IP [197; 255; 255; 255; 255; 255; 255; 255] ^ 3 mod ex_N /\ (OS2IP [197; 255; 255; 255; 255; 255; 255; 255] < ex_N \/ cap 2 <= 2 * ex_N -> v = OS2IP [197; 255; 255; 255; 255; 255; 255; 255] ^ 3 mod ex_N).
Proof. apply (C61_pow_mod (fun _ _ => 77) ex_m (ex_key 3) (0, 1)%nat ex_N 3481 [197; 255; 255; 255; 255; 255; 255; 255]); try reflexivity; try apply ex_n; try exact ex_const; [cbn; lia|held [3481; 0]|split; [discriminate|reflexivity]|]. exists [4294967237; 4294967295]. split; [wds|]. split; [rds|reflexivity]. Qed.
Example ex_refuses : pow_mod_r (fun _ _ => 77) ex_m (ex_key 4) (4, 0)%nat = Ok (false, ex_m).
Proof. apply (C61_refuses (fun _ _ => 77) ex_m (ex_key 4) (4, 0)%nat ex_N 3481 [0; 0; 0; 5; 0; 0; 0; 7]); try reflexivity; try apply ex_n; try exact ex_bytes; [cbn; lia|held [3481; 0]|split; [discriminate|reflexivity]|left; reflexivity]. Qed.
Example ex_in_place : exists m', montgomery_mul_r ex_m (ex_key 3) (1, 1)%nat (1, 1)%nat (1, 1)%nat = Ok m' /\ only ex_m m' [((1, 1)%nat, 2%nat)] /\ holds m' (1, 1)%nat 2 0.
Proof. apply (C61_in_place_refuted ex_m (ex_key 3) (1, 1)%nat (1, 1)%nat (1, 1)%nat); [cbn; lia|roomy|roomy|roomy|left; reflexivity]. Qed.
Example ex_reduce_in_place : br_i32_reduce_r [[96; 1; 2; 2147483648]; [96; 1; 0; 2147483648]] (0, 0)%nat (0, 0)%nat (1, 0)%nat = UB.
Proof.
  apply (C61_reduce_in_place_ub _ (0, 0)%nat (1, 0)%nat 96 (1 + 2 ^ 32 * (0 + 2 ^ 32 * 2147483648)) ex_A); try reflexivity; [split; [lia|split; [discriminate|reflexivity]]| |].
  - split; [rds|held [1; 2; 2147483648]].
  - split; [rds|held [1; 0; 2147483648]].
Qed.
