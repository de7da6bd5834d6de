(** Property C70: what the timing and the memory accesses of the word routines of c/powm.h reveal. *)
From Coq Require Import List ZArith Bool Lia.
From Verif Require Import Outcome UtilsSpec RsaSpec WordsModel WordsSpec PowmProofs PowmModel RawModel RawSpec PowmRawModel PowmRawSpec TraceModel TraceSpec TraceValue TraceClaims.
Import ListNotations.
Open Scope nat_scope.

(** The functions that also write a trace compute what those of C61 compute. *)
Theorem C70_functions :
  (forall m a b ctl, fst (br_i32_add_t m a b ctl) = br_i32_add_r m a b ctl) /\
  (forall m a b ctl, fst (br_i32_sub_t m a b ctl) = br_i32_sub_r m a b ctl) /\
  (forall hi lo d, fst (br_divrem_t hi lo d) = Ok (br_divrem hi lo d)) /\
  (forall m x z n, fst (br_i32_muladd_small_t m x z n) = br_i32_muladd_small_r m x z n) /\
  (forall m x a n, fst (br_i32_reduce_t m x a n) = br_i32_reduce_r m x a n) /\
  (forall m key num, fst (greater_equal_modulus_t m key num) = greater_equal_modulus_r m key num) /\
  (forall m key result a b, fst (montgomery_mul_t m key result a b) = montgomery_mul_r m key result a b).
Proof. exact erasure_claim. Qed.
Print Assumptions C70_functions.

(** The conversions at the level of memory: the bit length of an array of words, the integer of some bytes and
    the bytes of an integer, cut or filled with zeros to the length asked for. *)
Theorem C70_bit_length_value : forall m x ws, all_words ws -> (32 * Z.of_nat (length ws) < 2 ^ 32)%Z -> reads m x ws ->
  fst (br_i32_bit_length_t m x (length ws)) = Ok (bits (eval ws)).
Proof. exact bit_length_memory. Qed.
Print Assumptions C70_bit_length_value.
Theorem C70_decode_value : forall m x src bs, all_bytes bs -> (8 * Z.of_nat (length bs) + 32 < 2 ^ 32)%Z -> reads m src bs ->
  room m x (S ((length bs + 3) / 4)) -> apart x (S ((length bs + 3) / 4)) src (length bs) ->
  exists m', fst (br_i32_decode_t m x src (length bs)) = Ok m' /\ only m m' [(x, S ((length bs + 3) / 4))] /\
    i32_at m' x (bits (OS2IP bs)) ((length bs + 3) / 4) (OS2IP bs).
Proof. exact decode_value. Qed.
Print Assumptions C70_decode_value.
Theorem C70_encode_value : forall m dst len x h X, (0 <= h)%Z -> (h + 7 < 2 ^ 32)%Z -> (0 <= X < 2 ^ h)%Z -> i32_at m x h (words_for h) X ->
  room m dst len -> apart dst len x (S (words_for h)) ->
  exists m', fst (br_i32_encode_t m dst len x) = Ok m' /\ only m m' [(dst, len)] /\ reads m' dst (I2OSP X len).
Proof. exact encode_value. Qed.
Print Assumptions C70_encode_value.

(** powm.h:317, 342: neither the value nor the length of the integer leaks; two memories of the same layout
    give the same trace, whatever they contain, and wherever the arrays lie. *)
Theorem C70_bit_length : forall m m' x n, alike nowhere m m' -> indistinguishable (br_i32_bit_length_t m x n) (br_i32_bit_length_t m' x n).
Proof. exact bit_length_claim. Qed.
Print Assumptions C70_bit_length.
Theorem C70_decode : forall m m' x src len, alike nowhere m m' -> indistinguishable (br_i32_decode_t m x src len) (br_i32_decode_t m' x src len).
Proof. exact decode_claim. Qed.
Print Assumptions C70_decode.
(** powm.h:510: the division of a double word is constant-time, for any operands. *)
Theorem C70_divrem : forall hi lo d hi' lo' d', indistinguishable (br_divrem_t hi lo d) (br_divrem_t hi' lo' d').
Proof. exact divrem_claim. Qed.
Print Assumptions C70_divrem.
(** powm.h:442-450, 476-482: only the announced length of a leaks; in particular not the control bit. *)
Theorem C70_add : forall m m' a b ctl ctl', alike (cell a 0) m m' -> indistinguishable (br_i32_add_t m a b ctl) (br_i32_add_t m' a b ctl').
Proof. exact add_claim. Qed.
Print Assumptions C70_add.
Theorem C70_sub : forall m m' a b ctl ctl', alike (cell a 0) m m' -> indistinguishable (br_i32_sub_t m a b ctl) (br_i32_sub_t m' a b ctl').
Proof. exact sub_claim. Qed.
Print Assumptions C70_sub.
(** powm.h:577: only the announced lengths of x and m leak. *)
Theorem C70_muladd_small : forall m m' x z z' n, alike (either (cell n 0) (cell x 0)) m m' ->
  indistinguishable (br_i32_muladd_small_t m x z n) (br_i32_muladd_small_t m' x z' n).
Proof. exact muladd_claim. Qed.
Print Assumptions C70_muladd_small.
(** powm.h:698: only the announced lengths of a and m leak (the announced length of m is not overwritten by x). *)
Theorem C70_reduce : forall m m' x a n, alike (either (cell n 0) (cell a 0)) m m' -> fst n <> fst x \/ snd n <= snd x ->
  indistinguishable (br_i32_reduce_t m x a n) (br_i32_reduce_t m' x a n).
Proof. exact reduce_claim. Qed.
Print Assumptions C70_reduce.
Theorem C70_encode : forall m m' dst len x, alike (cell x 0) m m' -> indistinguishable (br_i32_encode_t m dst len x) (br_i32_encode_t m' dst len x).
Proof. exact encode_claim. Qed.
Print Assumptions C70_encode.
(** The computation of R^2 mod n for a key: of the modulus only its bit length leaks. *)
Theorem C70_key : forall m m' n src bs bs' rr rrtmp dst olen, all_bytes bs -> all_bytes bs' -> length bs = length bs' -> (8 * Z.of_nat (length bs) + 32 < 2 ^ 32)%Z ->
  bits (OS2IP bs) = bits (OS2IP bs') -> reads m src bs -> reads m' src bs' -> room m n (S ((length bs + 3) / 4)) -> apart n (S ((length bs + 3) / 4)) src (length bs) ->
  alike (cell rrtmp 0) m m' -> fst n <> fst rr \/ snd n <= snd rr -> fst rrtmp <> fst n \/ snd rrtmp < snd n ->
  indistinguishable (derive_t m n src (length bs) rr rrtmp dst olen) (derive_t m' n src (length bs) rr rrtmp dst olen).
Proof. exact derive_claim. Qed.
Print Assumptions C70_key.

(** The Montgomery multiplication (not part of BearSSL) does not have the property that powm.h:270-272 claims of
    computations on modular integers: whether the final subtraction is carried out depends on the factors, here
    2^32 - 2 and 1, both below the modulus 2^32 - 1. *)
Theorem C70_montgomery_refuted :
  exists m m' key result a b N X X' Y,
    alike (fun c k => ~ cell a 0 c k) m m' /\ holds m (r_modulus key) (r_len key) N /\ Z.odd N = true /\ mont_const N (r_n0inv key) /\
    holds m a (r_len key) X /\ holds m' a (r_len key) X' /\ holds m b (r_len key) Y /\ (X < N)%Z /\ (X' < N)%Z /\ (Y < N)%Z /\
    ~ indistinguishable (montgomery_mul_t m key result a b) (montgomery_mul_t m' key result a b).
Proof. exact montgomery_refuted. Qed.
Print Assumptions C70_montgomery_refuted.

(** ** Examples: array 0 five bytes, arrays 1 and 2 integers of two words, array 3 the integer 2^80, array 4 for the result *)
Definition tm (bs : list Z) (s : Z) : memory := [bs; [39; s; s]; [39; s; 5]; [81; 0; 0; 65536]; [s; s; s; s; s]]%Z.
Definition ta : memory := tm [97; 0; 0; 0; 7]%Z 1.
Definition tb : memory := tm [100; 1; 2; 3; 9]%Z 77.
Example C70_alike_ex : alike (either (cell (1, 0) 0) (either (cell (2, 0) 0) (cell (3, 0) 0))) ta tb /\ rd ta 1 1 <> rd tb 1 1.
Proof.
  split; [|discriminate]. split; [reflexivity|]. intros b k [[-> ->]|[[-> ->]|[-> ->]]]; reflexivity.
Qed.
(** the traces are equal though different integers are computed *)
Example C70_decode_ex : snd (br_i32_decode_t ta (2, 0) (0, 0) 5) = snd (br_i32_decode_t tb (2, 0) (0, 0) 5) /\
  length (snd (br_i32_decode_t ta (2, 0) (0, 0) 5)) = 17 /\
  (exists m, fst (br_i32_decode_t ta (2, 0) (0, 0) 5) = Ok m /\ nth 2 m [] = [39; 7; 97]%Z) /\
  (exists m, fst (br_i32_decode_t tb (2, 0) (0, 0) 5) = Ok m /\ nth 2 m [] = [39; 16909065; 100]%Z).
Proof.
  split; [apply (proj1 (C70_decode ta tb (2, 0) (0, 0) 5 (conj eq_refl (fun b k (H : nowhere b k) => match H with end))))|]. split; [vm_compute; reflexivity|]. split; eexists; split; vm_compute; reflexivity.
Qed.
(** R^2 modulo the two keys of 39 bits *)
Example C70_key_ex : indistinguishable (derive_t ta (1, 0) (0, 0) 5 (2, 0) (3, 0) (4, 0) 5) (derive_t tb (1, 0) (0, 0) 5 (2, 0) (3, 0) (4, 0) 5) /\
  (exists m, fst (derive_t ta (1, 0) (0, 0) 5 (2, 0) (3, 0) (4, 0) 5) = Ok m /\ OS2IP (nth 4 m []) = (2 ^ 80 mod OS2IP [97; 0; 0; 0; 7])%Z) /\
  (exists m, fst (derive_t tb (1, 0) (0, 0) 5 (2, 0) (3, 0) (4, 0) 5) = Ok m /\ OS2IP (nth 4 m []) = (2 ^ 80 mod OS2IP [100; 1; 2; 3; 9])%Z).
Proof.
  split.
  - apply (C70_key ta tb (1, 0) (0, 0) [97; 0; 0; 0; 7]%Z [100; 1; 2; 3; 9]%Z (2, 0) (3, 0) (4, 0) 5).
    + repeat (apply Forall_cons; [unfold is_byte; lia|]). apply Forall_nil.
    + repeat (apply Forall_cons; [unfold is_byte; lia|]). apply Forall_nil.
    + reflexivity.
    + cbn; lia.
    + reflexivity.
    + intros j Hj. cbn [length] in Hj. do 5 (destruct j as [|j]; [reflexivity|]). lia.
    + intros j Hj. cbn [length] in Hj. do 5 (destruct j as [|j]; [reflexivity|]). lia.
    + intros j Hj. cbn in Hj. do 3 (destruct j as [|j]; [discriminate|]). lia.
    + left. discriminate.
    + split; [reflexivity|]. intros b k [-> ->]. reflexivity.
    + left. discriminate.
    + left. discriminate.
  - split; eexists; split; vm_compute; reflexivity.
Qed.
(** an integer of 39 bits written as 3 and as 8 bytes *)
Example C70_encode_ex : (exists m, fst (br_i32_encode_t ([0; 0; 0]%Z :: ta) (0, 0) 3 (2, 0)) = Ok m /\ nth 0 m [] = I2OSP (2 ^ 32 + 1) 3) /\
  (exists m, fst (br_i32_encode_t ([9; 9; 9; 9; 9; 9; 9; 9]%Z :: ta) (0, 0) 8 (2, 0)) = Ok m /\ nth 0 m [] = [0; 0; 0; 1; 0; 0; 0; 1]%Z).
Proof. split; eexists; split; vm_compute; reflexivity. Qed.
