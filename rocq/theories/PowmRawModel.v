(** Model of the word routines of c/powm.h at the level of memory: the loops of PowmModel as the C code
    writes them, with loads and stores through pointers that may be equal or overlap (memory and pointers
    as in RawModel).  [uint32_t] is [Z] in [0,2^32), [uint64_t] is [Z] in [0,2^64) with explicit wrap-around;
    [size_t] and array indices are [nat].  The machine is little endian. *)
From Coq Require Import List ZArith Bool.
From Verif Require Import Outcome WordsModel PowmModel RawModel.
Import ListNotations.
Open Scope Z_scope.

(** reading n words, writing a list of words; the words of memmove and memcpy.  memcpy of overlapping
    ranges is [UB], memmove behaves as if through a temporary copy *)
Fixpoint load_n (m : memory) (p : loc) (i n : nat) : outcome (list Z) :=
  match n with
  | O => Ok []
  | S n => let* w := ld m p i in let* r := load_n m p (S i) n in Ok (w :: r)
  end.
Fixpoint store_n (m : memory) (p : loc) (i : nat) (ws : list Z) : outcome memory :=
  match ws with
  | [] => Ok m
  | w :: ws => let* m := st m p i w in store_n m p (S i) ws
  end.
Definition memmove_r (m : memory) (dst src : loc) (n : nat) : outcome memory :=
  let* ws := load_n m src 0 n in store_n m dst 0 ws.
Definition overlap (p q : loc) (n : nat) : bool :=
  Nat.eqb (fst p) (fst q) && Nat.ltb (snd p) (snd q + n) && Nat.ltb (snd q) (snd p + n).
Definition memcpy_r (m : memory) (dst src : loc) (n : nat) : outcome memory :=
  if overlap dst src n then UB else memmove_r m dst src n.

(** powm.h:280-292 [br_i32_word]: words start at index 1. *)
Definition br_i32_word_r (m : memory) (a : loc) (off : Z) : outcome Z :=
  let u := (Z.to_nat (Z.shiftr off 5) + 1)%nat in
  let j := Z.land off 31 in
  if j =? 0 then ld m a u
  else
    let* lo := ld m a u in
    let* hi := ld m a (u + 1) in
    Ok (Z.lor (Z.shiftr lo j) (Z.shiftl hi (32 - j) mod B)).

(** powm.h:452-474 [br_i32_add], 484-506 [br_i32_sub]: k more iterations from index u. *)
Fixpoint add_ctl_r (k u : nat) (a b : loc) (ctl cc : Z) (m : memory) : outcome (Z * memory) :=
  match k with
  | O => Ok (cc, m)
  | S k =>
      let* aw := ld m a u in
      let* bw := ld m b u in
      let naw := (aw + bw + cc) mod B in
      let cc := Z.lor (Z.land cc (EQ naw aw)) (LT naw aw) in
      let* m := st m a u (MUX ctl naw aw) in
      add_ctl_r k (S u) a b ctl cc m
  end.
Fixpoint sub_ctl_r (k u : nat) (a b : loc) (ctl cc : Z) (m : memory) : outcome (Z * memory) :=
  match k with
  | O => Ok (cc, m)
  | S k =>
      let* aw := ld m a u in
      let* bw := ld m b u in
      let naw := (aw - bw - cc) mod B in
      let cc := Z.lor (Z.land cc (EQ naw aw)) (GT naw aw) in
      let* m := st m a u (MUX ctl naw aw) in
      sub_ctl_r k (S u) a b ctl cc m
  end.
Definition br_i32_add_r (m : memory) (a b : loc) (ctl : Z) : outcome (Z * memory) :=
  let* h := ld m a 0 in add_ctl_r (word_count h) 1 a b ctl 0 m.
Definition br_i32_sub_r (m : memory) (a b : loc) (ctl : Z) : outcome (Z * memory) :=
  let* h := ld m a 0 in sub_ctl_r (word_count h) 1 a b ctl 0 m.

(** powm.h:647-665: the loop of [br_i32_muladd_small]; k more iterations from index u; returns cc and tb. *)
Fixpoint mul_sub_r (k u : nat) (x n : loc) (q cc tb : Z) (m : memory) : outcome (Z * Z * memory) :=
  match k with
  | O => Ok (cc, tb, m)
  | S k =>
      let* mw := ld m n u in
      let zl := (mw * q + cc) mod W64 in
      let cc := Z.shiftr zl 32 mod B in
      let zw := zl mod B in
      let* xw := ld m x u in
      let nxw := (xw - zw) mod B in
      let cc := (cc + GT nxw xw) mod W64 in
      let* m := st m x u nxw in
      let tb := MUX (EQ nxw mw) tb (GT nxw mw) in
      mul_sub_r k (S u) x n q cc tb m
  end.
(** powm.h:580-688 [br_i32_muladd_small]. *)
Definition br_i32_muladd_small_r (m : memory) (x : loc) (z : Z) (n : loc) : outcome memory :=
  let* m_bitlen := ld m n 0 in
  if m_bitlen =? 0 then Ok m
  else if m_bitlen <=? 32 then
    let* x1 := ld m x 1 in
    let* m1 := ld m n 1 in
    st m x 1 (br_rem x1 z m1)
  else
    let mlen := Z.to_nat (Z.shiftr ((m_bitlen + 31) mod B) 5) in
    let* a0 := br_i32_word_r m x (m_bitlen - 32) in
    let* hi := ld m x mlen in
    let* m := memmove_r m (RawModel.at_ x 2) (RawModel.at_ x 1) (mlen - 1) in
    let* m := st m x 1 z in
    let* a1 := br_i32_word_r m x (m_bitlen - 32) in
    let* b0 := br_i32_word_r m n (m_bitlen - 32) in
    let g := br_div a0 a1 b0 in
    let q := MUX (EQ a0 b0) 0xFFFFFFFF (MUX (EQ g 0) 0 ((g - 1) mod B)) in
    let* r := mul_sub_r mlen 1 x n q 0 1 m in
    let '(cc, tb, m) := r in
    let chf := Z.shiftr cc 32 mod B in
    let clow := cc mod B in
    let over := Z.lor chf (GT clow hi) in
    let under := Z.land (not32 over) (Z.lor tb (Z.land (not32 chf) (LT clow hi))) in
    let* r := br_i32_add_r m x n over in
    let* r := br_i32_sub_r (snd r) x n under in
    Ok (snd r).

(** powm.h:700-741 [br_i32_reduce]: u counts down. *)
Fixpoint reduce_loop_r (u : nat) (x a n : loc) (m : memory) : outcome memory :=
  match u with
  | O => Ok m
  | S u' => let* z := ld m a u in let* m := br_i32_muladd_small_r m x z n in reduce_loop_r u' x a n m
  end.
Definition br_i32_reduce_r (m : memory) (x a n : loc) : outcome memory :=
  let* m_bitlen := ld m n 0 in
  let mlen := Z.to_nat (Z.shiftr ((m_bitlen + 31) mod B) 5) in
  let* m := st m x 0 m_bitlen in
  if m_bitlen =? 0 then Ok m
  else
    let* a_bitlen := ld m a 0 in
    let alen := Z.to_nat (Z.shiftr ((a_bitlen + 31) mod B) 5) in
    if a_bitlen <? m_bitlen then
      let* m := memcpy_r m (RawModel.at_ x 1) (RawModel.at_ a 1) alen in
      clear_r (mlen - alen) (alen + 1) x m
    else
      let* m := memcpy_r m (RawModel.at_ x 1) (RawModel.at_ a (2 + (alen - mlen))) (mlen - 1) in
      let* m := st m x mlen 0 in
      reduce_loop_r (1 + alen - mlen) x a n m.

(** powm.h:94-102: the key, its arrays by pointer *)
Record raw_key := mkraw { r_len : nat; r_n0inv : Z; r_modulus : loc; r_rr : loc; r_exponent : Z }.

(** powm.h:863-874 [subtract_modulus]: k more iterations from index i. *)
Fixpoint sub_modulus_r (k i : nat) (num n : loc) (acc : Z) (m : memory) : outcome memory :=
  match k with
  | O => Ok m
  | S k =>
      let* a := ld m num i in
      let* b := ld m n i in
      let acc := s64 (acc + (a - b) mod W64) in
      let* m := st m num i (acc mod B) in
      sub_modulus_r k (S i) num n (Z.shiftr acc 32) m
  end.
Definition subtract_modulus_r (m : memory) (key : raw_key) (num : loc) : outcome memory :=
  sub_modulus_r (r_len key) 0 num (r_modulus key) 0 m.
(** powm.h:883-897 [greater_equal_modulus]: i = k-1 down to 0. *)
Fixpoint ge_modulus_r (k : nat) (m : memory) (num n : loc) : outcome bool :=
  match k with
  | O => Ok true
  | S i =>
      let* a := ld m num i in
      let* b := ld m n i in
      if a <? b then Ok false else if b <? a then Ok true else ge_modulus_r i m num n
  end.
Definition greater_equal_modulus_r (m : memory) (key : raw_key) (num : loc) : outcome bool :=
  ge_modulus_r (r_len key) m num (r_modulus key).

(** powm.h:909-934 [montgomery_mul_add_step]: the loop, reading index i+1 and writing index i. *)
Fixpoint mont_loop_r (k i : nat) (result : loc) (a : Z) (b n : loc) (d0 acc_a acc_b : Z) (m : memory) : outcome (Z * Z * memory) :=
  match k with
  | O => Ok (acc_a, acc_b, m)
  | S k =>
      let* bi := ld m b (S i) in
      let* ri := ld m result (S i) in
      let acc_a := (Z.shiftr acc_a 32 + a * bi + ri) mod W64 in
      let* ni := ld m n (S i) in
      let acc_b := (Z.shiftr acc_b 32 + d0 * ni + acc_a mod B) mod W64 in
      let* m := st m result i (acc_b mod B) in
      mont_loop_r k (S i) result a b n d0 acc_a acc_b m
  end.
Definition mont_step_r (m : memory) (key : raw_key) (result : loc) (a : Z) (b : loc) : outcome memory :=
  let* b0 := ld m b 0 in
  let* r0 := ld m result 0 in
  let acc_a := (a * b0 + r0) mod W64 in
  let d0 := (acc_a mod B * r_n0inv key) mod B in
  let* n0 := ld m (r_modulus key) 0 in
  let acc_b := (d0 * n0 + acc_a mod B) mod W64 in
  let* r := mont_loop_r (r_len key - 1) 0 result a b (r_modulus key) d0 acc_a acc_b m in
  let '(acc_a, acc_b, m) := r in
  let acc_a := (Z.shiftr acc_a 32 + Z.shiftr acc_b 32) mod W64 in
  let* m := st m result (r_len key - 1) (acc_a mod B) in
  if Z.shiftr acc_a 32 =? 0 then Ok m else subtract_modulus_r m key result.
(** powm.h:945-953 [montgomery_mul]: k more rows from index i. *)
Fixpoint mont_rows_r (k i : nat) (key : raw_key) (result a b : loc) (m : memory) : outcome memory :=
  match k with
  | O => Ok m
  | S k =>
      let* ai := ld m a i in
      let* m := mont_step_r m key result ai b in
      mont_rows_r k (S i) key result a b m
  end.
Definition montgomery_mul_r (m : memory) (key : raw_key) (result a b : loc) : outcome memory :=
  let* m := clear_r (r_len key) 0 result m in
  mont_rows_r (r_len key) 0 key result a b m.

(** powm.h:105-158 [get_unaligned_be32], [put_unaligned_be32] on a little-endian machine: the bytes of a word reversed *)
Definition bswap (w : Z) : Z :=
  Z.lor (Z.shiftl (w mod 256) 24) (Z.lor (Z.shiftl (Z.shiftr w 8 mod 256) 16)
    (Z.lor (Z.shiftl (Z.shiftr w 16 mod 256) 8) (Z.shiftr w 24 mod 256))).
(** powm.h:1024-1025: val[i] from inout[len-1-i]; k more iterations *)
Fixpoint load_val_r (k i : nat) (val inout : loc) (m : memory) : outcome memory :=
  match k with
  | O => Ok m
  | S k => let* w := ld m inout k in let* m := st m val i (bswap w) in load_val_r k (S i) val inout m
  end.
(** powm.h:1073-1074: result[i] for i = len-1 ... 0 to inout[0], inout[1], ... *)
Fixpoint store_val_r (i j : nat) (result inout : loc) (m : memory) : outcome memory :=
  match i with
  | O => Ok m
  | S i => let* w := ld m result i in let* m := st m inout j (bswap w) in store_val_r i (S j) result inout m
  end.
(** powm.h:1041-1056: the bits k-2 .. 1; [j] counts down *)
Fixpoint pow_bits_r (j : nat) (key : raw_key) (acc tmp a_scaled : loc) (m : memory) : outcome memory :=
  match j with
  | O => Ok m
  | S j' =>
      let* m := montgomery_mul_r m key tmp acc acc in
      let* m := (if is_public_exponent_bit_set (r_exponent key) (Z.of_nat j)
                 then montgomery_mul_r m key acc tmp a_scaled
                 else memcpy_r m acc tmp (r_len key)) in
      pow_bits_r j' key acc tmp a_scaled m
  end.
(** powm.h:1005-1077 [pow_mod]: the local arrays are val, acc, tmp, a_scaled, with indeterminate contents;
    [false] is -EINVAL.  The locals are gone at return. *)
Definition pow_mod_body_r (m : memory) (key : raw_key) (val acc tmp a_scaled inout : loc) : outcome (bool * memory) :=
  let result := tmp in
  let* m := load_val_r (r_len key) 0 val inout m in
  let k := num_public_exponent_bits (r_exponent key) in
  if k <? 2 then Ok (false, m)
  else if negb (is_public_exponent_bit_set (r_exponent key) 0) then Ok (false, m)
  else
    let* m := montgomery_mul_r m key acc val (r_rr key) in
    let* m := memcpy_r m a_scaled acc (r_len key) in
    let* m := pow_bits_r (Z.to_nat (k - 2)) key acc tmp a_scaled m in
    let* m := montgomery_mul_r m key tmp acc acc in
    let* m := montgomery_mul_r m key acc tmp val in
    let* m := memcpy_r m result acc (r_len key) in
    let* ge := greater_equal_modulus_r m key result in
    let* m := (if ge then subtract_modulus_r m key result else Ok m) in
    let* m := store_val_r (r_len key) 0 result inout m in
    Ok (true, m).
Definition pow_mod_r (junk : nat -> nat -> Z) (m0 : memory) (key : raw_key) (inout : loc) : outcome (bool * memory) :=
  let '(m, val) := alloca m0 (junk 0%nat) (r_len key) in
  let '(m, acc) := alloca m (junk 1%nat) (r_len key) in
  let '(m, tmp) := alloca m (junk 2%nat) (r_len key) in
  let '(m, a_scaled) := alloca m (junk 3%nat) (r_len key) in
  let* r := pow_mod_body_r m key val acc tmp a_scaled inout in
  Ok (fst r, leave m0 (snd r)).
