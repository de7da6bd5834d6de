(** Model of c/powm.h, the software modular exponentiation.  [uint32_t] is [Z] in [0,2^32) and
    [uint64_t] is [Z] in [0,2^64) with explicit wrap-around; [size_t] and array indices are [nat].
    The machine is little endian, as WebAssembly is, so [get_unaligned_be32] and friends are
    big-endian loads.  Allocation is assumed to succeed (the ENOMEM branches are not modelled).
    Loops that walk arrays upwards, reading index i before writing index i, are recursive
    functions on the word lists. *)
From Coq Require Import List ZArith Bool.
From Verif Require Import Outcome RsaModel ShaModel WordsModel.
Import ListNotations.
Open Scope Z_scope.

(** powm.h:164-217 *)
Definition NOT (ctl : Z) : Z := Z.lxor ctl 1.
Definition MUX (ctl x y : Z) : Z := Z.lxor y (Z.land ((- ctl) mod B) (Z.lxor x y)).
Definition EQ (x y : Z) : Z := let q := Z.lxor x y in NOT (Z.shiftr (Z.lor q ((- q) mod B)) 31).
Definition NEQ (x y : Z) : Z := let q := Z.lxor x y in Z.shiftr (Z.lor q ((- q) mod B)) 31.
Definition GT (x y : Z) : Z :=
  let z := (y - x) mod B in Z.shiftr (Z.lxor z (Z.land (Z.lxor x y) (Z.lxor x z))) 31.
(** powm.h:113-114 *)
Definition GE (x y : Z) : Z := NOT (GT y x).
Definition LT (x y : Z) : Z := GT y x.

(** powm.h:236-246 [br_i32_ninv32]. *)
Definition newton (x y : Z) : Z := (y * ((2 - (y * x) mod B) mod B)) mod B.
Definition br_i32_ninv32 (x : Z) : Z :=
  let y := (2 - x) mod B in
  let y := newton x y in
  let y := newton x y in
  let y := newton x y in
  let y := newton x y in
  MUX (Z.land x 1) ((- y) mod B) 0.

(** powm.h:248-271: an "i32" integer: [x[0]], the announced bit length, and the words [x[1]...] of the
    array it lives in (the list is the allocated part). *)
Definition i32 := (Z * list Z)%type.
(** the first [n] words; reading past the array is UB *)
Definition take (n : nat) (l : list Z) : outcome (list Z) :=
  if Nat.leb n (length l) then Ok (firstn n l) else UB.

(** powm.h:280-292 [br_i32_word]. *)
Definition br_i32_word (a : list Z) (off : Z) : outcome Z :=
  let u := Z.to_nat (Z.shiftr off 5) in
  let j := Z.land off 31 in
  if j =? 0 then at_ a u
  else
    let* lo := at_ a u in
    let* hi := at_ a (u + 1) in
    Ok (Z.lor (Z.shiftr lo j) (Z.shiftl hi (32 - j) mod B)).

(** powm.h:298-309 [BIT_LENGTH]. *)
Definition BIT_LENGTH (x : Z) : Z :=
  let k := NEQ x 0 in
  let c := GT x 0xFFFF in let x := MUX c (Z.shiftr x 16) x in let k := (k + Z.shiftl c 4 mod B) mod B in
  let c := GT x 0x00FF in let x := MUX c (Z.shiftr x 8) x in let k := (k + Z.shiftl c 3 mod B) mod B in
  let c := GT x 0x000F in let x := MUX c (Z.shiftr x 4) x in let k := (k + Z.shiftl c 2 mod B) mod B in
  let c := GT x 0x0003 in let x := MUX c (Z.shiftr x 2) x in let k := (k + Z.shiftl c 1 mod B) mod B in
  (k + GT x 0x0001) mod B.

(** powm.h:319-334 [br_i32_bit_length]: from the top word down. *)
Definition bit_length_step (i : nat) (w : Z) (s : Z * Z) : Z * Z :=
  let c := EQ (fst s) 0 in (MUX c w (fst s), MUX c (Z.of_nat i mod B) (snd s)).
Definition br_i32_bit_length (x : list Z) : Z :=
  let s := fold_right (fun p s => bit_length_step (fst p) (snd p) s) (0, 0) (combine (seq 0 (length x)) x) in
  (Z.shiftl (snd s) 5 mod B + BIT_LENGTH (fst s)) mod B.

(** powm.h:105-107, 140-158: big-endian loads *)
Definition be16_at (b : list Z) (o : nat) : outcome Z :=
  let* b0 := at_ b o in
  let* b1 := at_ b (o + 1) in
  Ok (Z.lor (Z.shiftl b0 8) b1).
Definition be32_at (b : list Z) (o : nat) : outcome Z :=
  let* b0 := at_ b o in
  let* b1 := at_ b (o + 1) in
  let* b2 := at_ b (o + 2) in
  let* b3 := at_ b (o + 3) in
  Ok (Z.lor (Z.shiftl b0 24) (Z.lor (Z.shiftl b1 16) (Z.lor (Z.shiftl b2 8) b3))).
(** powm.h:223-229 [br_enc32be]: the bytes stored *)
Definition be32_bytes (w : Z) : list Z :=
  [Z.shiftr w 24 mod 256; Z.shiftr w 16 mod 256; Z.shiftr w 8 mod 256; w mod 256].

(** powm.h:344-388 [br_i32_decode]: [u] bytes of [buf] are still to be read; the words in the order stored. *)
Fixpoint decode_words (fuel : nat) (buf : list Z) (u : nat) : outcome (list Z) :=
  if Nat.ltb u 4 then
    match u with
    | 0%nat => Ok []
    | 1%nat => let* b := at_ buf 0 in Ok [b]
    | 2%nat => let* w := be16_at buf 0 in Ok [w]
    | _ => let* b := at_ buf 0 in let* w := be16_at buf 1 in Ok [Z.lor (Z.shiftl b 16) w]
    end
  else
    match fuel with
    | O => NoFuel
    | S fuel =>
        let* w := be32_at buf (u - 4) in
        let* ws := decode_words fuel buf (u - 4) in
        Ok (w :: ws)
    end.
Definition br_i32_decode (x : list Z) (buf : list Z) (len : nat) : outcome i32 :=
  let* ws := decode_words len buf len in
  if Nat.leb (length ws) (length x) then Ok (br_i32_bit_length ws, ws ++ skipn (length ws) x) else UB.

(** powm.h:399-439 [br_i32_encode]: the bytes written, in order. *)
Fixpoint encode_words (k : nat) (x : list Z) : outcome (list Z) :=
  match k with
  | O => Ok []
  | S k => let* w := at_ x k in let* r := encode_words k x in Ok (be32_bytes w ++ r)
  end.
Definition br_i32_encode (len : nat) (x : i32) : outcome (list Z) :=
  let k := Z.to_nat (Z.shiftr ((fst x + 7) mod B) 3) in
  let zeros := repeat 0 (len - k) in
  let len := Nat.min len k in
  let k := ((len + 3) / 4)%nat in
  match (len mod 4)%nat with
  | 0%nat => let* r := encode_words k (snd x) in Ok (zeros ++ r)
  | m =>
      let* w := at_ (snd x) (k - 1) in
      let* r := encode_words (k - 1) (snd x) in
      Ok (zeros ++ skipn (4 - m) (be32_bytes w) ++ r)
  end.

(** powm.h:452-474 [br_i32_add], 484-506 [br_i32_sub]: the loops, and the functions on the common length. *)
Fixpoint add_ctl (a b : list Z) (ctl cc : Z) : list Z * Z :=
  match a, b with
  | aw :: a, bw :: b =>
      let naw := (aw + bw + cc) mod B in
      let cc := Z.lor (Z.land cc (EQ naw aw)) (LT naw aw) in
      let '(r, c) := add_ctl a b ctl cc in
      (MUX ctl naw aw :: r, c)
  | _, _ => ([], cc)
  end.
Fixpoint sub_ctl (a b : list Z) (ctl cc : Z) : list Z * Z :=
  match a, b with
  | aw :: a, bw :: b =>
      let naw := (aw - bw - cc) mod B in
      let cc := Z.lor (Z.land cc (EQ naw aw)) (GT naw aw) in
      let '(r, c) := sub_ctl a b ctl cc in
      (MUX ctl naw aw :: r, c)
  | _, _ => ([], cc)
  end.
Definition word_count (h : Z) : nat := (Z.to_nat (Z.shiftr ((h + 63) mod B) 5) - 1)%nat.
Definition br_i32_add (a b : i32) (ctl : Z) : outcome (i32 * Z) :=
  let n := word_count (fst a) in
  let* aw := take n (snd a) in
  let* bw := take n (snd b) in
  let '(r, c) := add_ctl aw bw ctl 0 in
  Ok ((fst a, r ++ skipn n (snd a)), c).
Definition br_i32_sub (a b : i32) (ctl : Z) : outcome (i32 * Z) :=
  let n := word_count (fst a) in
  let* aw := take n (snd a) in
  let* bw := take n (snd b) in
  let '(r, c) := sub_ctl aw bw ctl 0 in
  Ok ((fst a, r ++ skipn n (snd a)), c).

(** powm.h:516-543 [br_divrem]: the quotient and the remainder; the state is (hi, lo, q). *)
Definition divrem_step (d : Z) (s : Z * Z * Z) (k : Z) : Z * Z * Z :=
  let '(hi, lo, q) := s in
  let j := 32 - k in
  let w := Z.lor (Z.shiftl hi j mod B) (Z.shiftr lo k) in
  let ctl := Z.lor (GE w d) (Z.shiftr hi k) in
  let hi2 := Z.shiftr ((w - d) mod B) j in
  let lo2 := (lo - Z.shiftl d k mod B) mod B in
  (MUX ctl hi2 hi, MUX ctl lo2 lo, Z.lor q (Z.shiftl ctl k mod B)).
Definition br_divrem (hi lo d : Z) : Z * Z :=
  let ch := EQ hi d in
  let hi := MUX ch 0 hi in
  let '(hi, lo, q) := fold_left (divrem_step d) (map Z.of_nat (rev (seq 1 31))) (hi, lo, 0) in
  let cf := Z.lor (GE lo d) hi in
  (Z.lor q cf, MUX cf ((lo - d) mod B) lo).
(** powm.h:549-566 *)
Definition br_rem (hi lo d : Z) : Z := snd (br_divrem hi lo d).
Definition br_div (hi lo d : Z) : Z := fst (br_divrem hi lo d).

(** powm.h:647-665: subtract q*m; returns the words, [cc] and [tb] *)
Definition not32 (x : Z) : Z := 2 ^ 32 - 1 - x.
Fixpoint mul_sub (x m : list Z) (q cc tb : Z) : list Z * Z * Z :=
  match x, m with
  | xw :: x, mw :: m =>
      let zl := (mw * q + cc) mod W64 in
      let cc := Z.shiftr zl 32 mod B in
      let zw := zl mod B in
      let nxw := (xw - zw) mod B in
      let cc := (cc + GT nxw xw) mod W64 in
      let tb := MUX (EQ nxw mw) tb (GT nxw mw) in
      let '(r, cc, tb) := mul_sub x m q cc tb in
      (nxw :: r, cc, tb)
  | _, _ => ([], cc, tb)
  end.
(** powm.h:580-688 [br_i32_muladd_small]. *)
Definition br_i32_muladd_small (x : i32) (z : Z) (m : i32) : outcome i32 :=
  let m_bitlen := fst m in
  if m_bitlen =? 0 then Ok x
  else if m_bitlen <=? 32 then
    let* x1 := at_ (snd x) 0 in
    let* m1 := at_ (snd m) 0 in
    Ok (fst x, br_rem x1 z m1 :: skipn 1 (snd x))
  else
    let mlen := Z.to_nat (Z.shiftr ((m_bitlen + 31) mod B) 5) in
    let* a0 := br_i32_word (snd x) (m_bitlen - 32) in
    let* hi := at_ (snd x) (mlen - 1) in
    let* low := take (mlen - 1) (snd x) in
    let xs := z :: low ++ skipn mlen (snd x) in
    let* a1 := br_i32_word xs (m_bitlen - 32) in
    let* b0 := br_i32_word (snd m) (m_bitlen - 32) in
    let g := br_div a0 a1 b0 in
    let q := MUX (EQ a0 b0) 0xFFFFFFFF (MUX (EQ g 0) 0 ((g - 1) mod B)) in
    let* xw := take mlen xs in
    let* mw := take mlen (snd m) in
    let '(r, cc, tb) := mul_sub xw mw q 0 1 in
    let chf := Z.shiftr cc 32 mod B in
    let clow := cc mod B in
    let over := Z.lor chf (GT clow hi) in
    let under := Z.land (not32 over) (Z.lor tb (Z.land (not32 chf) (LT clow hi))) in
    let* a := br_i32_add (fst x, r ++ skipn mlen xs) m over in
    let* a := br_i32_sub (fst a) m under in
    Ok (fst a).

(** powm.h:700-741 [br_i32_reduce]: [x] is the destination array. *)
Fixpoint reduce_loop (u : nat) (x a m : i32) : outcome i32 :=
  match u with
  | O => Ok x
  | S u' => let* z := at_ (snd a) u' in let* x := br_i32_muladd_small x z m in reduce_loop u' x a m
  end.
Definition br_i32_reduce (x : list Z) (a m : i32) : outcome i32 :=
  let m_bitlen := fst m in
  let mlen := Z.to_nat (Z.shiftr ((m_bitlen + 31) mod B) 5) in
  if m_bitlen =? 0 then Ok (m_bitlen, x)
  else
    let a_bitlen := fst a in
    let alen := Z.to_nat (Z.shiftr ((a_bitlen + 31) mod B) 5) in
    if a_bitlen <? m_bitlen then
      let* src := take alen (snd a) in
      if Nat.leb mlen (length x) then Ok (m_bitlen, src ++ repeat 0 (mlen - alen) ++ skipn mlen x) else UB
    else
      let* src := take (mlen - 1) (skipn (1 + (alen - mlen)) (snd a)) in
      if Nat.leb mlen (length x) then
        reduce_loop (1 + alen - mlen) (m_bitlen, src ++ 0 :: skipn mlen x) a m
      else UB.

(** powm.h:84-92 *)
Record key_prop := mkprop { p_rr : list Z; p_modulus : list Z; p_exponent : list Z; p_n0inv : Z; p_num_bits : nat }.

(** powm.h:770-855 [rsa_gen_key_prop].  [2 * num_bits] overflows an int from 2^27 bytes on.
    [leading_zeros] is the loop of line 790.  [exp_len > 8] makes the memcpy of line 819 write in front of its block. *)
Definition rsa_gen_key_prop (mod_ exp : list Z) : outcome key_prop :=
  let i := leading_zeros mod_ in
  let modulus := skipn i mod_ in
  if 2 ^ 27 <=? zlen modulus then UB
  else
    let num_bits := (length modulus * 8)%nat in
    let n := repeat 0 (num_bits / 32) in
    let rr := repeat 0 (num_bits * 2 / 32) in
    let rrtmp := repeat 0 (1 + num_bits * 2 / 32) in
    if Nat.ltb 8 (length exp) then UB
    else
      let public_exponent := repeat 0 (8 - length exp) ++ exp in
      let* n := br_i32_decode n modulus (length modulus) in
      let* n1 := at_ (snd n) 0 in
      let n0inv := br_i32_ninv32 n1 in
      let rlen := (num_bits * 2)%nat in
      (* the bytes of the array rr: the word rr[0] = 1, then zeros *)
      if Nat.ltb (length rr) ((rlen + 31) / 32) then UB
      else
        let rr_bytes := [1; 0; 0; 0] ++ repeat 0 (4 * length rr) in
        let* t := br_i32_decode rrtmp rr_bytes ((rlen + 7) / 8 + 1) in
        let* rr := br_i32_reduce (repeat 0 (length rr)) t n in
        let* out := br_i32_encode ((num_bits + 7) / 8) rr in
        Ok (mkprop out modulus public_exponent n0inv num_bits).

(** powm.h:94-102 *)
Record pub_key := mkkey { k_len : nat; k_n0inv : Z; k_modulus : list Z; k_rr : list Z; k_exponent : Z }.

(** powm.h:863-874 [subtract_modulus]: [acc] is an int64_t. *)
Definition s64 (x : Z) : Z := let y := x mod W64 in if y <? 2 ^ 63 then y else y - W64.
Fixpoint sub_modulus (num n : list Z) (acc : Z) : list Z :=
  match num, n with
  | a :: num, m :: n =>
      let acc := s64 (acc + (a - m) mod W64) in
      acc mod B :: sub_modulus num n (Z.shiftr acc 32)
  | _, _ => []
  end.
Definition subtract_modulus (n num : list Z) : list Z := sub_modulus num n 0.
(** powm.h:883-897 [greater_equal_modulus]: the arrays given from the top. *)
Fixpoint ge_top (num n : list Z) : bool :=
  match num, n with
  | a :: num, m :: n => if a <? m then false else if m <? a then true else ge_top num n
  | _, _ => true
  end.
Definition greater_equal_modulus (n num : list Z) : bool := ge_top (rev num) (rev n).

(** powm.h:909-934 [montgomery_mul_add_step]: the loop from index 1, and the step. *)
Fixpoint mont_loop (b res n : list Z) (a d0 acc_a acc_b : Z) : list Z * Z * Z :=
  match b, res, n with
  | bi :: b, ri :: res, ni :: n =>
      let acc_a := (Z.shiftr acc_a 32 + a * bi + ri) mod W64 in
      let acc_b := (Z.shiftr acc_b 32 + d0 * ni + acc_a mod B) mod W64 in
      let '(r, acc_a', acc_b') := mont_loop b res n a d0 acc_a acc_b in
      (acc_b mod B :: r, acc_a', acc_b')
  | _, _, _ => ([], acc_a, acc_b)
  end.
Definition mont_step (n : list Z) (n0inv : Z) (res : list Z) (a : Z) (b : list Z) : outcome (list Z) :=
  match b, res, n with
  | b0 :: bt, r0 :: rt, n0 :: nt =>
      let acc_a := (a * b0 + r0) mod W64 in
      let d0 := (acc_a mod B * n0inv) mod B in
      let acc_b := (d0 * n0 + acc_a mod B) mod W64 in
      let '(r, acc_a, acc_b) := mont_loop bt rt nt a d0 acc_a acc_b in
      let acc_a := (Z.shiftr acc_a 32 + Z.shiftr acc_b 32) mod W64 in
      let r := r ++ [acc_a mod B] in
      Ok (if Z.shiftr acc_a 32 =? 0 then r else subtract_modulus n r)
  | _, _, _ => UB
  end.
(** powm.h:945-953 [montgomery_mul]. *)
Fixpoint mont_rows (n : list Z) (n0inv : Z) (res a b : list Z) : outcome (list Z) :=
  match a with
  | [] => Ok res
  | ai :: a => let* res := mont_step n n0inv res ai b in mont_rows n n0inv res a b
  end.
Definition montgomery_mul (key : pub_key) (a b : list Z) : outcome (list Z) :=
  mont_rows (k_modulus key) (k_n0inv key) (repeat 0 (k_len key)) a b.

(** powm.h:961-985 [num_public_exponent_bits] on a uint64_t: the position after the top bit. *)
Fixpoint exponent_bits (fuel : nat) (e : Z) (n : Z) : Z :=
  match fuel with
  | O => n
  | S fuel => if Z.shiftr e 1 =? 0 then n else exponent_bits fuel (Z.shiftr e 1) (n + 1)
  end.
Definition num_public_exponent_bits (e : Z) : Z := if e =? 0 then 0 else exponent_bits 64 e 1.
(** powm.h:993-997 [is_public_exponent_bit_set]: the result is converted to an int, 32 bits. *)
Definition is_public_exponent_bit_set (e : Z) (pos : Z) : bool := negb (Z.land e (2 ^ pos) mod 2 ^ 32 =? 0).

(** powm.h:1079-1085 [rsa_convert_big_endian], also the loop of lines 1024-1025: the first [len]
    big-endian words of a byte array, last word first. *)
Fixpoint be_words (len : nat) (src : list Z) : outcome (list Z) :=
  match len with
  | O => Ok []
  | S k => let* w := be32_at src (4 * k) in let* r := be_words k src in Ok (w :: r)
  end.

(** powm.h:1041-1056: the bits k-2 .. 1; [j] counts down *)
Fixpoint pow_bits (j : nat) (key : pub_key) (acc a_scaled : list Z) : outcome (list Z) :=
  match j with
  | O => Ok acc
  | S j' =>
      let* tmp := montgomery_mul key acc acc in
      let* acc := (if is_public_exponent_bit_set (k_exponent key) (Z.of_nat j)
                   then montgomery_mul key tmp a_scaled else Ok tmp) in
      pow_bits j' key acc a_scaled
  end.
(** powm.h:1005-1077 [pow_mod]: [inout] as bytes; [None] is -EINVAL. *)
Definition pow_mod (key : pub_key) (inout : list Z) : outcome (option (list Z)) :=
  let* val := be_words (k_len key) inout in
  let k := num_public_exponent_bits (k_exponent key) in
  if k <? 2 then Ok None
  else if negb (is_public_exponent_bit_set (k_exponent key) 0) then Ok None
  else
    let* acc := montgomery_mul key val (k_rr key) in
    let* acc := pow_bits (Z.to_nat (k - 2)) key acc acc in
    let* tmp := montgomery_mul key acc acc in
    let* acc := montgomery_mul key tmp val in
    let result := if greater_equal_modulus (k_modulus key) acc then subtract_modulus (k_modulus key) acc else acc in
    Ok (Some (flat_map be32_bytes (rev result) ++ skipn (4 * k_len key) inout)).

(** powm.h:127-132 [fdt64_to_cpup] *)
Definition be64 (b : list Z) : Z := fold_left (fun a x => a * 256 + x) b 0.
(** powm.h:1087-1143 [rsa_mod_exp_sw]: [None] is a non-zero return code. *)
Definition rsa_mod_exp_sw (sig : list Z) (prop : key_prop) : outcome (option (list Z)) :=
  if Nat.eqb (p_num_bits prop) 0 then Ok None
  else
    let len := (p_num_bits prop / 32)%nat in
    let* modulus := be_words len (p_modulus prop) in
    let* rr := be_words len (p_rr prop) in
    let key := mkkey len (p_n0inv prop) modulus rr (be64 (p_exponent prop)) in
    if negb (Nat.eqb (length sig mod 4) 0) then UB
    else pow_mod key sig.

(** rsa.hpp:160-168: the software branch of [powm] *)
Definition mod_exp_sw (base exponent modulus : list Z) : outcome (option (list Z)) :=
  let* prop := rsa_gen_key_prop modulus exponent in
  rsa_mod_exp_sw base prop.
