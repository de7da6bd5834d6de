(** Model of rsa_gen_key_prop, rsa_mod_exp_sw and their caller over memory: the struct, the arrays and the buffers
    of the caller are arrays of one memory, and every byte and word is read and written through pointers (memory
    and pointers as in RawModel, the routines of PowmRawModel and TraceModel).  Allocations succeed and blocks that
    are freed stay in the memory; both are the subject of C62.  Arrays hold either bytes or words; where the code
    casts between uint8_t* and uint32_t* the array is read in full and laid out anew, in little-endian order, in an
    array of its own, because it is not written while it is used through the other type. *)
From Coq Require Import List ZArith Bool.
From Verif Require Import Outcome UtilsModel WordsModel PowmModel RawModel PowmRawModel TraceModel.
Import ListNotations.
Open Scope Z_scope.

(** calloc, and the arrays laid out anew *)
Definition place (m : memory) (l : list Z) : memory * loc := (m ++ [l], (length m, 0%nat)).
(** (uint8_t* )p for n words; (uint32_t* )p for n words *)
Definition as_bytes (m : memory) (p : loc) (n : nat) : outcome (memory * loc) :=
  let* ws := load_n m p 0 n in Ok (place m (flat_map word_le ws)).
Definition as_words (m : memory) (p : loc) (n : nat) : outcome (memory * loc) :=
  let* bs := load_n m p 0 (4 * n) in
  match load_words n bs with Some ws => Ok (place m ws) | None => UB end.

(** powm.h:84-92 *)
Record raw_prop := mkrp { w_rr : loc; w_modulus : loc; w_exponent : loc; w_n0inv : Z; w_num_bits : nat }.

(** powm.h:790-791: k bytes are left, from index i *)
Fixpoint zeros_w (k i : nat) (m : memory) (p : loc) : outcome nat :=
  match k with
  | O => Ok i
  | S k => let* b := ld m p i in if b =? 0 then zeros_w k (S i) m p else Ok i
  end.
(** powm.h:770-855 [rsa_gen_key_prop]; num_bits * 2 overflows an int from 2^27 bytes on.  [exp_len > 8] makes the
    memcpy of line 819 write in front of its block. *)
Definition gen_key_w (junk : nat -> nat -> Z) (m : memory) (mod_ : loc) (mod_len : nat) (exp : loc) (exp_len : nat) : outcome (memory * raw_prop) :=
  let* i := zeros_w mod_len 0 m mod_ in
  let len := (mod_len - i)%nat in
  let num_bits := (len * 8)%nat in
  let '(m, modulus) := alloca m (junk 0%nat) len in
  let* m := memcpy_r m modulus (at_ mod_ i) len in
  if 2 ^ 27 <=? Z.of_nat len then UB else
  let '(m, n) := place m (repeat 0 (1 + num_bits / 32)) in
  let '(m, rr) := place m (repeat 0 (1 + num_bits * 2 / 32)) in
  let '(m, rrtmp) := place m (repeat 0 (2 + num_bits * 2 / 32)) in
  let '(m, pe) := place m (repeat 0 8) in
  if Nat.ltb 8 exp_len then UB else
  let* m := memcpy_r m (at_ pe (8 - exp_len)) exp exp_len in
  (* 827-828: n0 inverse *)
  let* m := fst (br_i32_decode_t m n (at_ mod_ i) len) in
  let* n1 := ld m n 1 in
  let n0inv := br_i32_ninv32 n1 in
  (* 831-837: R^2 mod n *)
  let rlen := (num_bits * 2)%nat in
  let* m := st m rr 0 0 in
  let* m := st m rr 0 (2 ^ (Z.of_nat rlen mod 8)) in
  let* m := clear_r ((rlen + 31) / 32) 1 rr m in
  let* v := as_bytes m rr (1 + num_bits * 2 / 32) in
  let '(m, v) := v in
  let* m := fst (br_i32_decode_t m rrtmp v ((rlen + 7) / 8 + 1)) in
  let* m := br_i32_reduce_r m rr rrtmp n in
  let rlen := ((num_bits + 7) / 8)%nat in
  let '(m, prr) := alloca m (junk 1%nat) rlen in
  let* m := fst (br_i32_encode_t m prr rlen rr) in
  Ok (m, mkrp prr modulus pe n0inv num_bits).

(** powm.h:1087-1143 [rsa_mod_exp_sw]: [false] is a non-zero return code.  The pointers of the struct are not NULL.
    memcpy of sig_len bytes into sig_len/4 words leaves the array unless 4 divides sig_len. *)
Definition mod_exp_w (junk : nat -> nat -> Z) (m : memory) (sig : loc) (sig_len : nat) (prop : raw_prop) (out : loc) : outcome (bool * memory) :=
  let* e := load_n m (w_exponent prop) 0 8 in
  if Nat.eqb (w_num_bits prop) 0 then Ok (false, m)
  else
    let len := (w_num_bits prop / 32)%nat in
    let '(m, key1) := alloca m (junk 2%nat) len in
    let '(m, key2) := alloca m (junk 3%nat) len in
    let* v := as_words m (w_modulus prop) len in
    let '(m, v) := v in
    let* m := load_val_r len 0 key1 v m in
    let* v := as_words m (w_rr prop) len in
    let '(m, v) := v in
    let* m := load_val_r len 0 key2 v m in
    if negb (Nat.eqb (sig_len mod 4) 0) then UB
    else
      let* v := as_words m sig (sig_len / 4) in
      let '(m, buf) := v in
      let* r := pow_mod_r (fun i => junk (4 + i)%nat) m (mkraw len (w_n0inv prop) key1 key2 (be64 e)) buf in
      let '(ok, m) := r in
      if ok then
        let* ws := load_n m buf 0 (sig_len / 4) in
        let* m := store_n m out 0 (flat_map word_le ws) in
        Ok (true, m)
      else Ok (false, m).

(** rsa.hpp:160-168: the software branch of [powm]: out is a new buffer as long as the base there; here any buffer
    of that size.  The memory of the callees is gone at return. *)
Definition powm_w (junk : nat -> nat -> Z) (m0 : memory) (base : loc) (base_len : nat) (exp : loc) (exp_len : nat) (mod_ : loc) (mod_len : nat) (out : loc) : outcome (bool * memory) :=
  let* r := gen_key_w junk m0 mod_ mod_len exp exp_len in
  let '(m, prop) := r in
  let* r := mod_exp_w junk m base base_len prop out in
  Ok (fst r, leave m0 (snd r)).

(** rsa.hpp:141-171: [powm] on pointers; the sizes fit 32 bits.  The result is the returned size and the memory. *)
Definition powm_call_w (junk : nat -> nat -> Z) (m : memory) (base : loc) (base_len : nat) (exp : loc) (exp_len : nat) (mod_ : loc) (mod_len : nat) (out : loc) (out_len : nat) : outcome (nat * memory) :=
  let* _ := check (negb (Nat.eqb base_len 0) && negb (Nat.eqb mod_len 0) && negb (Nat.eqb exp_len 0)) in
  let* _ := check (Nat.eqb base_len mod_len) in
  if Nat.eqb out_len 0 then Ok (base_len, m)
  else
    let* _ := check (Nat.leb base_len out_len) in
    let* r := powm_w junk m base base_len exp exp_len mod_ mod_len out in
    Ok (if fst r then base_len else 0%nat, snd r).
(** rsa.hpp:183-185: the bytes from index i on, k of them, are zero *)
Fixpoint small_w (k i : nat) (m : memory) (p : loc) : outcome unit :=
  match k with
  | O => Ok tt
  | S k => let* b := ld m p i in let* _ := check (b =? 0) in small_w k (S i) m p
  end.
(** rsa.hpp:181-196: [powm] on views.  The vector is zeroed; its contents are the result, the returned size is
    not looked at. *)
Definition powm_view_w (junk : nat -> nat -> Z) (m0 : memory) (base : loc) (base_len : nat) (exp : loc) (exp_len : nat) (mod_ : loc) (mod_len : nat) : outcome (list Z * memory) :=
  let* _ := if Nat.ltb 8 exp_len then small_w (exp_len - 8) 0 m0 exp else Ok tt in
  let '(m, result) := place m0 (repeat 0 mod_len) in
  let* r := powm_call_w junk m base base_len exp exp_len mod_ mod_len result mod_len in
  let* v := load_n (snd r) result 0 mod_len in
  Ok (v, leave m0 (snd r)).
