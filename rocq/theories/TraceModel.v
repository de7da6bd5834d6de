(** What the routines of c/powm.h let an observer see: the loops of PowmRawModel again, writing down every
    address read or written and every decision of an [if], [switch] or loop condition, in order, also when the
    run ends in undefined behaviour.  Arithmetic instructions are taken to be silent: the time of +, -, *, shifts
    and bit operations is assumed not to depend on their operands (powm.h:258 names the multiplication).  Local
    variables live in registers.  Arrays of bytes are arrays of the memory whose cells hold a byte. *)
From Coq Require Import List ZArith Bool.
From Verif Require Import Outcome WordsModel PowmModel RawModel PowmRawModel.
Import ListNotations.
Open Scope Z_scope.

Inductive event := Rd (p : loc) | Wr (p : loc) | Br (b : bool) | Sw (n : nat).
Definition traced (A : Type) : Type := (outcome A * list event)%type.
Definition ret {A} (a : A) : traced A := (Ok a, []).
Definition tbind {A C} (x : traced A) (f : A -> traced C) : traced C :=
  let '(o, t) := x in
  match o with
  | Ok a => let '(o, t') := f a in (o, t ++ t')
  | Abort => (Abort, t)
  | UB => (UB, t)
  | NoFuel => (NoFuel, t)
  end.
Declare Scope traced_scope.
Notation "'let+' x ':=' m 'in' k" := (tbind m (fun x => k)) (at level 200, x pattern, m at level 100, k at level 200, right associativity) : traced_scope.
Open Scope traced_scope.
Definition ldt (m : memory) (p : loc) (i : nat) : traced Z := (ld m p i, [Rd (at_ p i)]).
Definition stt (m : memory) (p : loc) (i : nat) (w : Z) : traced memory := (st m p i w, [Wr (at_ p i)]).
(** the decision of a condition *)
Definition decide (b : bool) : traced unit := (Ok tt, [Br b]).
Definition undefined {A} : traced A := (UB, []).

(** memmove, memcpy: the words are read, then written; whether the ranges overlap is not looked at by the code *)
Fixpoint load_t (m : memory) (p : loc) (i n : nat) : traced (list Z) :=
  match n with
  | O => ret []
  | S n => let+ w := ldt m p i in let+ r := load_t m p (S i) n in ret (w :: r)
  end.
Fixpoint store_t (m : memory) (p : loc) (i : nat) (ws : list Z) : traced memory :=
  match ws with
  | [] => ret m
  | w :: ws => let+ m := stt m p i w in store_t m p (S i) ws
  end.
Definition memmove_t (m : memory) (dst src : loc) (n : nat) : traced memory :=
  let+ ws := load_t m src 0 n in store_t m dst 0 ws.
Definition memcpy_t (m : memory) (dst src : loc) (n : nat) : traced memory :=
  if overlap dst src n then undefined else memmove_t m dst src n.
(** a loop that clears words *)
Fixpoint clear_t (k i : nat) (x : loc) (m : memory) : traced memory :=
  match k with
  | O => let+ _ := decide false in ret m
  | S k => let+ _ := decide true in let+ m := stt m x i 0 in clear_t k (S i) x m
  end.

(** powm.h:280-292 *)
Definition br_i32_word_t (m : memory) (a : loc) (off : Z) : traced Z :=
  let u := (Z.to_nat (Z.shiftr off 5) + 1)%nat in
  let j := Z.land off 31 in
  let+ _ := decide (j =? 0) in
  if j =? 0 then ldt m a u
  else
    let+ lo := ldt m a u in
    let+ hi := ldt m a (u + 1) in
    ret (Z.lor (Z.shiftr lo j) (Z.shiftl hi (32 - j) mod B)).

(** powm.h:319-334 [br_i32_bit_length]: words xlen-1 ... 0 *)
Fixpoint bit_length_loop_t (xlen : nat) (m : memory) (x : loc) (s : Z * Z) : traced (Z * Z) :=
  match xlen with
  | O => let+ _ := decide false in ret s
  | S k =>
      let+ _ := decide true in
      let+ w := ldt m x k in
      bit_length_loop_t k m x (bit_length_step k w s)
  end.
Definition br_i32_bit_length_t (m : memory) (x : loc) (xlen : nat) : traced Z :=
  let+ s := bit_length_loop_t xlen m x (0, 0) in
  ret ((Z.shiftl (snd s) 5 mod B + BIT_LENGTH (fst s)) mod B).

(** powm.h:105-107, 140-158: big-endian loads from bytes *)
Definition dec16_t (m : memory) (b : loc) (o : nat) : traced Z :=
  let+ b0 := ldt m b o in
  let+ b1 := ldt m b (o + 1) in
  ret (Z.lor (Z.shiftl b0 8) b1).
Definition dec32_t (m : memory) (b : loc) (o : nat) : traced Z :=
  let+ b0 := ldt m b o in
  let+ b1 := ldt m b (o + 1) in
  let+ b2 := ldt m b (o + 2) in
  let+ b3 := ldt m b (o + 3) in
  ret (Z.lor (Z.shiftl b0 24) (Z.lor (Z.shiftl b1 16) (Z.lor (Z.shiftl b2 8) b3))).
(** powm.h:344-388 [br_i32_decode]: the endless loop; u bytes are left, the next word goes to index v.
    Returns the v after the loop. *)
Fixpoint decode_loop_t (fuel : nat) (m : memory) (x buf : loc) (u v : nat) : traced (memory * nat) :=
  let+ _ := decide (Nat.ltb u 4) in
  if Nat.ltb u 4 then
    let+ _ := decide (Nat.ltb u 2) in
    if Nat.ltb u 2 then
      let+ _ := decide (Nat.eqb u 0) in
      if Nat.eqb u 0 then ret (m, v)
      else let+ w := ldt m buf 0 in let+ m := stt m x v w in ret (m, S v)
    else
      let+ _ := decide (Nat.eqb u 2) in
      if Nat.eqb u 2 then let+ w := dec16_t m buf 0 in let+ m := stt m x v w in ret (m, S v)
      else
        let+ b := ldt m buf 0 in
        let+ w := dec16_t m buf 1 in
        let+ m := stt m x v (Z.lor (Z.shiftl b 16) w) in ret (m, S v)
  else
    match fuel with
    | O => (NoFuel, [])
    | S fuel =>
        let+ w := dec32_t m buf (u - 4) in
        let+ m := stt m x v w in
        decode_loop_t fuel m x buf (u - 4) (S v)
    end.
Definition br_i32_decode_t (m : memory) (x src : loc) (len : nat) : traced memory :=
  let+ r := decode_loop_t len m x src len 1 in
  let '(m, v) := r in
  let+ h := br_i32_bit_length_t m (at_ x 1) (v - 1) in
  stt m x 0 h.

(** powm.h:399-439 [br_i32_encode]; 223-229: br_enc32be stores four bytes, the top one first *)
(** 433-437: words k ... 1, bytes from index o *)
Fixpoint encode_loop_t (k : nat) (m : memory) (dst : loc) (o : nat) (x : loc) : traced memory :=
  match k with
  | O => let+ _ := decide false in ret m
  | S k' =>
      let+ _ := decide true in
      let+ w := ldt m x k in
      let+ m := store_t m dst o (be32_bytes w) in
      encode_loop_t k' m dst (o + 4) x
  end.
(** 419-428: the partial word; every byte stored reads x[k] *)
Fixpoint partial_t (m : memory) (dst : loc) (o : nat) (x : loc) (k : nat) (shifts : list Z) : traced memory :=
  match shifts with
  | [] => ret m
  | s :: shifts =>
      let+ w := ldt m x k in
      let+ m := stt m dst o (Z.shiftr w s mod 256) in
      partial_t m dst (S o) x k shifts
  end.
Definition br_i32_encode_t (m : memory) (dst : loc) (len : nat) (x : loc) : traced memory :=
  let+ h := ldt m x 0 in
  let k := Z.to_nat (Z.shiftr ((h + 7) mod B) 3) in
  let+ m := clear_t (len - k) 0 dst m in
  let o := (len - k)%nat in
  let len := Nat.min len k in
  let k := ((len + 3) / 4)%nat in
  let r := (len mod 4)%nat in
  let+ _ := ((Ok tt, [Sw r]) : traced unit) in
  match r with
  | 0%nat => encode_loop_t k m dst o x
  | _ =>
      let+ m := partial_t m dst o x k (skipn (3 - r) [16; 8; 0]) in
      encode_loop_t (k - 1) m dst (o + r) x
  end.

(** powm.h:452-474, 484-506 *)
Fixpoint add_ctl_t (k u : nat) (a b : loc) (ctl cc : Z) (m : memory) : traced (Z * memory) :=
  match k with
  | O => let+ _ := decide false in ret (cc, m)
  | S k =>
      let+ _ := decide true in
      let+ aw := ldt m a u in
      let+ bw := ldt m b u in
      let naw := (aw + bw + cc) mod B in
      let cc := Z.lor (Z.land cc (EQ naw aw)) (LT naw aw) in
      let+ m := stt m a u (MUX ctl naw aw) in
      add_ctl_t k (S u) a b ctl cc m
  end.
Fixpoint sub_ctl_t (k u : nat) (a b : loc) (ctl cc : Z) (m : memory) : traced (Z * memory) :=
  match k with
  | O => let+ _ := decide false in ret (cc, m)
  | S k =>
      let+ _ := decide true in
      let+ aw := ldt m a u in
      let+ bw := ldt m b u in
      let naw := (aw - bw - cc) mod B in
      let cc := Z.lor (Z.land cc (EQ naw aw)) (GT naw aw) in
      let+ m := stt m a u (MUX ctl naw aw) in
      sub_ctl_t k (S u) a b ctl cc m
  end.
Definition br_i32_add_t (m : memory) (a b : loc) (ctl : Z) : traced (Z * memory) :=
  let+ h := ldt m a 0 in add_ctl_t (word_count h) 1 a b ctl 0 m.
Definition br_i32_sub_t (m : memory) (a b : loc) (ctl : Z) : traced (Z * memory) :=
  let+ h := ldt m a 0 in sub_ctl_t (word_count h) 1 a b ctl 0 m.

(** powm.h:516-543 [br_divrem], 549-566: k = 31 ... 1 *)
Fixpoint divrem_loop_t (k : nat) (d : Z) (s : Z * Z * Z) : traced (Z * Z * Z) :=
  match k with
  | O => let+ _ := decide false in ret s
  | S k' => let+ _ := decide true in divrem_loop_t k' d (divrem_step d s (Z.of_nat k))
  end.
Definition br_divrem_t (hi lo d : Z) : traced (Z * Z) :=
  let ch := EQ hi d in
  let+ r := divrem_loop_t 31 d (MUX ch 0 hi, lo, 0) in
  let '(hi, lo, q) := r in
  let cf := Z.lor (GE lo d) hi in
  ret (Z.lor q cf, MUX cf ((lo - d) mod B) lo).
Definition br_rem_t (hi lo d : Z) : traced Z := let+ r := br_divrem_t hi lo d in ret (snd r).
Definition br_div_t (hi lo d : Z) : traced Z := let+ r := br_divrem_t hi lo d in ret (fst r).

(** powm.h:647-665 *)
Fixpoint mul_sub_t (k u : nat) (x n : loc) (q cc tb : Z) (m : memory) : traced (Z * Z * memory) :=
  match k with
  | O => let+ _ := decide false in ret (cc, tb, m)
  | S k =>
      let+ _ := decide true in
      let+ mw := ldt m n u in
      let zl := (mw * q + cc) mod W64 in
      let cc := Z.shiftr zl 32 mod B in
      let zw := zl mod B in
      let+ xw := ldt m x u in
      let nxw := (xw - zw) mod B in
      let cc := (cc + GT nxw xw) mod W64 in
      let+ m := stt m x u nxw in
      let tb := MUX (EQ nxw mw) tb (GT nxw mw) in
      mul_sub_t k (S u) x n q cc tb m
  end.
(** powm.h:580-688 *)
Definition br_i32_muladd_small_t (m : memory) (x : loc) (z : Z) (n : loc) : traced memory :=
  let+ m_bitlen := ldt m n 0 in
  let+ _ := decide (m_bitlen =? 0) in
  if m_bitlen =? 0 then ret m
  else
    let+ _ := decide (m_bitlen <=? 32) in
    if m_bitlen <=? 32 then
      let+ x1 := ldt m x 1 in
      let+ m1 := ldt m n 1 in
      let+ r := br_rem_t x1 z m1 in
      stt m x 1 r
    else
      let mlen := Z.to_nat (Z.shiftr ((m_bitlen + 31) mod B) 5) in
      let+ a0 := br_i32_word_t m x (m_bitlen - 32) in
      let+ hi := ldt m x mlen in
      let+ m := memmove_t m (at_ x 2) (at_ x 1) (mlen - 1) in
      let+ m := stt m x 1 z in
      let+ a1 := br_i32_word_t m x (m_bitlen - 32) in
      let+ b0 := br_i32_word_t m n (m_bitlen - 32) in
      let+ g := br_div_t a0 a1 b0 in
      let q := MUX (EQ a0 b0) 0xFFFFFFFF (MUX (EQ g 0) 0 ((g - 1) mod B)) in
      let+ r := mul_sub_t mlen 1 x n q 0 1 m in
      let '(cc, tb, m) := r in
      let chf := Z.shiftr cc 32 mod B in
      let clow := cc mod B in
      let over := Z.lor chf (GT clow hi) in
      let under := Z.land (not32 over) (Z.lor tb (Z.land (not32 chf) (LT clow hi))) in
      let+ r := br_i32_add_t m x n over in
      let+ r := br_i32_sub_t (snd r) x n under in
      ret (snd r).
(** powm.h:700-741 *)
Fixpoint reduce_loop_t (u : nat) (x a n : loc) (m : memory) : traced memory :=
  match u with
  | O => let+ _ := decide false in ret m
  | S u' =>
      let+ _ := decide true in
      let+ z := ldt m a u in let+ m := br_i32_muladd_small_t m x z n in reduce_loop_t u' x a n m
  end.
Definition br_i32_reduce_t (m : memory) (x a n : loc) : traced memory :=
  let+ m_bitlen := ldt m n 0 in
  let mlen := Z.to_nat (Z.shiftr ((m_bitlen + 31) mod B) 5) in
  let+ m := stt m x 0 m_bitlen in
  let+ _ := decide (m_bitlen =? 0) in
  if m_bitlen =? 0 then ret m
  else
    let+ a_bitlen := ldt m a 0 in
    let alen := Z.to_nat (Z.shiftr ((a_bitlen + 31) mod B) 5) in
    let+ _ := decide (a_bitlen <? m_bitlen) in
    if a_bitlen <? m_bitlen then
      let+ m := memcpy_t m (at_ x 1) (at_ a 1) alen in
      clear_t (mlen - alen) (alen + 1) x m
    else
      let+ m := memcpy_t m (at_ x 1) (at_ a (2 + (alen - mlen))) (mlen - 1) in
      let+ m := stt m x mlen 0 in
      reduce_loop_t (1 + alen - mlen) x a n m.

(** powm.h:863-874 [subtract_modulus] *)
Fixpoint sub_modulus_t (k i : nat) (num n : loc) (acc : Z) (m : memory) : traced memory :=
  match k with
  | O => let+ _ := decide false in ret m
  | S k =>
      let+ _ := decide true in
      let+ a := ldt m num i in
      let+ b := ldt m n i in
      let acc := s64 (acc + (a - b) mod W64) in
      let+ m := stt m num i (acc mod B) in
      sub_modulus_t k (S i) num n (Z.shiftr acc 32) m
  end.
Definition subtract_modulus_t (m : memory) (key : raw_key) (num : loc) : traced memory :=
  sub_modulus_t (r_len key) 0 num (r_modulus key) 0 m.
(** powm.h:883-897 [greater_equal_modulus] *)
Fixpoint ge_modulus_t (k : nat) (m : memory) (num n : loc) : traced bool :=
  match k with
  | O => let+ _ := decide false in ret true
  | S i =>
      let+ _ := decide true in
      let+ a := ldt m num i in
      let+ b := ldt m n i in
      let+ _ := decide (a <? b) in
      if a <? b then ret false
      else let+ _ := decide (b <? a) in if b <? a then ret true else ge_modulus_t i m num n
  end.
Definition greater_equal_modulus_t (m : memory) (key : raw_key) (num : loc) : traced bool :=
  ge_modulus_t (r_len key) m num (r_modulus key).
(** powm.h:909-953 *)
Fixpoint mont_loop_t (k i : nat) (result : loc) (a : Z) (b n : loc) (d0 acc_a acc_b : Z) (m : memory) : traced (Z * Z * memory) :=
  match k with
  | O => let+ _ := decide false in ret (acc_a, acc_b, m)
  | S k =>
      let+ _ := decide true in
      let+ bi := ldt m b (S i) in
      let+ ri := ldt m result (S i) in
      let acc_a := (Z.shiftr acc_a 32 + a * bi + ri) mod W64 in
      let+ ni := ldt m n (S i) in
      let acc_b := (Z.shiftr acc_b 32 + d0 * ni + acc_a mod B) mod W64 in
      let+ m := stt m result i (acc_b mod B) in
      mont_loop_t k (S i) result a b n d0 acc_a acc_b m
  end.
Definition mont_step_t (m : memory) (key : raw_key) (result : loc) (a : Z) (b : loc) : traced memory :=
  let+ b0 := ldt m b 0 in
  let+ r0 := ldt m result 0 in
  let acc_a := (a * b0 + r0) mod W64 in
  let d0 := (acc_a mod B * r_n0inv key) mod B in
  let+ n0 := ldt m (r_modulus key) 0 in
  let acc_b := (d0 * n0 + acc_a mod B) mod W64 in
  let+ r := mont_loop_t (r_len key - 1) 0 result a b (r_modulus key) d0 acc_a acc_b m in
  let '(acc_a, acc_b, m) := r in
  let acc_a := (Z.shiftr acc_a 32 + Z.shiftr acc_b 32) mod W64 in
  let+ m := stt m result (r_len key - 1) (acc_a mod B) in
  let+ _ := decide (Z.shiftr acc_a 32 =? 0) in
  if Z.shiftr acc_a 32 =? 0 then ret m else subtract_modulus_t m key result.
Fixpoint mont_rows_t (k i : nat) (key : raw_key) (result a b : loc) (m : memory) : traced memory :=
  match k with
  | O => let+ _ := decide false in ret m
  | S k =>
      let+ _ := decide true in
      let+ ai := ldt m a i in
      let+ m := mont_step_t m key result ai b in
      mont_rows_t k (S i) key result a b m
  end.
Definition montgomery_mul_t (m : memory) (key : raw_key) (result a b : loc) : traced memory :=
  let+ m := clear_t (r_len key) 0 result m in
  mont_rows_t (r_len key) 0 key result a b m.

(** powm.h:827, 837, 846: the calls of rsa_gen_key_prop that compute, in order: the modulus is read from its len
    bytes into n, R^2 in rrtmp is reduced into rr, and rr is written out as olen bytes *)
Definition derive_t (m : memory) (n src : loc) (len : nat) (rr rrtmp : loc) (dst : loc) (olen : nat) : traced memory :=
  let+ m := br_i32_decode_t m n src len in
  let+ m := br_i32_reduce_t m rr rrtmp n in
  br_i32_encode_t m dst olen rr.
