(** Model of bigint.hpp, namespace ack::detail: arithmetic on arrays of 32-bit words.
    A word array is a [list Z], least significant word first; its length is the element count the
    C++ function receives.  Functions that write through a pointer return the new contents.
    In-place use (destination = source) reads index i before writing index i in every loop below
    (or, for [shl_n], runs from the top down), so value semantics is exact; C58 proves it of the loops
    over memory in RawModel.v. *)
From Coq Require Import List ZArith Bool.
From Verif Require Import Outcome LoopModel.
Import ListNotations.
Open Scope Z_scope.

(** types.hpp:15-16,30: [word_t] is [uint32_t], [word_bit_size] is 32. *)
Definition B : Z := 2 ^ 32.
Definition W64 : Z := 2 ^ 64.

(** bigint.hpp:62-77 [cabs] (32- and 64-bit): the minimum value is special-cased, so both are exact. *)
Definition cabs32 (x : Z) : Z :=
  if 0 <=? x then x else if x =? -2147483648 then 2147483648 else - x.
Definition cabs64 (x : Z) : Z :=
  if 0 <=? x then x else if x =? -9223372036854775808 then 9223372036854775808 else - x.

(** bigint.hpp:99-108 [cmp_n]: from the most significant word down; 1, -1 or 0. *)
Fixpoint cmp_top (x y : list Z) : Z :=      (* arrays given most significant word first *)
  match x, y with
  | a :: x', b :: y' => if a =? b then cmp_top x' y' else if a >? b then 1 else -1
  | _, _ => 0
  end.
Definition cmp_n (x y : list Z) : Z := cmp_top (rev x) (rev y).

(** bigint.hpp:79-90 [cmp_ge_n] and 92-97 [cmp_lt_n]. *)
Fixpoint cmp_ge_top (x y : list Z) : bool :=
  match x, y with
  | a :: x', b :: y' => if a >? b then true else if a <? b then false else cmp_ge_top x' y'
  | _, _ => true
  end.
Definition cmp_ge_n (x y : list Z) : bool := cmp_ge_top (rev x) (rev y).
Definition cmp_lt_n (x y : list Z) : bool := negb (cmp_ge_n x y).

(** bigint.hpp:121-131 [get_real_size]: drop leading zero words, at least 1. *)
Fixpoint real_size_top (x : list Z) : nat :=   (* most significant word first *)
  match x with
  | [] => O
  | a :: t => if a =? 0 then real_size_top t else length x
  end.
Definition get_real_size (x : list Z) : nat :=
  let n := real_size_top (rev x) in if Nat.ltb 0 n then n else 1%nat.

(** bigint.hpp:133-148 [bsr]: index of the highest set bit, [countl_zero(x) ^ 31].  For [x = 0]
    [countl_zero] is 32 and the expression is [32 xor 31 = 63]. *)
Definition bsr32 (x : Z) : Z := if x =? 0 then 63 else Z.log2 x.

(** bigint.hpp:154-159 [mul_word1] (32-bit): high and low word of the product. *)
Definition mul_word1 (x y : Z) : Z * Z :=
  let t := (x * y) mod W64 in (t / B, t mod B).

(** bigint.hpp:172-200 [get_add]/[add_n]: 64-bit accumulator [v], carry [v >> 32]. *)
Fixpoint add_loop (x y : list Z) (c : Z) : list Z * Z :=
  match x, y with
  | a :: x', b :: y' =>
      let v := (a + b + c) mod W64 in
      let '(z, c') := add_loop x' y' (v / B) in
      (v mod B :: z, c')
  | _, _ => ([], c mod B)
  end.
Definition add_n (x y : list Z) : list Z * Z := add_loop x y 0.

(** bigint.hpp:202-230 [get_sub]/[sub_n]: 64-bit wrap-around, borrow is bit 63. *)
Fixpoint sub_loop (x y : list Z) (c : Z) : list Z * Z :=
  match x, y with
  | a :: x', b :: y' =>
      let v := (a - b - c) mod W64 in
      let '(z, c') := sub_loop x' y' (v / 2 ^ 63) in
      (v mod B :: z, c')
  | _, _ => ([], c)
  end.
Definition sub_n (x y : list Z) : list Z * Z := sub_loop x y 0.

(** bigint.hpp:232-250 [get_mul_word]/[mul_word_n]: z = x*y, returns the top word. *)
Fixpoint mul_word_loop (x : list Z) (y H : Z) : list Z * Z :=
  match x with
  | [] => ([], H mod B)
  | a :: x' =>
      let v := ((a * y) mod W64 + H) mod W64 in
      let '(z, H') := mul_word_loop x' y (v / B) in
      (v mod B :: z, H')
  end.
Definition mul_word_n (x : list Z) (y : Z) : list Z * Z := mul_word_loop x y 0.

(** bigint.hpp:252-272 [get_mul_word_add]/[mul_word_add_n]: z += x*y, returns the top word. *)
Fixpoint mul_word_add_loop (z x : list Z) (y H : Z) : list Z * Z :=
  match z, x with
  | c :: z', a :: x' =>
      let v := (((a * y) mod W64 + H) mod W64 + c) mod W64 in
      let '(r, H') := mul_word_add_loop z' x' y (v / B) in
      (v mod B :: r, H')
  | _, _ => ([], H)
  end.
Definition mul_word_add_n (z x : list Z) (y : Z) : list Z * Z :=
  let '(r, H) := mul_word_add_loop z x y 0 in (r, H mod B).

(** bigint.hpp:274-282 [mul_n] as written: the accumulating step uses [get_mul_word], which
    overwrites instead of adding.  [pz] grows by one word per step; step i rewrites words i..i+n. *)
Fixpoint mul_n_loop (z x : list Z) (i : nat) (ys : list Z) : list Z :=
  match ys with
  | [] => z
  | y :: ys' =>
      let '(r, h) := mul_word_n x y in
      mul_n_loop (firstn i z ++ r ++ [h]) x (S i) ys'
  end.
Definition mul_n (x y : list Z) : list Z :=
  match y with
  | [] => []
  | y0 :: ys => let '(r, h) := mul_word_n x y0 in mul_n_loop (r ++ [h]) x 1 ys
  end.

(** bigint.hpp:307-320 [shl_n], 0 < bit < 32: returns shifted words and the bits shifted out.
    The C++ loop runs from the top word down; output word i depends on input words i and i-1 only. *)
Fixpoint shl_loop (lo : Z) (x : list Z) (bit : Z) : list Z :=
  match x with
  | [] => []
  | a :: t => Z.lor (Z.shiftl a bit mod B) (Z.shiftr lo (32 - bit)) :: shl_loop a t bit
  end.
Definition shl_n (x : list Z) (bit : Z) : list Z * Z :=
  (shl_loop 0 x bit, Z.shiftr (last x 0) (32 - bit)).

(** bigint.hpp:324-335 [shr_n], 0 < bit < 32. *)
Fixpoint shr_loop (prev : Z) (x : list Z) (bit : Z) : list Z :=
  match x with
  | [] => [Z.shiftr prev bit]
  | t :: x' => Z.lor (Z.shiftr prev bit) (Z.shiftl t (32 - bit) mod B) :: shr_loop t x' bit
  end.
Definition shr_n (x : list Z) (bit : Z) : list Z :=
  match x with
  | [] => []   (* never called with n = 0 *)
  | a :: t => shr_loop a t bit
  end.

(** bigint.hpp:344-362 [shift_left]: q zero words, then the shifted words (one more when r > 0). *)
Definition shift_left (x : list Z) (bit : Z) : list Z :=
  let q := bit / 32 in
  let r := bit mod 32 in
  repeat 0 (Z.to_nat q) ++
    (if r =? 0 then x else let '(z, top) := shl_n x r in z ++ [top]).

(** bigint.hpp:370-385 [shift_right], requires bit <= 32*xn. *)
Definition shift_right (x : list Z) (bit : Z) : list Z :=
  let q := bit / 32 in
  let r := bit mod 32 in
  let x' := skipn (Z.to_nat q) x in
  if r =? 0 then x' else shr_n x' r.

(** bigint.hpp:388-402 [add_word]: y += x, returns the carry. *)
Fixpoint add_one (y : list Z) : list Z * Z :=     (* lines 396-401 *)
  match y with
  | [] => ([], 1)
  | a :: t =>
      let v := (a + 1) mod B in
      if v =? 0 then let '(r, c) := add_one t in (v :: r, c) else (v :: t, 0)
  end.
Definition add_word (y : list Z) (x : Z) : list Z * Z :=
  match y with
  | [] => ([], 0)
  | a :: t =>
      let v := (a + x) mod B in
      if v >=? x then (v :: t, 0)
      else let '(r, c) := add_one t in (v :: r, c)
  end.

(** bigint.hpp:405-419 [sub_word]: y -= x, returns the borrow. *)
Fixpoint sub_one (y : list Z) : list Z * Z :=     (* lines 413-418 *)
  match y with
  | [] => ([], 1)
  | a :: t =>
      let v := (a - 1) mod B in
      if a =? 0 then let '(r, c) := sub_one t in (v :: r, c) else (v :: t, 0)
  end.
Definition sub_word (y : list Z) (x : Z) : list Z * Z :=
  match y with
  | [] => ([], 0)
  | a :: t =>
      let v := (a - x) mod B in
      if a >=? x then (v :: t, 0)
      else let '(r, c) := sub_one t in (v :: r, c)
  end.

(** bigint.hpp:421-428 [div_word1] (32-bit): quotient and remainder of (H:L) by y. *)
Definition div_word1 (H L y : Z) : Z * Z :=
  let t := Z.lor (Z.shiftl H 32) L in
  ((t / y) mod B, (t mod y) mod B).

(** bigint.hpp:444-454 [div_word]; words are visited from the top. *)
Fixpoint div_word_loop (r : Z) (x : list Z) (y : Z) : list Z * Z :=   (* top word first *)
  match x with
  | [] => ([], r)
  | a :: t =>
      let '(q, r') := div_word1 r a y in
      let '(qs, rr) := div_word_loop r' t y in
      (q :: qs, rr)
  end.
Definition div_word (x : list Z) (y : Z) : outcome (list Z * Z) :=
  let* _ := check (negb (y =? 0)) in
  let '(q, r) := div_word_loop 0 (rev x) y in
  Ok (rev q, r).

(** bigint.hpp:460-470 [mod_word]. *)
Definition mod_word (x : list Z) (y : Z) : outcome Z :=
  let* _ := check (negb (y =? 0)) in
  Ok (snd (div_word_loop 0 (rev x) y)).

(** bigint.hpp:475-482: [q[0] = qv; clear_n(q+1, qn-1)]. *)
Definition q_of (qn : nat) (qv : Z) : list Z := qv :: repeat 0 (qn - 1).

(** bigint.hpp:519-522: correction loop of [div_small]; at most 2^k subtractions. *)
Definition div_small_step (y : list Z) (s : list Z * Z) : loopres (list Z * Z) (outcome (list Z * Z)) :=
  let '(x, qv) := s in
  if cmp_ge_n x y then Next (fst (sub_n x y), (qv + 1) mod B) else Done (Ok (x, qv)).

(** bigint.hpp:473-527 [div_small]; [None] models the return value 0 ("not handled").
    Otherwise the new q (when q is not null), the new x and its real size.
    The quotient array is computed even when the C++ pointer q is null; nothing else reads it. *)
Definition div_small (qn : nat) (x y : list Z) : outcome (option (list Z * list Z * nat)) :=
  let xn := length x in
  let yn := length y in
  if Nat.ltb yn xn then Ok None
  else
    let yTop := last y 0 in
    let ret := if Nat.ltb xn yn then -1 else cmp_n x y in
    if ret <? 0 then Ok (Some (q_of qn 0, x, get_real_size x))
    else if ret =? 0 then
      let x' := repeat 0 xn in Ok (Some (q_of qn 1, x', get_real_size x'))
    else if yTop >=? 2 ^ 16 then
      let '(x1, qv) :=
        if yTop =? B - 1 then (fst (sub_n x y), 1)
        else
          let qv := last x 0 / ((yTop + 1) mod B) in
          let t := fst (mul_word_n y qv) in
          (fst (sub_n x t), qv) in
      let* xq := run_loop (32 * xn + 1) (div_small_step y) (x1, qv) in
      let '(x2, qv2) := xq in
      Ok (Some (q_of qn qv2, x2, get_real_size x2))
    else Ok None.

(** add a word to the array [q] from position [d] on: [add_word(q + d, qn - d, v)] *)
Definition add_at (q : list Z) (d : nat) (v : Z) : list Z :=
  firstn d q ++ fst (add_word (skipn d q) v).

(** bigint.hpp:570-580: quotient word estimate of [div_full_bit]. *)
Definition full_guess (yTop rev_ xTop : Z) : Z :=
  if yTop =? B - 1 then xTop
  else
    let '(h, L) := mul_word1 xTop rev_ in
    let v := Z.lor (Z.shiftl h 1 mod B) (Z.shiftr L 31) in
    if v =? 0 then 1 else v.

(** bigint.hpp:553-589: one iteration of the loop of [div_full_bit].  [x] holds exactly the [xn]
    words still considered (a word dropped by [xn--] is zero).  [rev_] is the scaled reciprocal. *)
Definition div_full_step (y : list Z) (rev_ : Z) (s : list Z * list Z)
  : loopres (list Z * list Z) (outcome (list Z * list Z)) :=
  let '(q, x) := s in
  let xn := length x in
  let yn := length y in
  let yTop := last y 0 in
  if Nat.ltb xn yn then Done (Ok (q, x))
  else if last x 0 =? 0 then Next (q, removelast x)
  else
    let d := (xn - yn)%nat in
    if cmp_ge_n (skipn d x) y then
      let x' := firstn d x ++ fst (sub_n (skipn d x) y) in
      let q' := add_at q d 1 in
      if Nat.eqb d 0 then Done (Ok (q', x')) else Next (q', x')
    else if Nat.eqb d 0 then Done (Ok (q, x))
    else
      let v := full_guess yTop rev_ (last x 0) in
      let '(t, c1) := mul_word_n y v in
      let '(m, c2) := sub_n (firstn yn (skipn (d - 1) x)) t in
      let ret := (c1 + c2) mod B in
      let x' := firstn (d - 1) x ++ m ++ [(last x 0 - ret) mod B] in
      Next (add_at q (d - 1) v, x').

(** bigint.hpp:530-594 [div_full_bit]: top bit of y must be set (asserted, line 536).
    Returns q, x and the real size of x. *)
Definition div_full_bit (qn : nat) (x y : list Z) : outcome (list Z * list Z * nat) :=
  let yTop := last y 0 in
  let rev_ := if yTop =? B - 1 then 0 else fst (div_word1 (2 ^ 31) 0 (yTop + 1)) in
  let* qx := run_loop (33 * length x + 1) (div_full_step y rev_) (repeat 0 qn, x) in
  let '(q, x') := qx in
  Ok (q, x', get_real_size x').

(** bigint.hpp:597-617 [div1]: divisor of one word.  [q] has qn words; words above xn are cleared. *)
Definition div1 (qn : nat) (x : list Z) (y0 : Z) : outcome (list Z * list Z * nat) :=
  let xn := get_real_size x in
  let* qr := div_word (firstn xn x) y0 in
  let '(q, r) := qr in
  Ok (q ++ repeat 0 (qn - xn), r :: repeat 0 (length x - 1), 1%nat).

(** bigint.hpp:620-662 [div]: returns q (qn words), the remainder words and their count. *)
Definition div (qn : nat) (x y : list Z) : outcome (list Z * list Z * nat) :=
  let yn := length y in
  if Nat.eqb yn 1 then div1 qn x (hd 0 y)
  else
    let x := firstn (get_real_size x) x in
    let* small := div_small qn x y in
    match small with
    | Some r => Ok r
    | None =>
        let yTopBit := bsr32 (last y 0) in
        let shift := 31 - yTopBit in
        if negb (shift =? 0) then
          let yShift := fst (shl_n y shift) in
          let '(xx, v) := shl_n x shift in
          let xx := if v =? 0 then xx else xx ++ [v] in
          let* r := div_full_bit qn xx yShift in
          let '(q, x', xn') := r in
          Ok (q, shr_n (firstn xn' x') shift, xn')
        else div_full_bit qn x y
    end.

(** bigint.hpp:694-696: rows 1.. of the schoolbook product; row i updates words i..i+xn-1 of z
    and appends word xn+i. *)
Fixpoint mul_rows (z x : list Z) (i : nat) (ys : list Z) : list Z :=
  match ys with
  | [] => z
  | y :: ys' =>
      let '(r, h) := mul_word_add_n (skipn i z) x y in
      mul_rows (firstn i z ++ r ++ [h]) x (S i) ys'
  end.

(** bigint.hpp:665-699 [mul_nm]: longer operand first; aliased operands are copied beforehand. *)
Definition mul_nm (x y : list Z) : list Z :=
  let '(x, y) := if Nat.ltb (length x) (length y) then (y, x) else (x, y) in
  match y with
  | [] => []
  | y0 :: ys => let '(r, h) := mul_word_n x y0 in mul_rows (r ++ [h]) x 1 ys
  end.

(** bigint.hpp:37-59 [bswap_word] (32-bit branch). *)
Definition bswap_word (x : Z) : Z :=
  Z.lor (Z.lor (Z.lor (Z.shiftl (Z.land x 255) 24) (Z.shiftl (Z.land x 65280) 8))
               (Z.shiftr (Z.land x 16711680) 8)) (Z.shiftr (Z.land x 4278190080) 24).

(** bigint.hpp:718-756 [convert_array_as<word_t, byte_t>] with [bigendian]: the source bytes are taken
    from the last one backwards; each destination word takes 4 of them (missing ones are 0). *)
Fixpoint convert_words (n : nat) (src_rev : list Z) : list Z :=
  match n with
  | O => []
  | S n' =>
      let b i := nth i src_rev 0 in
      Z.lor (Z.lor (Z.lor (b 0%nat) (Z.shiftl (b 1%nat) 8)) (Z.shiftl (b 2%nat) 16)) (Z.shiftl (b 3%nat) 24)
      :: convert_words n' (skipn 4 src_rev)
  end.
Definition convert_array_be (dst_len : nat) (src : list Z) : option (list Z) :=
  if Nat.ltb (4 * dst_len) (length src) then None
  else Some (convert_words dst_len (rev src)).
