(** Model of bigint.hpp, class ack::bigint (lines 777-2597), over the word-array layer.

    An object is its storage [mem] (every initialised word of the buffer, including stale words
    above the current size), its word count [size] and the sign flag [neg].
    Simplifications:
    - [assert] is compiled out (release build);
    - the buffer's own size field is not tracked: every element access below follows a successful
      resize that covers it, so buffer.hpp's index check never fires except where modelled;
    - the destination object is an argument [z]; a call with z = x is in-place use.  The functions
      read x and y before overwriting z, except where an argument says otherwise.  The re-allocation
      of an aliased heap buffer in [uadd] (line 825) is treated in BufferModel. *)
From Coq Require Import List ZArith Bool.
From Verif Require Import Outcome LoopModel WordsModel.
Import ListNotations.
Open Scope Z_scope.

(** bigint.hpp:2608-2612 with buffer.hpp:79-86, 217-245: [Fixed N] is fixed_bigint on an N-word
    array, [Flex N] is bignum whose buffer starts with N words and grows on the heap. *)
Inductive cap := Fixed (n : nat) | Flex (n : nat).

(** buffer.hpp:79-86 (fixed) and 217-245 (flex, allocation failure not modelled). *)
Definition can_resize (c : cap) (n : nat) : bool :=
  match c with Fixed N => Nat.leb n N | Flex _ => true end.

(** buffer.hpp:132, 312: the array is zero-initialised. *)
Definition storage0 (c : cap) : list Z :=
  match c with Fixed N => repeat 0 N | Flex N => repeat 0 N end.

(** bigint.hpp:783-785: members of the class. *)
Record bigint := mk { mem : list Z; size : nat; neg : bool }.

(** bigint.hpp:783: the [size] words of buf_ in use *)
Definition words (x : bigint) : list Z := firstn (size x) (mem x).
(** [buf_[0]] *)
Definition word0 (x : bigint) : Z := nth 0 (mem x) 0.

Definition set_neg (x : bigint) (s : bool) : bigint := mk (mem x) (size x) s.

(** bigint.hpp:788-806 [trim]. *)
Definition trim (x : bigint) (n : nat) : bigint :=
  match n with
  | O => x
  | _ =>
      let k := get_real_size (firstn n (mem x)) in
      mk (mem x) k (if Nat.eqb k 1 && (word0 x =? 0) then false else neg x)
  end.

(** write [ws] to the front of the storage, keeping what lies above *)
Definition put (x : bigint) (ws : list Z) : bigint :=
  mk (ws ++ skipn (length ws) (mem x)) (size x) (neg x).

(** ... and trim to the words written (pattern of lines 826-842, 1716-1727, ...) *)
Definition store (x : bigint) (ws : list Z) : bigint := trim (put x ws) (length ws).

(** bigint.hpp:1235-1245 [operator=(word_t)]; the resize to one word is assumed to succeed. *)
Definition assign_word (z : bigint) (w : Z) : bigint :=
  mk (w :: skipn 1 (mem z)) 1 false.

(** bigint.hpp:1227-1233 [operator=(int)]. *)
Definition assign_int (z : bigint) (x : Z) : bigint :=
  set_neg (assign_word z (cabs32 x)) (x <? 0).

(** bigint.hpp:1257-1268 [operator=(uint64_t)]: with a one-word fixed buffer the resize fails and
    [buf_[1]] fails its index check. *)
Definition assign_u64 (c : cap) (z : bigint) (x : Z) : outcome bigint :=
  if can_resize c 2 then
    let hi := x / B in
    let z1 := set_neg (put z [x mod B; hi]) false in
    Ok (trim z1 (if hi =? 0 then 1 else 2))
  else Abort.

(** bigint.hpp:1247-1255 [operator=(int64_t)]. *)
Definition assign_i64 (c : cap) (z : bigint) (x : Z) : outcome bigint :=
  let* r := assign_u64 c z (cabs64 x) in Ok (set_neg r (x <? 0)).

(** bigint.hpp:1492-1495 [clear]. *)
Definition clear (z : bigint) : bigint := assign_int z 0.

(** bigint.hpp:1126-1156: constructors from integers. *)
Definition fresh (c : cap) : bigint := mk (storage0 c) 0 false.
Definition of_int (c : cap) (x : Z) : bigint := assign_int (fresh c) x.
Definition of_word (c : cap) (x : Z) : bigint := assign_word (fresh c) x.
Definition of_i64 (c : cap) (x : Z) : outcome bigint := assign_i64 c (fresh c) x.
Definition of_u64 (c : cap) (x : Z) : outcome bigint := assign_u64 c (fresh c) x.
(** default constructor, line 1126 *)
Definition zero (c : cap) : bigint := of_int c 0.

(** bigint.hpp:1630-1658. *)
Definition is_zero (x : bigint) : bool := Nat.eqb (size x) 1 && (word0 x =? 0).
Definition is_one (x : bigint) : bool := Nat.eqb (size x) 1 && negb (neg x) && (word0 x =? 1).
Definition is_negative (x : bigint) : bool := negb (is_zero x) && neg x.
Definition is_odd (x : bigint) : bool := Z.land (word0 x) 1 =? 1.
Definition is_even (x : bigint) : bool := negb (is_odd x).
Definition get_low32bit (x : bigint) : Z := word0 x.

(** bigint.hpp:808-812 [ucompare]. *)
Definition ucompare (x y : bigint) : Z :=
  if Nat.eqb (size x) (size y) then cmp_n (words x) (words y)
  else if Nat.ltb (size y) (size x) then 1 else -1.

(** bigint.hpp:814-843 [uadd]. *)
Definition uadd_words (x y : list Z) : list Z :=
  let '(x, y) := if Nat.ltb (length x) (length y) then (y, x) else (x, y) in
  let yn := length y in
  let '(lo, c) := add_n (firstn yn x) y in
  if Nat.ltb yn (length x) then
    let '(hi, c') := add_word (skipn yn x) c in lo ++ hi ++ [c']
  else lo ++ [c].
Definition uadd (c : cap) (z x y : bigint) : bigint :=
  if can_resize c (Nat.max (size x) (size y) + 1) then store z (uadd_words (words x) (words y))
  else clear z.

(** bigint.hpp:845-860 [uadd1]. *)
Definition uadd1 (c : cap) (z x : bigint) (y : Z) : bigint :=
  if can_resize c (size x + 1) then
    let '(r, cy) := add_word (words x) y in store z (r ++ [cy])
  else clear z.

(** bigint.hpp:862-879 [usub1]. *)
Definition usub1 (c : cap) (z x : bigint) (y : Z) : bigint :=
  if can_resize c (size x) then store z (fst (sub_word (words x) y)) else clear z.

(** bigint.hpp:881-903 [usub], requires |x| >= |y|. *)
Definition usub_words (x y : list Z) : list Z :=
  let yn := length y in
  let '(lo, c) := sub_n (firstn yn x) y in
  if Nat.ltb yn (length x) then lo ++ fst (sub_word (skipn yn x) c) else lo.
Definition usub (c : cap) (z x y : bigint) : bigint :=
  if can_resize c (size x) then store z (usub_words (words x) (words y)) else clear z.

(** bigint.hpp:905-922 [_add]. *)
Definition add_signed (c : cap) (z x : bigint) (xNeg : bool) (y : bigint) (yNeg : bool) : bigint :=
  if negb (xorb xNeg yNeg) then set_neg (uadd c z x y) xNeg
  else if 0 <=? ucompare x y then set_neg (usub c z x y) xNeg
  else set_neg (usub c z y x) yNeg.

(** bigint.hpp:1699-1707 [add], [sub]. *)
Definition add (c : cap) (z x y : bigint) : bigint := add_signed c z x (neg x) y (neg y).
Definition sub (c : cap) (z x y : bigint) : bigint := add_signed c z x (neg x) y (negb (neg y)).

(** bigint.hpp:943-959 [_addu1] and 924-941 [_adds1] (y >= 0 there).  [same] says that z and x are
    one object: then [x.is_neg_] on line 936/954 is read after [usub1] has trimmed it. *)
Definition add1_signed (c : cap) (same : bool) (z x : bigint) (y : Z) (yNeg : bool) : bigint :=
  if negb (xorb (neg x) yNeg) then set_neg (uadd1 c z x y) yNeg
  else if Nat.ltb 1 (size x) || (word0 x >=? y) then
    let r := usub1 c z x y in set_neg r (if same then neg r else neg x)
  else set_neg (assign_word z ((y - word0 x) mod B)) yNeg.

(** bigint.hpp:1753-1761, 1792-1802. *)
Definition addu1 c same z x y := add1_signed c same z x y false.
Definition subu1 c same z x y := add1_signed c same z x y true.
Definition adds1 c same z x y := add1_signed c same z x (cabs32 y) (y <? 0).
Definition subs1 c same z x y := add1_signed c same z x (cabs32 y) (negb (y <? 0)).

(** bigint.hpp:1710-1729 [mul]; [same] as above: the flags are read after [trim] (line 1727).
    Returns the success flag and the new z. *)
Definition mul (c : cap) (sameX sameY : bool) (z x y : bigint) : bool * bigint :=
  if can_resize c (size x + size y) then
    let r := store z (mul_nm (words x) (words y)) in
    let xs := if sameX then neg r else neg x in
    let ys := if sameY then neg r else neg y in
    (true, set_neg r (xorb xs ys))
  else (false, z).
(** bigint.hpp:1740-1743 [sqr]. *)
Definition sqr (c : cap) (same : bool) (z x : bigint) : bool * bigint := mul c same same z x x.

(** bigint.hpp:1763-1778 [mulu1], 1804-1809 [muls1]. *)
Definition mulu1 (c : cap) (z x : bigint) (y : Z) : bigint :=
  if can_resize c (size x + 1) then
    let '(r, h) := mul_word_n (words x) y in
    let ws := r ++ [h] in
    trim (set_neg (put z ws) (neg x)) (length ws)
  else clear z.
Definition muls1 (c : cap) (z x : bigint) (y : Z) : bigint :=
  let r := mulu1 c z x (cabs32 y) in set_neg r (xorb (neg r) (y <? 0)).

(** bigint.hpp:1817-1842 [div_mods1] with q, and with q null. *)
Definition div_mods1_q (c : cap) (q x : bigint) (y : Z) : outcome (bigint * Z) :=
  if can_resize c (size x) then
    let* qr := div_word (words x) (cabs32 y) in
    let '(ws, r) := qr in
    Ok (trim (set_neg (put q ws) (xorb (neg x) (y <? 0))) (length ws), if neg x then - r else r)
  else Ok (clear q, 0).
Definition div_mods1_r (x : bigint) (y : Z) : outcome Z :=
  let* r := mod_word (words x) (cabs32 y) in Ok (if neg x then - r else r).

(** bigint.hpp:1886-1896 [divs1], [mods1]. *)
Definition divs1 (c : cap) (q x : bigint) (y : Z) : outcome bigint :=
  let* p := div_mods1_q c q x y in Ok (fst p).
Definition mods1 (r x : bigint) (y : Z) : outcome bigint :=
  let* v := div_mods1_r x y in Ok (set_neg (assign_int r v) (neg x)).

(** bigint.hpp:1898-1917 [udiv_modu1]: with q null [div_word] writes through the null pointer. *)
Definition udiv_modu1_q (c : cap) (q x : bigint) (y : Z) : outcome (bigint * Z) :=
  if can_resize c (size x) then
    let* qr := div_word (words x) y in
    let '(ws, r) := qr in
    Ok (set_neg (store q ws) false, r)
  else Ok (clear q, 0).
Definition udiv_modu1_null (x : bigint) (y : Z) : outcome Z :=
  let* _ := check (negb (y =? 0)) in UB.

(** bigint.hpp:1780-1790 [divu1], [modu1]. *)
Definition divu1 (c : cap) (q x : bigint) (y : Z) : outcome bigint :=
  let* p := udiv_modu1_q c q x y in Ok (fst p).
Definition modu1 (r x : bigint) (y : Z) : outcome bigint :=
  let* v := udiv_modu1_null x y in Ok (set_neg (assign_word r v) (neg x)).

(** bigint.hpp:966-1004 [udiv]; [q] is [None] for the null pointer.  Returns the success flag,
    the new q and the new r.  q must not be the object y (see [udiv_q_is_y]) nor r. *)
Definition udiv (c : cap) (q : option bigint) (r x y : bigint) : outcome (bool * option bigint * bigint) :=
  let xn := size x in
  let yn := size y in
  if Nat.ltb xn yn then
    Ok (true, option_map clear q, trim (mk (mem x) (size r) (neg r)) xn)
  else
    let qn := (xn - yn + 1)%nat in
    if match q with Some _ => can_resize c qn | None => true end then
      let* d := div qn (words x) (words y) in
      let '(qw, xw, rn) := d in
      if can_resize c rn then
        Ok (true, option_map (fun q => store q qw) q, store r (firstn rn xw))
      else Ok (false, option_map (fun q => put q qw) q, r)
    else Ok (false, q, r).

(** bigint.hpp:1852-1863 [div_mod], 1866-1876 [div], [mod]. *)
Definition div_mod (c : cap) (q : option bigint) (r x y : bigint) : outcome (bool * option bigint * bigint) :=
  let xNeg := neg x in
  let qsign := xorb xNeg (neg y) in
  let* d := udiv c q r x y in
  let '(ok, q', r') := d in
  if negb ok then Ok (false, q', r')
  else Ok (true, option_map (fun q => set_neg q qsign) q', set_neg r' xNeg).
Definition div_q (c : cap) (q x y : bigint) : outcome (bool * bigint) :=
  let* d := div_mod c (Some q) (zero c) x y in
  let '(ok, q', _) := d in
  match q' with Some q' => Ok (ok, q') | None => Ok (ok, q) end.
Definition mod_r (c : cap) (r x y : bigint) : outcome (bool * bigint) :=
  let* d := div_mod c None r x y in
  let '(ok, _, r') := d in Ok (ok, r').

(** bigint.hpp:1927-1944 [quot_rem]. *)
Definition quot_rem (c : cap) (q : option bigint) (r x y : bigint) : outcome (option bigint * bigint) :=
  let yNeg := neg y in
  let qsign := xorb (neg x) yNeg in
  let* d := udiv c q r x y in
  let '(_, q1, r1) := d in
  let r2 := set_neg r1 yNeg in
  let q2 := option_map (fun q => set_neg q qsign) q1 in
  if negb (is_zero r2) && qsign then
    Ok (option_map (fun q => uadd1 c q q 1) q2, usub c r2 y r2)
  else Ok (q2, r2).

(** bigint.hpp:1947-1958 [shl]: a failed resize is ignored and the words are written past the array. *)
Definition shl (c : cap) (y x : bigint) (n : Z) : outcome bigint :=
  let yn := (size x + Z.to_nat ((n + 31) / 32))%nat in
  if can_resize c yn then
    let ws := shift_left (words x) n in
    Ok (trim (set_neg (put y ws) (neg x)) yn)
  else UB.

(** bigint.hpp:1961-1976 [shr]. *)
Definition shr (y x : bigint) (n : Z) : bigint :=
  if 32 * Z.of_nat (size x) <=? n then clear y
  else
    let ws := shift_right (words x) n in
    trim (set_neg (put y ws) (neg x)) (length ws).

(** bigint.hpp:1978-2008 [neg], [abs]. *)
Definition neg_op (x : bigint) : bigint := mk (mem x) (size x) (negb (neg x)).
Definition abs_op (x : bigint) : bigint := mk (mem x) (size x) false.

(** bigint.hpp:2011-2059 [or_bit], [and_bit]; all operands have the same buffer type, so the resize
    to the larger (smaller) operand's size cannot fail. *)
Fixpoint zip_words (f : Z -> Z -> Z) (x y : list Z) : list Z :=
  match x, y with
  | a :: x', b :: y' => f a b :: zip_words f x' y'
  | _, _ => []
  end.
Definition or_bit (z x y : bigint) : bigint :=
  let '(px, py) := if Nat.ltb (size x) (size y) then (y, x) else (x, y) in
  store z (zip_words Z.lor (words x) (words y) ++ skipn (size py) (words px)).
Definition and_bit (z x y : bigint) : bigint :=
  store z (zip_words Z.land (words x) (words y)).

(** bigint.hpp:2061-2078 [or_bitu1], [and_bitu1]. *)
Definition or_bitu1 (x : bigint) (y : Z) : bigint :=
  mk (Z.lor (word0 x) y :: skipn 1 (mem x)) (size x) (neg x).
Definition and_bitu1 (z x : bigint) (y : Z) : bigint :=
  mk (Z.land (word0 x) y :: skipn 1 (mem z)) 1 false.

(** bigint.hpp:1558-1578 [compare]. *)
Definition compare (x y : bigint) : Z :=
  if xorb (neg x) (neg y) then
    if is_zero x && is_zero y then 0 else if neg x then -1 else 1
  else if is_one x && is_one y then 0
  else let c := ucompare x y in if neg x then - c else c.

(** bigint.hpp:1580-1603 [compares1], with [cmp_t<1>] (lines 110-118). *)
Definition compares1 (x : bigint) (y : Z) : Z :=
  if xorb (neg x) (y <? 0) then
    if is_zero x && (y =? 0) then 0 else if neg x then -1 else 1
  else if is_one x && (y =? 1) then 0
  else
    let c := if Nat.ltb 1 (size x) then 1 else cmp_n [word0 x] [cabs32 y] in
    if neg x then - c else c.

(** bigint.hpp:1605-1613 [compareu1]. *)
Definition compareu1 (x : bigint) (y : Z) : Z :=
  if neg x then -1
  else if Nat.ltb 1 (size x) then 1
  else if word0 x >? y then 1 else if word0 x =? y then 0 else -1.

(** bigint.hpp:1501-1511 [bit_length], 1694-1697 [byte_length]. *)
Definition bit_length (x : bigint) : Z :=
  if is_zero x then 1
  else (Z.of_nat (size x) - 1) * 32 + 1 + bsr32 (nth (size x - 1) (mem x) 0).
Definition byte_length (x : bigint) : Z := (bit_length x + 7) / 8.

(** bigint.hpp:1514-1524 [test_bit]. *)
Definition test_bit (x : bigint) (i : Z) : bool :=
  let q := Z.to_nat (i / 32) in
  let r := i mod 32 in
  if Nat.leb (size x) q then false
  else negb (Z.land (nth q (mem x) 0) (Z.shiftl 1 r mod B) =? 0).

(** replace word [n] *)
Fixpoint set_word (l : list Z) (n : nat) (w : Z) : list Z :=
  match l, n with
  | [], _ => []
  | _ :: t, O => w :: t
  | a :: t, S n' => a :: set_word t n' w
  end.

(** bigint.hpp:1526-1556 [set_bit].  Words between the old size and the new one are whatever the
    storage holds; on the heap they may be uninitialised (reading them is UB). *)
Definition set_bit (c : cap) (x : bigint) (i : Z) (v : bool) : outcome bigint :=
  let q := Z.to_nat (i / 32) in
  let r := i mod 32 in
  let new_size := S q in
  if Nat.ltb (size x) new_size && negb (can_resize c new_size) then Ok (clear x)
  else if Nat.ltb (length (mem x)) new_size then UB
  else
    let mask := Z.shiftl 1 r mod B in
    let bl := bit_length x in
    let w := nth q (mem x) 0 in
    let w' := if v then Z.lor w mask else Z.land w (B - 1 - mask) in
    let x' := mk (set_word (mem x) q w') (size x) (neg x) in
    Ok (if bl <=? i + 1 then trim x' new_size else x').

(** bigint.hpp:1667-1682 [get_int32]: conversion of the word to int32_t wraps. *)
Definition to_int32 (w : Z) : Z := if w <? 2 ^ 31 then w else w - B.
Definition get_int32 (x : bigint) : option Z :=
  if Nat.ltb 1 (size x) then None
  else if Nat.eqb (size x) 0 then Some 0
  else
    let n := to_int32 (word0 x) in
    Some (if is_negative x && (n >? 0) then - n else n).

(** bigint.hpp:1382-1424 [set_bytes], run-time path: 4-byte groups counted from the end are read as
    little-endian words (the wasm host is little-endian) and byte-swapped; the 1-3 leading bytes
    form the top word. *)
Definition le_word (l : list Z) : Z :=
  nth 0 l 0 + 2 ^ 8 * nth 1 l 0 + 2 ^ 16 * nth 2 l 0 + 2 ^ 24 * nth 3 l 0.
Definition bytes_word (data : list Z) (n_left n_words i : nat) : Z :=
  bswap_word (le_word (firstn 4 (skipn (n_left + 4 * (n_words - i - 1)) data))).
Fixpoint left_word (w : Z) (l : list Z) : Z :=        (* lines 1414-1418, n_left_bytes <= 3 *)
  match l with
  | [] => w
  | b :: t => left_word (Z.lor w (Z.shiftl b (8 * (Z.of_nat (length t) mod 4)))) t
  end.
Definition set_bytes (c : cap) (z : bigint) (data : list Z) : bool * bigint :=
  let n := length data in
  if Nat.eqb n 0 then (true, clear (set_neg z false))
  else
    let word_size := Nat.div (n + 3) 4 in
    if negb (can_resize c word_size) then (false, set_neg z false)
    else
      let n_words := Nat.div n 4 in
      let n_left := Nat.modulo n 4 in
      let lo := map (bytes_word data n_left n_words) (seq 0 n_words) in
      let ws := if Nat.eqb n_left 0 then lo else lo ++ [left_word 0 (firstn n_left data)] in
      (true, trim (set_neg (put z ws) false) word_size).

(** bigint.hpp:1334-1354 [set_array] for bytes, big-endian (also the constant-evaluated path of
    [set_bytes], line 1392). *)
Definition set_array_be (c : cap) (z : bigint) (data : list Z) : bool * bigint :=
  let n := length data in
  if Nat.eqb n 0 then (true, clear (set_neg z false))
  else
    let word_size := Nat.div (n + 3) 4 in
    if negb (can_resize c word_size) then (false, set_neg z false)
    else
      match convert_array_be word_size data with
      | None => (false, set_neg z false)
      | Some ws => (true, trim (set_neg (put z ws) false) word_size)
      end.

(** bigint.hpp:1164-1190: constructors from bytes. *)
Definition of_bytes (c : cap) (data : list Z) : outcome bigint :=
  let '(ok, z) := set_bytes c (fresh c) data in
  let* _ := check ok in Ok z.

(** bigint.hpp:1432-1444 [get_bytes] and 1450-1455 [to_bytes].  [get_bytes] writes the first
    byte_length() bytes of the span and leaves the rest. *)
Definition byte_at (x : bigint) (b : Z) : Z :=
  Z.shiftr (nth (Z.to_nat (b / 4)) (mem x) 0) (8 * (b mod 4)) mod 256.
Definition bytes_of (x : bigint) : list Z :=
  map (fun i => byte_at x (byte_length x - 1 - Z.of_nat i)) (seq 0 (Z.to_nat (byte_length x))).
Definition get_bytes (x : bigint) (data : list Z) : option (list Z) :=
  if Z.of_nat (length data) <? byte_length x then None
  else Some (bytes_of x ++ skipn (Z.to_nat (byte_length x)) data).
Definition to_bytes (x : bigint) : list Z := bytes_of x.

(** bigint.hpp:1363-1373 [get_array]. *)
Definition get_array (x : bigint) (max_size : nat) : option (list Z) :=
  if Nat.ltb max_size (size x) then None
  else Some (words x ++ repeat 0 (max_size - size x)).

(** bigint.hpp:1461-1479 [to_naf]; one iteration of the loop. *)
Definition naf_step (c : cap) (s : bigint * list Z) : loopres (bigint * list Z) (outcome (list Z)) :=
  let '(num, acc) := s in
  if compareu1 num 0 >? 0 then
    if is_odd num then
      match mods1 (zero c) num 4 with
      | Ok m =>
          let nd := 2 - match get_int32 m with Some n => n | None => 0 end in
          let num1 := subs1 c true num num nd in
          Next (shr num1 num1 1, acc ++ [nd])
      | Abort => Done Abort | UB => Done UB | NoFuel => Done NoFuel
      end
    else Next (shr num num 1, acc ++ [0])
  else Done (Ok acc).
Definition to_naf (c : cap) (x : bigint) : outcome (list Z) :=
  run_loop (32 * size x + 1) (naf_step c) (x, []).
(** bigint.hpp:1485-1490 [to_rnaf]. *)
Definition to_rnaf (c : cap) (x : bigint) : outcome (list Z) :=
  let* n := to_naf c x in Ok (rev n).

(** bigint.hpp:2448-2596: operators on two big integers; [a op b] fills a default-constructed object. *)
Definition op_add c a b := add c (zero c) a b.
Definition op_sub c a b := sub c (zero c) a b.
Definition op_mul c a b := snd (mul c false false (zero c) a b).   (* success flag ignored, line 2543 *)
Definition op_div c a b : outcome bigint := let* r := div_q c (zero c) a b in Ok (snd r).
Definition op_mod c a b : outcome bigint := let* r := mod_r c (zero c) a b in Ok (snd r).
Definition op_shl c a n := shl c a a n.      (* lines 2591, 2593: copy, then in place *)
Definition op_shr a n := shr a a n.
Definition op_neg a := neg_op a.
