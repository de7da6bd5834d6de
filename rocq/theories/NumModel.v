(** Number-theoretic functions of the class [bigint] (include/ack/bigint.hpp).
    Copy and move assignment of whole objects give the destination the source's words, size and sign;
    what the destination's storage holds above the size is taken from the source. *)
From Coq Require Import List ZArith Bool.
From Verif Require Import Outcome LoopModel WordsModel BigintModel.
Import ListNotations.
Open Scope Z_scope.

(** bigint.hpp:1009-1017 [count_trailing_zero] *)
Definition ctz_step (st : bigint * Z) : loopres (bigint * Z) (outcome (bigint * Z)) :=
  let '(x, s) := st in
  if is_even x then Next (shr x x 1, s + 1) else Done (Ok (x, s)).
Definition count_trailing_zero (x : bigint) : outcome (bigint * Z) :=
  run_loop (32 * size x + 1) ctz_step (x, 0).

(** results of the functions returning bool: [None] is [false] (the destination is then not used) *)
Definition pow_res := outcome (option bigint).

(** bigint.hpp:1019-1041 [mod_mul_t], [mod_sqr_t]; [same] says that z and x are one object. *)
Definition mod_mul (c : cap) (m : bigint) (same : bool) (z x y : bigint) : pow_res :=
  let '(ok, z1) := mul c same false z x y in
  if ok then
    let* r := mod_r c (zero c) z1 m in
    let '(ok', u) := r in Ok (if ok' then Some u else None)
  else Ok None.
Definition mod_sqr (c : cap) (m : bigint) (same : bool) (z x : bigint) : pow_res :=
  let '(ok, z1) := sqr c same z x in
  if ok then
    let* r := mod_r c (zero c) z1 m in
    let '(ok', u) := r in Ok (if ok' then Some u else None)
  else Ok None.
(** bigint.hpp:2091-2093: the plain [mul] and [sqr] as function pointers *)
Definition plain_mul (c : cap) (same : bool) (z x y : bigint) : pow_res :=
  let '(ok, z1) := mul c same false z x y in Ok (if ok then Some z1 else None).
Definition plain_sqr (c : cap) (same : bool) (z x : bigint) : pow_res :=
  let '(ok, z1) := sqr c same z x in Ok (if ok then Some z1 else None).

(** sequencing of functions returning bool *)
Definition then_ (r : pow_res) (f : bigint -> pow_res) : pow_res :=
  let* o := r in match o with Some z => f z | None => Ok None end.

Section POW.
Variable c : cap.
Variable pmul : bool -> bigint -> bigint -> bigint -> pow_res.
Variable psqr : bool -> bigint -> bigint -> pow_res.

(** lines 1079-1087: the table x, x^2, ... ([n] more entries after [prev]) *)
Fixpoint pow_table (x prev : bigint) (n : nat) : outcome (option (list bigint)) :=
  match n with
  | O => Ok (Some [])
  | S n' =>
      let* o := pmul false (zero c) prev x in
      match o with
      | None => Ok None
      | Some t =>
          let* l := pow_table x t n' in
          match l with None => Ok None | Some l => Ok (Some (t :: l)) end
      end
  end.

(** lines 1099-1112: four squarings and one table multiplication *)
Definition pow_digit (tbl : list bigint) (z : bigint) (idx : Z) : pow_res :=
  then_ (psqr true z z) (fun z => then_ (psqr true z z) (fun z => then_ (psqr true z z) (fun z =>
  then_ (psqr true z z) (fun z =>
    if idx =? 0 then Ok (Some z) else pmul true z z (nth (Z.to_nat (idx - 1)) tbl (zero c)))))).

Fixpoint pow_digits (tbl : list bigint) (z : bigint) (ds : list Z) : pow_res :=
  match ds with
  | [] => Ok (Some z)
  | d :: t => then_ (pow_digit tbl z d) (fun z => pow_digits tbl z t)
  end.

(** lines 1097-1108: the 4-bit digits in the order of the nested loops over i and j *)
Definition nibbles (y : list Z) : list Z :=
  flat_map (fun v => map (fun j => Z.land (Z.shiftr v ((7 - j) * 4)) 15) [0; 1; 2; 3; 4; 5; 6; 7]) (rev y).

(** bigint.hpp:1047-1118 [_pow]; [y] holds the n exponent words.  When y is z's own storage it is
    copied first (lines 1089-1095), so [y] is a value here. *)
Definition pow_words (z x : bigint) (y : list Z) : pow_res :=
  let n := get_real_size y in          (* lines 1049-1054: strip zero top words, at least one word *)
  let y := firstn n y in
  let v := hd 0 y in
  if Nat.eqb n 1 && (v =? 0) then Ok (Some (assign_int z 1))
  else if Nat.eqb n 1 && (v =? 1) then Ok (Some x)
  else if Nat.eqb n 1 && (v =? 2) then psqr false z x
  else if Nat.eqb n 1 && (v =? 3) then then_ (psqr false (zero c) x) (fun t => pmul false z t x)
  else if Nat.eqb n 1 && (v =? 4) then then_ (psqr false z x) (fun z => psqr true z z)
  else
    let* o := pow_table x x 14 in
    match o with
    | None => Ok None
    | Some l => pow_digits (x :: l) (assign_int z 1) (nibbles y)
    end.
End POW.

(** bigint.hpp:2084-2093 and 2099-2112 [pow]; 2114-2128: the members abort on failure. *)
Definition pow (c : cap) (z x y : bigint) : pow_res :=
  if neg y then Ok None else pow_words c (plain_mul c) (plain_sqr c) z x (words y).
Definition pow_i64 (c : cap) (z x : bigint) (y : Z) : pow_res :=
  if y <? 0 then Ok None
  else
    let ua := cabs64 y in
    let u := if ua / B =? 0 then [ua mod B] else [ua mod B; ua / B] in
    pow_words c (plain_mul c) (plain_sqr c) z x u.
Definition op_pow (c : cap) (x y : bigint) : outcome bigint :=
  let* o := pow c (zero c) x y in match o with Some z => Ok z | None => Abort end.

(** bigint.hpp:2135-2147, 2154-2162 [modexp]; 2164-2178: the members abort on failure.  The exponent
    object may have another buffer type; only its words and sign are read. *)
Definition modexp (c : cap) (z x y m : bigint) : pow_res :=
  if neg y then Ok None else pow_words c (mod_mul c m) (mod_sqr c m) z x (words y).
Definition modexp_word (c : cap) (z x : bigint) (y : Z) (m : bigint) : pow_res :=
  pow_words c (mod_mul c m) (mod_sqr c m) z x [y].
Definition op_modexp (c : cap) (x y m : bigint) : outcome bigint :=
  let* o := modexp c (zero c) x y m in match o with Some z => Ok z | None => Abort end.

(** bigint.hpp:2187-2296 [modinv] (the [#else] branch is compiled); the loop state is (s, t, a, b).
    [None] is [false]. *)
Record inv_state := mkinv { iv_s : bigint; iv_t : bigint; iv_a : bigint; iv_b : bigint }.
Definition add_if_neg (c : cap) (a m : bigint) : bigint := if neg a then add c a a m else a.
Definition modinv_step (c : cap) (m : bigint) (st : inv_state) : loopres inv_state pow_res :=
  let '(mkinv s t a b) := st in
  match div_mod c (Some (zero c)) s s t with            (* line 2252 *)
  | Ok (true, Some q, s) =>
      if is_zero s then Done (Ok (if is_one t then Some (add_if_neg c b m) else None))
      else
        let a := sub c a a (op_mul c b q) in
        match div_mod c (Some (zero c)) t t s with      (* line 2269 *)
        | Ok (true, Some q, t) =>
            if is_zero t then Done (Ok (if is_one s then Some (add_if_neg c a m) else None))
            else Next (mkinv s t a (sub c b b (op_mul c a q)))
        | Ok _ => Done (Ok None)
        | Abort => Done Abort | UB => Done UB | NoFuel => Done NoFuel
        end
  | Ok _ => Done (Ok None)
  | Abort => Done Abort | UB => Done UB | NoFuel => Done NoFuel
  end.
Definition modinv (c : cap) (y x m : bigint) : pow_res :=
  let* _ := check (negb (is_zero m)) in
  if is_zero x then Ok (if is_one m then Some (assign_int y 0) else None)
  else if is_one x then Ok (Some (assign_int y (if is_one m then 0 else 1)))
  else
    let* d := div_mod c (Some (zero c)) (zero c) m x in
    match d with
    | (true, Some q, t) =>
        if is_zero t then Ok None
        else run_loop (32 * size x + 1) (modinv_step c m) (mkinv x t (of_int c 1) (neg_op q))
    | _ => Ok None
    end.
(** bigint.hpp:2298-2305: the member aborts on failure *)
Definition op_modinv (c : cap) (x m : bigint) : outcome bigint :=
  let* o := modinv c (zero c) x m in match o with Some z => Ok z | None => Abort end.

(** bigint.hpp:2308-2320 [gcd]: x and y are copies; the success flag of [mod] is ignored, the
    remainder is written over the divisor. *)
Definition gcd_step (c : cap) (st : bigint * bigint) : loopres (bigint * bigint) (outcome bigint) :=
  let '(x, y) := st in
  if is_zero y then Done (Ok x)
  else
    match mod_r c y x y with
    | Ok (_, r) => Next (y, r)
    | Abort => Done Abort | UB => Done UB | NoFuel => Done NoFuel
    end.
Definition gcd (c : cap) (x y : bigint) : outcome bigint :=
  run_loop (32 * size y + 1) (gcd_step c) (x, y).

(** Division whose quotient object is also the divisor, as [lcm] calls it (line 2343).
    [st] holds the divisor's words and the quotient's words, which share the array: y is its first
    yn words, q its first qn words.  bigint.hpp:553-589 with every access through that array. *)
Definition over (qn : nat) (q st : list Z) : list Z := q ++ skipn qn st.
Definition div_full_step_alias (yn qn : nat) (yTop rev_ : Z) (s : list Z * list Z)
  : loopres (list Z * list Z) (outcome (list Z * list Z)) :=
  let '(st, x) := s in
  let xn := length x in
  let y := firstn yn st in
  let q := firstn qn st in
  if Nat.ltb xn yn then Done (Ok (st, x))
  else if last x 0 =? 0 then Next (st, removelast x)
  else
    let d := (xn - yn)%nat in
    if cmp_ge_n (skipn d x) y then
      let x' := firstn d x ++ fst (sub_n (skipn d x) y) in
      let st' := over qn (add_at q d 1) st in
      if Nat.eqb d 0 then Done (Ok (st', x')) else Next (st', x')
    else if Nat.eqb d 0 then Done (Ok (st, x))
    else
      let v := full_guess yTop rev_ (last x 0) in
      let '(t, c1) := mul_word_n y v in
      let '(m, c2) := sub_n (firstn yn (skipn (d - 1) x)) t in
      let ret := (c1 + c2) mod B in
      let x' := firstn (d - 1) x ++ m ++ [(last x 0 - ret) mod B] in
      Next (over qn (add_at q (d - 1) v) st, x').
(** quotient words of [div] when q and y share storage.  For one divisor word (line 623 passes it
    by value), for [div_small] (q is written last) and for a shifted divisor (line 643 copies it) the
    sharing is harmless; only the unshifted [div_full_bit] (line 659) works on the shared array,
    after clearing the quotient part (line 538). *)
Definition div_alias (qn : nat) (x y : list Z) : outcome (list Z) :=
  let yn := length y in
  let yTop := last y 0 in
  let xr := firstn (get_real_size x) x in
  if Nat.ltb 1 yn && Nat.ltb yn (length xr) && (2 ^ 31 <=? yTop) then
    let rev_ := if yTop =? B - 1 then 0 else fst (div_word1 (2 ^ 31) 0 (yTop + 1)) in
    let st := over qn (repeat 0 qn) (y ++ repeat 0 (qn - yn)) in
    let* r := run_loop (33 * length xr + 1) (div_full_step_alias yn qn yTop rev_) (st, xr) in
    Ok (firstn qn (fst r))
  else
    let* d := div qn x y in let '(q, _, _) := d in Ok q.

(** bigint.hpp:1866-1870 and 1852-1863, 966-1004: [div(q, x, q)]; the remainder is a temporary. *)
Definition div_in_place (c : cap) (x y : bigint) : outcome bigint :=
  let qsign := xorb (neg x) (neg y) in
  if Nat.ltb (size x) (size y) then Ok (set_neg (clear y) qsign)
  else
    let qn := (size x - size y + 1)%nat in
    if can_resize c qn then
      let* qw := div_alias qn (words x) (words y) in
      Ok (set_neg (store y qw) qsign)
    else Ok y.

(** bigint.hpp:2339-2345 [lcm] and 2348-2353. *)
Definition lcm (c : cap) (z x y : bigint) : outcome bigint :=
  let* g := gcd c x y in
  let* q := div_in_place c x g in
  Ok (snd (mul c false false z q y)).

(** bigint.hpp:2374-2430 [jacobi]; parameters are copies.  One pass of the do-while loop (the state
    carries m, n, j and whether it is the first pass). *)
Definition jacobi_step (c : cap) (st : bigint * bigint * Z * bool)
  : loopres (bigint * bigint * Z * bool) (outcome Z) :=
  let '(m, n, j, start) := st in
  let swapped :=
    if start then Ok (m, n, j)
    else
      let j := if (get_low32bit m mod 4 =? 3) && (get_low32bit n mod 4 =? 3) then - j else j in
      let* r := mod_r c (zero c) n m in
      Ok (snd r, m, j) in
  match swapped with
  | Ok (m, n, j) =>
      match count_trailing_zero m with
      | Ok (m, s) =>
          let nmod8 := get_low32bit n mod 8 in
          let j := if negb (s mod 2 =? 0) && ((nmod8 =? 3) || (nmod8 =? 5)) then - j else j in
          if compares1 m 1 =? 0 then Done (Ok j) else Next (m, n, j, false)
      | Abort => Done Abort | UB => Done UB | NoFuel => Done NoFuel
      end
  | Abort => Done Abort | UB => Done UB | NoFuel => Done NoFuel
  end.
Definition jacobi (c : cap) (m n : bigint) : outcome Z :=
  if is_one n then Ok 1
  else
    let* m := if (compares1 m 0 <? 0) || (compare m n >? 0)
              then let* r := quot_rem c None m m n in Ok (snd r)
              else Ok m in
    if is_zero m then Ok 0
    else if is_one m then Ok 1
    else
      let* g := gcd c m n in
      if negb (compares1 g 1 =? 0) then Ok 0
      else run_loop (32 * size n + 1) (jacobi_step c) (m, n, 1, true).
