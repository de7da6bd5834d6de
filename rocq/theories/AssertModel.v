(** The operations of the class [bigint] in a build with assertions enabled (NDEBUG not defined).
    Every [assert] of bigint.hpp lines 780-2430 is a [check], placed where the code has it; a failed
    assertion is [Abort].  Where no assertion fails the effect is that of the models in BigintModel.v and
    NumModel.v, whose functions are reused.  The assertions of the word routines (namespace detail) are
    checks in RawModel.v; of them only the one that the model of the shared divisor needs (line 532) is
    repeated here.  Simplification: lines 968 and 1929 compare the addresses of q and r; these are
    different objects here. *)
From Coq Require Import List ZArith Bool.
From Verif Require Import Outcome LoopModel WordsModel BigintModel NumModel.
Import ListNotations.
Open Scope Z_scope.

(** bigint.hpp:780 [invalid_var], an int *)
Definition invalid_var : Z := - 2 ^ 31.

(** bigint.hpp:1235-1245 [operator=(word_t)], assertion 1240 *)
Definition d_assign_word (c : cap) (z : bigint) (w : Z) : outcome bigint :=
  let* _ := check (can_resize c 1) in Ok (assign_word z w).
(** bigint.hpp:1227-1233 [operator=(int)], assertion 1229 *)
Definition d_assign_int (c : cap) (z : bigint) (x : Z) : outcome bigint :=
  let* _ := check (negb (x =? invalid_var)) in
  let* z := d_assign_word c z (cabs32 x) in Ok (set_neg z (x <? 0)).
(** bigint.hpp:1257-1268 [operator=(uint64_t)], assertion 1261 *)
Definition d_assign_u64 (c : cap) (z : bigint) (x : Z) : outcome bigint :=
  let* _ := check (can_resize c 2) in assign_u64 c z x.
(** bigint.hpp:1247-1255 [operator=(int64_t)], assertion 1250: x is compared with the smallest int. *)
Definition d_assign_i64 (c : cap) (z : bigint) (x : Z) : outcome bigint :=
  let* _ := check (negb (x =? invalid_var)) in
  let* r := d_assign_u64 c z (cabs64 x) in Ok (set_neg r (x <? 0)).

(** bigint.hpp:814-843 [uadd], assertions 823 (after the exchange) and 827 *)
Definition d_uadd (c : cap) (z x y : bigint) : outcome bigint :=
  let '(xn, yn) := if Nat.ltb (size x) (size y) then (size y, size x) else (size x, size y) in
  let* _ := check (Nat.leb yn xn) in
  let* _ := check (can_resize c (xn + 1)) in
  Ok (uadd c z x y).
(** bigint.hpp:845-860 [uadd1], assertion 849 *)
Definition d_uadd1 (c : cap) (z x : bigint) (y : Z) : outcome bigint :=
  let* _ := check (can_resize c (size x + 1)) in Ok (uadd1 c z x y).
(** bigint.hpp:862-879 [usub1], assertions 866 and 876 (no borrow is left) *)
Definition d_usub1 (c : cap) (z x : bigint) (y : Z) : outcome bigint :=
  let* _ := check (can_resize c (size x)) in
  let* _ := check (snd (sub_word (words x) y) =? 0) in
  Ok (usub1 c z x y).
(** the borrow [usub] ends with (lines 891-898) *)
Definition usub_borrow (x y : list Z) : Z :=
  let yn := length y in
  let '(_, b) := sub_n (firstn yn x) y in
  if Nat.ltb yn (length x) then snd (sub_word (skipn yn x) b) else b.
(** bigint.hpp:881-903 [usub], assertions 883, 886 and 901 *)
Definition d_usub (c : cap) (z x y : bigint) : outcome bigint :=
  let* _ := check (Nat.leb (size y) (size x)) in
  let* _ := check (can_resize c (size x)) in
  let* _ := check (usub_borrow (words x) (words y) =? 0) in
  Ok (usub c z x y).

(** bigint.hpp:905-922 [_add] *)
Definition d_add_signed (c : cap) (z x : bigint) (xNeg : bool) (y : bigint) (yNeg : bool) : outcome bigint :=
  if negb (xorb xNeg yNeg) then let* r := d_uadd c z x y in Ok (set_neg r xNeg)
  else if 0 <=? ucompare x y then let* r := d_usub c z x y in Ok (set_neg r xNeg)
  else let* r := d_usub c z y x in Ok (set_neg r yNeg).
(** bigint.hpp:1699-1707 [add], [sub] *)
Definition d_add (c : cap) (z x y : bigint) := d_add_signed c z x (neg x) y (neg y).
Definition d_sub (c : cap) (z x y : bigint) := d_add_signed c z x (neg x) y (negb (neg y)).

(** bigint.hpp:943-959 [_addu1] and 924-941 [_adds1]; [same]: z and x are one object (BigintModel.v) *)
Definition d_add1_signed (c : cap) (same : bool) (z x : bigint) (y : Z) (yNeg : bool) : outcome bigint :=
  if negb (xorb (neg x) yNeg) then let* r := d_uadd1 c z x y in Ok (set_neg r yNeg)
  else if Nat.ltb 1 (size x) || (word0 x >=? y) then
    let* r := d_usub1 c z x y in Ok (set_neg r (if same then neg r else neg x))
  else let* r := d_assign_word c z ((y - word0 x) mod B) in Ok (set_neg r yNeg).
(** bigint.hpp:1753-1761 [addu1], [subu1]; 1792-1802 [adds1], [subs1], assertions 1794, 1800 and 926:
    [cabs] of an int is an unsigned int, which line 924 takes as an int again. *)
Definition d_addu1 c same z x y := d_add1_signed c same z x y false.
Definition d_subu1 c same z x y := d_add1_signed c same z x y true.
Definition d_adds1 c same z x y : outcome bigint :=
  let* _ := check (negb (y =? invalid_var)) in
  let* _ := check (0 <=? to_int32 (cabs32 y)) in d_add1_signed c same z x (cabs32 y) (y <? 0).
Definition d_subs1 c same z x y : outcome bigint :=
  let* _ := check (negb (y =? invalid_var)) in
  let* _ := check (0 <=? to_int32 (cabs32 y)) in d_add1_signed c same z x (cabs32 y) (negb (y <? 0)).

(** bigint.hpp:1710-1729 [mul], assertion 1717; 1740-1743 [sqr] *)
Definition d_mul (c : cap) (sameX sameY : bool) (z x y : bigint) : outcome (bool * bigint) :=
  let* _ := check (can_resize c (size x + size y)) in Ok (mul c sameX sameY z x y).
Definition d_sqr (c : cap) (same : bool) (z x : bigint) : outcome (bool * bigint) := d_mul c same same z x x.
(** bigint.hpp:1763-1778 [mulu1], assertion 1769; 1804-1809 [muls1], assertion 1806 *)
Definition d_mulu1 (c : cap) (z x : bigint) (y : Z) : outcome bigint :=
  let* _ := check (can_resize c (size x + 1)) in Ok (mulu1 c z x y).
Definition d_muls1 (c : cap) (z x : bigint) (y : Z) : outcome bigint :=
  let* _ := check (negb (y =? invalid_var)) in
  let* r := d_mulu1 c z x (cabs32 y) in Ok (set_neg r (xorb (neg r) (y <? 0))).

(** bigint.hpp:1817-1842 [div_mods1], assertions 1819 and 1829 *)
Definition d_div_mods1_q (c : cap) (q x : bigint) (y : Z) : outcome (bigint * Z) :=
  let* _ := check (negb (y =? invalid_var)) in
  let* _ := check (can_resize c (size x)) in div_mods1_q c q x y.
Definition d_div_mods1_r (x : bigint) (y : Z) : outcome Z :=
  let* _ := check (negb (y =? invalid_var)) in div_mods1_r x y.
(** bigint.hpp:1886-1896 [divs1], [mods1]; the int is assigned with [operator=(int)] *)
Definition d_divs1 (c : cap) (q x : bigint) (y : Z) : outcome bigint :=
  let* p := d_div_mods1_q c q x y in Ok (fst p).
Definition d_mods1 (c : cap) (r x : bigint) (y : Z) : outcome bigint :=
  let* v := d_div_mods1_r x y in let* r := d_assign_int c r v in Ok (set_neg r (neg x)).
(** bigint.hpp:1898-1917 [udiv_modu1], assertions 1900 and 1904; 1780-1790 [divu1], [modu1] *)
Definition d_divu1 (c : cap) (q x : bigint) (y : Z) : outcome bigint :=
  let* _ := check (negb (neg x)) in
  let* _ := check (can_resize c (size x)) in
  let* p := udiv_modu1_q c q x y in Ok (fst p).
Definition d_modu1 (c : cap) (r x : bigint) (y : Z) : outcome bigint :=
  let* _ := check (negb (neg x)) in
  let* v := udiv_modu1_null x y in let* r := d_assign_word c r v in Ok (set_neg r (neg x)).

(** bigint.hpp:966-1004 [udiv], assertions 980 and 992 (the size of the remainder comes from [div]) *)
Definition d_udiv (c : cap) (q : option bigint) (r x y : bigint) : outcome (bool * option bigint * bigint) :=
  if Nat.ltb (size x) (size y) then udiv c q r x y
  else
    let qn := (size x - size y + 1)%nat in
    let* _ := check (match q with Some _ => can_resize c qn | None => true end) in
    let* d := div qn (words x) (words y) in
    let '(_, _, rn) := d in
    let* _ := check (can_resize c rn) in
    udiv c q r x y.
(** bigint.hpp:1852-1876 [div_mod], [div], [mod] *)
Definition d_div_mod (c : cap) (q : option bigint) (r x y : bigint) : outcome (bool * option bigint * bigint) :=
  let xNeg := neg x in
  let qsign := xorb xNeg (neg y) in
  let* d := d_udiv c q r x y in
  let '(ok, q', r') := d in
  if negb ok then Ok (false, q', r')
  else Ok (true, option_map (fun q => set_neg q qsign) q', set_neg r' xNeg).
Definition d_div_q (c : cap) (q x y : bigint) : outcome (bool * bigint) :=
  let* d := d_div_mod c (Some q) (zero c) x y in
  let '(ok, q', _) := d in
  match q' with Some q' => Ok (ok, q') | None => Ok (ok, q) end.
Definition d_mod_r (c : cap) (r x y : bigint) : outcome (bool * bigint) :=
  let* d := d_div_mod c None r x y in
  let '(ok, _, r') := d in Ok (ok, r').
(** bigint.hpp:1927-1944 [quot_rem] *)
Definition d_quot_rem (c : cap) (q : option bigint) (r x y : bigint) : outcome (option bigint * bigint) :=
  let yNeg := neg y in
  let qsign := xorb (neg x) yNeg in
  let* d := d_udiv c q r x y in
  let '(_, q1, r1) := d in
  let r2 := set_neg r1 yNeg in
  let q2 := option_map (fun q => set_neg q qsign) q1 in
  if negb (is_zero r2) && qsign then
    let* q3 := match q2 with
               | Some q => let* q' := d_uadd1 c q q 1 in Ok (Some q')
               | None => Ok None
               end in
    let* r3 := d_usub c r2 y r2 in
    Ok (q3, r3)
  else Ok (q2, r2).

(** bigint.hpp:1947-1958 [shl], assertion 1953; 1961-1976 [shr], assertion 1971 *)
Definition d_shl (c : cap) (y x : bigint) (n : Z) : outcome bigint :=
  let* _ := check (can_resize c (size x + Z.to_nat ((n + 31) / 32))) in shl c y x n.
Definition d_shr (c : cap) (y x : bigint) (n : Z) : outcome bigint :=
  if 32 * Z.of_nat (size x) <=? n then Ok (shr y x n)
  else
    let* _ := check (can_resize c (size x - Z.to_nat (n / 32))) in Ok (shr y x n).

(** bigint.hpp:2011-2059 [or_bit], [and_bit], assertions 2013, 2021, 2024 and 2039, 2046, 2049 *)
Definition d_or_bit (c : cap) (z x y : bigint) : outcome bigint :=
  let* _ := check (negb (neg x) && negb (neg y)) in
  let '(xn, yn) := if Nat.ltb (size x) (size y) then (size y, size x) else (size x, size y) in
  let* _ := check (Nat.leb yn xn) in
  let* _ := check (can_resize c xn) in Ok (or_bit z x y).
Definition d_and_bit (c : cap) (z x y : bigint) : outcome bigint :=
  let* _ := check (negb (neg x) && negb (neg y)) in
  let '(xn, yn) := if Nat.ltb (size x) (size y) then (size y, size x) else (size x, size y) in
  let* _ := check (Nat.leb yn xn) in
  let* _ := check (can_resize c yn) in Ok (and_bit z x y).
(** bigint.hpp:2061-2078 [or_bitu1], [and_bitu1], assertions 2063 and 2070, 2073 *)
Definition d_or_bitu1 (x : bigint) (y : Z) : outcome bigint :=
  let* _ := check (negb (neg x)) in Ok (or_bitu1 x y).
Definition d_and_bitu1 (c : cap) (z x : bigint) (y : Z) : outcome bigint :=
  let* _ := check (negb (neg x)) in
  let* _ := check (can_resize c 1) in Ok (and_bitu1 z x y).

(** bigint.hpp:1501-1511 [bit_length], assertion 1509 *)
Definition d_bit_length (x : bigint) : outcome Z :=
  if is_zero x then Ok 1
  else
    let* _ := check (negb (nth (size x - 1) (mem x) 0 =? 0)) in Ok (bit_length x).
(** bigint.hpp:1526-1556 [set_bit], assertion 1535 *)
Definition d_set_bit (c : cap) (x : bigint) (i : Z) (v : bool) : outcome bigint :=
  let new_size := S (Z.to_nat (i / 32)) in
  let* _ := check (Nat.leb new_size (size x) || can_resize c new_size) in
  let* _ := d_bit_length x in
  set_bit c x i v.
(** bigint.hpp:1580-1603 [compares1], assertion 1582 *)
Definition d_compares1 (x : bigint) (y : Z) : outcome Z :=
  let* _ := check (negb (y =? invalid_var)) in Ok (compares1 x y).

(** bigint.hpp:2532-2577: the operators on two big integers *)
Definition d_op_add c a b := d_add c (zero c) a b.
Definition d_op_sub c a b := d_sub c (zero c) a b.
Definition d_op_mul c a b : outcome bigint := let* r := d_mul c false false (zero c) a b in Ok (snd r).

(** one iteration of a loop whose body can stop *)
Definition step_of {A R : Type} (o : outcome (loopres A (outcome R))) : loopres A (outcome R) :=
  match o with Ok l => l | Abort => Done Abort | UB => Done UB | NoFuel => Done NoFuel end.

(** bigint.hpp:1461-1479 [to_naf] *)
Definition d_naf_step (c : cap) (s : bigint * list Z) : loopres (bigint * list Z) (outcome (list Z)) :=
  let '(num, acc) := s in
  if compareu1 num 0 >? 0 then
    step_of (
      if is_odd num then
        let* m := d_mods1 c (zero c) num 4 in
        let nd := 2 - match get_int32 m with Some n => n | None => 0 end in
        let* num1 := d_subs1 c true num num nd in
        let* num2 := d_shr c num1 num1 1 in
        Ok (Next (num2, acc ++ [nd]))
      else
        let* num1 := d_shr c num num 1 in Ok (Next (num1, acc ++ [0])))
  else Done (Ok acc).
Definition d_to_naf (c : cap) (x : bigint) : outcome (list Z) :=
  let* _ := d_bit_length x in                          (* line 1464 *)
  run_loop (32 * size x + 1) (d_naf_step c) (x, []).

(** bigint.hpp:1019-1041 [mod_mul_t], [mod_sqr_t] and the plain functions (2091-2093) *)
Definition d_mod_mul (c : cap) (m : bigint) (same : bool) (z x y : bigint) : pow_res :=
  let* r := d_mul c same false z x y in
  let '(ok, z1) := r in
  if ok then
    let* r := d_mod_r c (zero c) z1 m in
    let '(ok', u) := r in Ok (if ok' then Some u else None)
  else Ok None.
Definition d_mod_sqr (c : cap) (m : bigint) (same : bool) (z x : bigint) : pow_res :=
  let* r := d_sqr c same z x in
  let '(ok, z1) := r in
  if ok then
    let* r := d_mod_r c (zero c) z1 m in
    let '(ok', u) := r in Ok (if ok' then Some u else None)
  else Ok None.
Definition d_plain_mul (c : cap) (same : bool) (z x y : bigint) : pow_res :=
  let* r := d_mul c same false z x y in Ok (if fst r then Some (snd r) else None).
Definition d_plain_sqr (c : cap) (same : bool) (z x : bigint) : pow_res :=
  let* r := d_sqr c same z x in Ok (if fst r then Some (snd r) else None).
(** bigint.hpp:2084-2093 [pow], 2135-2147 [modexp]; [_pow] itself (1047-1118) has no assertion, its
    [z = 1] is the int assignment *)
Definition d_pow (c : cap) (z x y : bigint) : pow_res :=
  if neg y then Ok None
  else let* _ := d_assign_int c z 1 in pow_words c (d_plain_mul c) (d_plain_sqr c) z x (words y).
Definition d_modexp (c : cap) (z x y m : bigint) : pow_res :=
  if neg y then Ok None
  else let* _ := d_assign_int c z 1 in pow_words c (d_mod_mul c m) (d_mod_sqr c m) z x (words y).

(** bigint.hpp:2187-2296 [modinv] *)
Definition d_add_if_neg (c : cap) (a m : bigint) : outcome bigint := if neg a then d_add c a a m else Ok a.
Definition d_modinv_step (c : cap) (m : bigint) (st : inv_state) : loopres inv_state pow_res :=
  let '(mkinv s t a b) := st in
  step_of (
    let* d := d_div_mod c (Some (zero c)) s s t in
    match d with
    | (true, Some q, s) =>
        if is_zero s then
          if is_one t then let* r := d_add_if_neg c b m in Ok (Done (Ok (Some r))) else Ok (Done (Ok None))
        else
          let* p := d_op_mul c b q in
          let* a := d_sub c a a p in
          let* d := d_div_mod c (Some (zero c)) t t s in
          match d with
          | (true, Some q, t) =>
              if is_zero t then
                if is_one s then let* r := d_add_if_neg c a m in Ok (Done (Ok (Some r))) else Ok (Done (Ok None))
              else
                let* p := d_op_mul c a q in
                let* b := d_sub c b b p in
                Ok (Next (mkinv s t a b))
          | _ => Ok (Done (Ok None))
          end
    | _ => Ok (Done (Ok None))
    end).
Definition d_modinv (c : cap) (y x m : bigint) : pow_res :=
  let* _ := check (negb (is_zero m)) in
  if is_zero x then
    let* r := d_assign_int c y 0 in Ok (if is_one m then Some r else None)
  else if is_one x then
    let* r := d_assign_int c y (if is_one m then 0 else 1) in Ok (Some r)
  else
    let* d := d_div_mod c (Some (zero c)) (zero c) m x in
    match d with
    | (true, Some q, t) =>
        if is_zero t then Ok None
        else run_loop (32 * size x + 1) (d_modinv_step c m) (mkinv x t (of_int c 1) (neg_op q))
    | _ => Ok None
    end.

(** bigint.hpp:2308-2320 [gcd] *)
Definition d_gcd_step (c : cap) (st : bigint * bigint) : loopres (bigint * bigint) (outcome bigint) :=
  let '(x, y) := st in
  if is_zero y then Done (Ok x)
  else step_of (let* r := d_mod_r c y x y in Ok (Next (y, snd r))).
Definition d_gcd (c : cap) (x y : bigint) : outcome bigint :=
  run_loop (32 * size y + 1) (d_gcd_step c) (x, y).

(** bigint.hpp:532, in [div_full_bit]: the quotient array is not the divisor array.  With q and y one
    object it is reached with y's own array when the divisor is not shifted (line 659), which is the
    condition under which [div_alias] of NumModel.v leaves the ordinary division. *)
Definition shares_divisor (x y : list Z) : bool :=
  Nat.ltb 1 (length y) && Nat.ltb (length y) (get_real_size x) && (2 ^ 31 <=? last y 0).
(** bigint.hpp:1866-1870, 966-1004: [div(q, x, q)] of [lcm] *)
Definition d_div_in_place (c : cap) (x y : bigint) : outcome bigint :=
  if Nat.ltb (size x) (size y) then div_in_place c x y
  else
    let* _ := check (can_resize c (size x - size y + 1)) in
    let* _ := check (negb (shares_divisor (words x) (words y))) in
    div_in_place c x y.
(** bigint.hpp:2339-2345 [lcm] *)
Definition d_lcm (c : cap) (z x y : bigint) : outcome bigint :=
  let* g := d_gcd c x y in
  let* q := d_div_in_place c x g in
  let* r := d_mul c false false z q y in Ok (snd r).

(** bigint.hpp:1009-1017 [count_trailing_zero] *)
Definition d_ctz_step (c : cap) (st : bigint * Z) : loopres (bigint * Z) (outcome (bigint * Z)) :=
  let '(x, s) := st in
  if is_even x then step_of (let* x' := d_shr c x x 1 in Ok (Next (x', s + 1))) else Done (Ok (x, s)).
Definition d_count_trailing_zero (c : cap) (x : bigint) : outcome (bigint * Z) :=
  run_loop (32 * size x + 1) (d_ctz_step c) (x, 0).

(** bigint.hpp:2374-2430 [jacobi], assertion 2376 *)
Definition d_jacobi_step (c : cap) (st : bigint * bigint * Z * bool)
  : loopres (bigint * bigint * Z * bool) (outcome Z) :=
  let '(m, n, j, start) := st in
  step_of (
    let* w := if start then Ok (m, n, j)
              else
                let j := if (get_low32bit m mod 4 =? 3) && (get_low32bit n mod 4 =? 3) then - j else j in
                let* r := d_mod_r c (zero c) n m in
                Ok (snd r, m, j) in
    let '(m, n, j) := w in
    let* p := d_count_trailing_zero c m in
    let '(m, s) := p in
    let nmod8 := get_low32bit n mod 8 in
    let j := if negb (s mod 2 =? 0) && ((nmod8 =? 3) || (nmod8 =? 5)) then - j else j in
    let* e := d_compares1 m 1 in
    Ok (if e =? 0 then Done (Ok j) else Next (m, n, j, false))).
Definition d_jacobi (c : cap) (m n : bigint) : outcome Z :=
  let* _ := check (is_odd n) in
  if is_one n then Ok 1
  else
    let* e := d_compares1 m 0 in
    let* m := if (e <? 0) || (compare m n >? 0)
              then let* r := d_quot_rem c None m m n in Ok (snd r)
              else Ok m in
    if is_zero m then Ok 0
    else if is_one m then Ok 1
    else
      let* g := d_gcd c m n in
      let* e := d_compares1 g 1 in
      if negb (e =? 0) then Ok 0
      else run_loop (32 * size n + 1) (d_jacobi_step c) (m, n, 1, true).
