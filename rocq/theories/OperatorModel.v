(** bigint.hpp:2448-2596: the overloaded operators of bigint, for every type of operand.  The buffers are values here, as
    in BigintModel; growing a heap-allocated operand in place is the subject of BigHeapModel. *)
From Coq Require Import ZArith List Bool.
From Verif Require Import Outcome WordsModel BigintModel NumModel.
Import ListNotations.
Open Scope Z_scope.

(** the right operand: int, word_t (uint32_t), int64_t, uint64_t, another bigint, or the left operand itself *)
Inductive operand := KInt (k : Z) | KWord (k : Z) | KI64 (k : Z) | KU64 (k : Z) | KBig (b : bigint) | KSelf.
(** the bigint passed by the overloads that take one: line 1141-1156 for 64-bit integers, which abort on a one-word buffer *)
Definition big_of (c : cap) (x : bigint) (o : operand) : outcome bigint :=
  match o with
  | KI64 k => of_i64 c k
  | KU64 k => of_u64 c k
  | KBig b => Ok b
  | _ => Ok x
  end.
Definition is_self (o : operand) : bool := match o with KSelf => true | _ => false end.

(** 2514-2518: a fresh object receives the sum; 2520-2524: the left operand does *)
Definition bin_add (c : cap) (a : bigint) (o : operand) : outcome bigint :=
  match o with
  | KInt k => Ok (adds1 c false (zero c) a k)
  | KWord k => Ok (addu1 c false (zero c) a k)
  | _ => let* b := big_of c a o in Ok (add c (zero c) a b)
  end.
Definition asg_add (c : cap) (x : bigint) (o : operand) : outcome bigint :=
  match o with
  | KInt k => Ok (adds1 c true x x k)
  | KWord k => Ok (addu1 c true x x k)
  | _ => let* b := big_of c x o in Ok (add c x x b)
  end.
(** 2526-2530, 2532-2536 *)
Definition bin_sub (c : cap) (a : bigint) (o : operand) : outcome bigint :=
  match o with
  | KInt k => Ok (subs1 c false (zero c) a k)
  | KWord k => Ok (subu1 c false (zero c) a k)
  | _ => let* b := big_of c a o in Ok (sub c (zero c) a b)
  end.
Definition asg_sub (c : cap) (x : bigint) (o : operand) : outcome bigint :=
  match o with
  | KInt k => Ok (subs1 c true x x k)
  | KWord k => Ok (subu1 c true x x k)
  | _ => let* b := big_of c x o in Ok (sub c x x b)
  end.
(** 2540-2544, 2546-2550; the success flag of [mul] is ignored *)
Definition bin_mul (c : cap) (a : bigint) (o : operand) : outcome bigint :=
  match o with
  | KInt k => Ok (muls1 c (zero c) a k)
  | KWord k => Ok (mulu1 c (zero c) a k)
  | _ => let* b := big_of c a o in Ok (snd (mul c false false (zero c) a b))
  end.
Definition asg_mul (c : cap) (x : bigint) (o : operand) : outcome bigint :=
  match o with
  | KInt k => Ok (muls1 c x x k)
  | KWord k => Ok (mulu1 c x x k)
  | _ => let* b := big_of c x o in Ok (snd (mul c true (is_self o) x x b))
  end.
(** 2552-2556, 2558-2562; for x /= x the quotient shares the storage of the divisor *)
Definition bin_div (c : cap) (a : bigint) (o : operand) : outcome bigint :=
  match o with
  | KInt k => divs1 c (zero c) a k
  | KWord k => divu1 c (zero c) a k
  | _ => let* b := big_of c a o in let* r := div_q c (zero c) a b in Ok (snd r)
  end.
Definition asg_div (c : cap) (x : bigint) (o : operand) : outcome bigint :=
  match o with
  | KInt k => divs1 c x x k
  | KWord k => divu1 c x x k
  | KSelf => div_in_place c x x
  | _ => let* b := big_of c x o in let* r := div_q c x x b in Ok (snd r)
  end.
(** 2563-2567, 2569-2573; lines 2571 and 2572 call [div] *)
Definition bin_mod (c : cap) (a : bigint) (o : operand) : outcome bigint :=
  match o with
  | KInt k => mods1 (zero c) a k
  | KWord k => modu1 (zero c) a k
  | _ => let* b := big_of c a o in let* r := mod_r c (zero c) a b in Ok (snd r)
  end.
Definition asg_mod (c : cap) (x : bigint) (o : operand) : outcome bigint :=
  match o with
  | KInt k => mods1 x x k
  | KWord k => modu1 x x k
  | KI64 _ | KU64 _ => let* b := big_of c x o in let* r := div_q c x x b in Ok (snd r)
  | _ => let* b := big_of c x o in let* r := mod_r c x x b in Ok (snd r)
  end.

(** 2448-2451: ++x, --x and the values of x++, x-- with the new x *)
Definition pre_inc (c : cap) (x : bigint) : bigint := adds1 c true x x 1.
Definition pre_dec (c : cap) (x : bigint) : bigint := subs1 c true x x 1.
Definition post_inc (c : cap) (x : bigint) : bigint * bigint := (x, adds1 c true x x 1).
Definition post_dec (c : cap) (x : bigint) : bigint * bigint := (x, subs1 c true x x 1).

(** 2453-2512: every comparison is one three-way comparison of the bigint with the other operand, and a test of the
    result.  [o] is the operand on the other side, which line 2458-2461 and so on take on the left. *)
Definition three_way (c : cap) (x : bigint) (o : operand) : outcome Z :=
  match o with
  | KInt k => Ok (compares1 x k)
  | KWord k => Ok (compareu1 x k)
  | _ => let* b := big_of c x o in Ok (compare x b)
  end.
(** 2453-2457, 2463-2467, 2473-2477, 2483-2487, 2493-2497, 2503-2507: x == o, x != o, x < o, x <= o, x > o, x >= o *)
Definition cmp_eq c x o : outcome bool := let* r := three_way c x o in Ok (r =? 0).
Definition cmp_ne c x o : outcome bool := let* e := cmp_eq c x o in Ok (negb e).
Definition cmp_lt c x o : outcome bool := let* r := three_way c x o in Ok (r <? 0).
Definition cmp_gt c x o : outcome bool := let* r := three_way c x o in Ok (r >? 0).
Definition cmp_le c x o : outcome bool := let* g := cmp_gt c x o in Ok (negb g).
Definition cmp_ge c x o : outcome bool := let* l := cmp_lt c x o in Ok (negb l).
(** 2458-2461, 2468-2471, 2478-2481, 2488-2491, 2498-2501, 2508-2511: o == y, o != y, o < y, o <= y, o > y, o >= y *)
Definition rcmp_eq c o y : outcome bool := let* r := three_way c y o in Ok (r =? 0).
Definition rcmp_ne c o y : outcome bool := let* e := rcmp_eq c o y in Ok (negb e).
Definition rcmp_lt c o y : outcome bool := let* r := three_way c y o in Ok (r >? 0).
Definition rcmp_gt c o y : outcome bool := let* r := three_way c y o in Ok (r <? 0).
Definition rcmp_le c o y : outcome bool := let* g := rcmp_gt c o y in Ok (negb g).
Definition rcmp_ge c o y : outcome bool := let* l := rcmp_lt c o y in Ok (negb l).

(** 2575-2589: & and | have overloads for word_t, uint64_t and bigint only; [or_bitu1] first copies x *)
Inductive uoperand := UWord (k : Z) | UU64 (k : Z) | UBig (b : bigint) | USelf.
Definition ubig_of (c : cap) (x : bigint) (o : uoperand) : outcome bigint :=
  match o with UU64 k => of_u64 c k | UBig b => Ok b | _ => Ok x end.
Definition bin_and (c : cap) (a : bigint) (o : uoperand) : outcome bigint :=
  match o with UWord k => Ok (and_bitu1 (zero c) a k) | _ => let* b := ubig_of c a o in Ok (and_bit (zero c) a b) end.
Definition asg_and (c : cap) (x : bigint) (o : uoperand) : outcome bigint :=
  match o with UWord k => Ok (and_bitu1 x x k) | _ => let* b := ubig_of c x o in Ok (and_bit x x b) end.
Definition bin_or (c : cap) (a : bigint) (o : uoperand) : outcome bigint :=
  match o with UWord k => Ok (or_bitu1 a k) | _ => let* b := ubig_of c a o in Ok (or_bit (zero c) a b) end.
Definition asg_or (c : cap) (x : bigint) (o : uoperand) : outcome bigint :=
  match o with UWord k => Ok (or_bitu1 x k) | _ => let* b := ubig_of c x o in Ok (or_bit x x b) end.

(** 2591-2594: shifts by a size_t; 2596: unary minus *)
Definition asg_shl (c : cap) (x : bigint) (n : Z) : outcome bigint := shl c x x n.
Definition asg_shr (x : bigint) (n : Z) : bigint := shr x x n.
Definition bin_shl (c : cap) (x : bigint) (n : Z) : outcome bigint := asg_shl c x n.
Definition bin_shr (x : bigint) (n : Z) : bigint := asg_shr x n.
Definition unary_minus (x : bigint) : bigint := neg_op x.

(** 1732-1737 and 1746-1751: the member functions [mul] and [sqr] ignore the success flag *)
Definition member_mul (c : cap) (x y : bigint) : bigint := snd (mul c false false (zero c) x y).
Definition member_sqr (c : cap) (x : bigint) : bigint := snd (sqr c false (zero c) x).
