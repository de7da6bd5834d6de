(** Specification vocabulary for big integers: what an object denotes, and when it is well formed. *)
From Coq Require Import List ZArith Bool.
From Verif Require Import Outcome UtilsSpec WordsSpec BigintModel.
Import ListNotations.
Open Scope Z_scope.

(** magnitude and value of an object *)
Definition magnitude (x : bigint) : Z := eval (firstn (size x) (mem x)).
Definition value (x : bigint) : Z := if neg x then - magnitude x else magnitude x.

(** storage of an object of capacity [c]: 32-bit words, an N-word array or at least N words *)
Definition storage_ok (c : cap) (x : bigint) : Prop :=
  all_words (mem x) /\
  match c with Fixed N => length (mem x) = N | Flex N => (N <= length (mem x))%nat end.

(** a valid object: at least one word, all in range and inside the storage, no leading zero word.
    The sign flag of zero is not constrained. *)
Definition valid (c : cap) (x : bigint) : Prop :=
  storage_ok c x /\ (1 <= size x <= length (mem x))%nat /\
  ((1 < size x)%nat -> nth (size x - 1) (mem x) 0 <> 0).

(** a canonical object: valid, and zero is not negative *)
Definition canonical (c : cap) (x : bigint) : Prop :=
  valid c x /\ (value x = 0 -> neg x = false).

(** the capacity accommodates [n] words *)
Definition room (c : cap) (n : nat) : Prop :=
  match c with Fixed N => (n <= N)%nat | Flex _ => True end.

(** sign of a three-way comparison result *)
Definition cmp_result (r x y : Z) : Prop :=
  (r = 1 /\ x > y) \/ (r = 0 /\ x = y) \/ (r = -1 /\ x < y).

(** non-adjacent form, least significant digit first *)
Fixpoint naf_value (l : list Z) : Z :=
  match l with
  | [] => 0
  | d :: t => d + 2 * naf_value t
  end.
Fixpoint non_adjacent (l : list Z) : Prop :=
  match l with
  | [] => True
  | a :: t => match t with [] => True | b :: _ => (a = 0 \/ b = 0) /\ non_adjacent t end
  end.
Definition is_naf (l : list Z) (v : Z) : Prop :=
  naf_value l = v /\ Forall (fun d => d = -1 \/ d = 0 \/ d = 1) l /\ non_adjacent l /\ (l = [] \/ last l 0 = 1).

(** objects that programs can build: constructors and operations in any order, with any operand also
    serving as the destination *)
Inductive produced (c : cap) : bigint -> Prop :=
| P_zero : produced c (zero c)
| P_int k : Z.abs k < 2 ^ 32 -> produced c (of_int c k)
| P_word w : 0 <= w < 2 ^ 32 -> produced c (of_word c w)
| P_u64 w r : 0 <= w < 2 ^ 64 -> of_u64 c w = Ok r -> produced c r
| P_i64 w r : - 2 ^ 63 <= w < 2 ^ 63 -> of_i64 c w = Ok r -> produced c r
| P_bytes z d : produced c z -> all_bytes d -> produced c (snd (set_bytes c z d))
| P_add z x y : produced c z -> produced c x -> produced c y -> produced c (add c z x y)
| P_sub z x y : produced c z -> produced c x -> produced c y -> produced c (sub c z x y)
| P_add1 z x w s : produced c z -> produced c x -> 0 <= w < 2 ^ 32 -> produced c (add1_signed c false z x w s)
| P_add1_same x w s : produced c x -> 0 <= w < 2 ^ 32 -> produced c (add1_signed c true x x w s)
| P_mul sX sY z x y : produced c z -> produced c x -> produced c y ->
    (sX = true -> z = x) -> (sY = true -> z = y) -> produced c (snd (mul c sX sY z x y))
| P_mulu1 z x w : produced c z -> produced c x -> 0 <= w < 2 ^ 32 -> produced c (mulu1 c z x w)
| P_muls1 z x k : produced c z -> produced c x -> - 2 ^ 31 <= k < 2 ^ 31 -> produced c (muls1 c z x k)
| P_divs1 q x k r : produced c q -> produced c x -> - 2 ^ 31 <= k < 2 ^ 31 -> divs1 c q x k = Ok r -> produced c r
| P_mods1 q x k r : produced c q -> produced c x -> - 2 ^ 31 <= k < 2 ^ 31 -> mods1 q x k = Ok r -> produced c r
| P_divu1 q x w r : produced c q -> produced c x -> 0 <= w < 2 ^ 32 -> divu1 c q x w = Ok r -> produced c r
| P_div_q q r x y ok q' r' : produced c q -> produced c r -> produced c x -> produced c y ->
    div_mod c (Some q) r x y = Ok (ok, Some q', r') -> produced c q'
| P_div_r q r x y ok q' r' : (forall q0, q = Some q0 -> produced c q0) -> produced c r -> produced c x -> produced c y ->
    div_mod c q r x y = Ok (ok, q', r') -> produced c r'
| P_quot q r x y q' r' : produced c q -> produced c r -> produced c x -> produced c y ->
    quot_rem c (Some q) r x y = Ok (Some q', r') -> produced c q'
| P_rem q r x y q' r' : (forall q0, q = Some q0 -> produced c q0) -> produced c r -> produced c x -> produced c y ->
    quot_rem c q r x y = Ok (q', r') -> produced c r'
| P_shl z x n r : produced c z -> produced c x -> 0 <= n -> shl c z x n = Ok r -> produced c r
| P_shr z x n : produced c z -> produced c x -> 0 <= n -> produced c (shr z x n)
| P_neg x : produced c x -> produced c (neg_op x)
| P_abs x : produced c x -> produced c (abs_op x)
| P_or z x y : produced c z -> produced c x -> produced c y -> produced c (or_bit z x y)
| P_and z x y : produced c z -> produced c x -> produced c y -> produced c (and_bit z x y)
| P_or1 x w : produced c x -> 0 <= w < 2 ^ 32 -> produced c (or_bitu1 x w)
| P_and1 z x w : produced c z -> produced c x -> 0 <= w < 2 ^ 32 -> produced c (and_bitu1 z x w)
| P_set_bit x i v r : produced c x -> 0 <= i -> set_bit c x i v = Ok r -> produced c r.
