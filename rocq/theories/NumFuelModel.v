(** lcm with the bound on the passes of its division loop as a parameter. *)
From Coq Require Import List ZArith Bool PeanoNat.
From Verif Require Import Outcome LoopModel WordsModel BigintModel NumModel.
Import ListNotations.
Open Scope Z_scope.

(** bigint.hpp:553-589 as lcm calls it, [div_alias] of NumModel with the bound on the loop left open: at most 2^k passes, after which the outcome is [NoFuel].  [div_alias] takes k = 33 xn + 1. *)
Definition div_alias_fuel (k : nat) (qn : nat) (x y : list Z) : outcome (list Z) :=
  let yn := length y in
  let yTop := last y 0 in
  let xr := firstn (get_real_size x) x in
  if Nat.ltb 1 yn && Nat.ltb yn (length xr) && (2 ^ 31 <=? yTop) then
    let rev_ := if yTop =? B - 1 then 0 else fst (div_word1 (2 ^ 31) 0 (yTop + 1)) in
    let st := over qn (repeat 0 qn) (y ++ repeat 0 (qn - yn)) in
    let* r := run_loop k (div_full_step_alias yn qn yTop rev_) (st, xr) in
    Ok (firstn qn (fst r))
  else
    let* d := div qn x y in let '(q, _, _) := d in Ok q.
(** bigint.hpp:2339-2345 [lcm] with the same open bound. *)
Definition lcm_fuel (k : nat) (c : cap) (z x y : bigint) : outcome bigint :=
  let* g := gcd c x y in
  let* q := (let qsign := xorb (neg x) (neg g) in
     if Nat.ltb (size x) (size g) then Ok (set_neg (clear g) qsign)
     else
       let qn := (size x - size g + 1)%nat in
       if can_resize c qn then
         let* qw := div_alias_fuel k qn (words x) (words g) in
         Ok (set_neg (store g qw) qsign)
       else Ok g) in
  Ok (snd (mul c false false z q y)).
