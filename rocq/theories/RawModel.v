(** Model of bigint.hpp, namespace ack::detail, and of the bodies of the magnitude functions, at the level
    of memory: the word loops of WordsModel as the C++ writes them, with loads and stores through pointers
    that may be equal or overlap.  Memory is a list of arrays; a pointer is an array and an index.  A load
    or store outside its array is [UB].  [assert] is a check ([Abort]): it is one in debug builds.
    A variable-length array or alloca is a new array with indeterminate contents [junk], dropped at return. *)
From Coq Require Import List ZArith Bool.
From Verif Require Import Outcome LoopModel WordsModel BufferModel.
Import ListNotations.
Open Scope Z_scope.

Definition memory := list (list Z).
Definition loc := (nat * nat)%type.
(** pointer arithmetic [p + i] *)
Definition at_ (p : loc) (i : nat) : loc := (fst p, (snd p + i)%nat).
Definition rd (m : memory) (b k : nat) : option Z :=
  match nth_error m b with Some d => nth_error d k | None => None end.
(** [p[i]] *)
Definition ld (m : memory) (p : loc) (i : nat) : outcome Z :=
  match rd m (fst p) (snd p + i) with Some w => Ok w | None => UB end.
(** [p[i] = w] *)
Definition st (m : memory) (p : loc) (i : nat) (w : Z) : outcome memory :=
  match rd m (fst p) (snd p + i) with
  | Some _ => Ok (upd m (fst p) (upd (nth (fst p) m []) (snd p + i) w))
  | None => UB
  end.
Definition loc_eqb (p q : loc) : bool := Nat.eqb (fst p) (fst q) && Nat.eqb (snd p) (snd q).
(** [word_t t[n]] or alloca of n words *)
Definition alloca (m : memory) (junk : nat -> Z) (n : nat) : memory * loc :=
  (m ++ [map junk (seq 0 n)], (length m, 0%nat)).
Definition leave (m0 m : memory) : memory := firstn (length m0) m.
(** a subtraction of sizes; one that would wrap around gives a size no array has *)
Definition less (a b : nat) : outcome nat := if Nat.ltb a b then UB else Ok (a - b)%nat.

(** bigint.hpp:79-90 [cmp_ge_n], 99-108 [cmp_n]: index n-1-i for i = 0, 1, ... *)
Fixpoint cmp_ge_r (m : memory) (px py : loc) (n : nat) : outcome bool :=
  match n with
  | O => Ok true
  | S k =>
      let* x := ld m px k in
      let* y := ld m py k in
      if x >? y then Ok true else if x <? y then Ok false else cmp_ge_r m px py k
  end.
Fixpoint cmp_r (m : memory) (px py : loc) (n : nat) : outcome Z :=
  match n with
  | O => Ok 0
  | S k =>
      let* x := ld m px k in
      let* y := ld m py k in
      if x =? y then cmp_r m px py k else Ok (if x >? y then 1 else -1)
  end.
(** bigint.hpp:121-131 [get_real_size]. *)
Fixpoint real_size_r (m : memory) (x : loc) (n : nat) : outcome nat :=
  match n with
  | O => Ok 1%nat
  | S k => let* w := ld m x k in if w =? 0 then real_size_r m x k else Ok n
  end.

(** bigint.hpp:172-200 [get_add], 202-230 [get_sub]: k more iterations from index i. *)
Fixpoint add_r (k i : nat) (z x y : loc) (c : Z) (m : memory) : outcome (Z * memory) :=
  match k with
  | O => Ok (c mod B, m)
  | S k =>
      let* a := ld m x i in
      let* b := ld m y i in
      let v := (a + b + c) mod W64 in
      let* m := st m z i (v mod B) in
      add_r k (S i) z x y (v / B) m
  end.
Definition add_n_r (m : memory) (z x y : loc) (n : nat) : outcome (Z * memory) := add_r n 0 z x y 0 m.
Fixpoint sub_r (k i : nat) (z x y : loc) (c : Z) (m : memory) : outcome (Z * memory) :=
  match k with
  | O => Ok (c, m)
  | S k =>
      let* a := ld m x i in
      let* b := ld m y i in
      let v := (a - b - c) mod W64 in
      let* m := st m z i (v mod B) in
      sub_r k (S i) z x y (v / 2 ^ 63) m
  end.
Definition sub_n_r (m : memory) (z x y : loc) (n : nat) : outcome (Z * memory) := sub_r n 0 z x y 0 m.

(** bigint.hpp:232-250 [get_mul_word], 252-272 [get_mul_word_add]. *)
Fixpoint mul_word_r (k i : nat) (z x : loc) (y H : Z) (m : memory) : outcome (Z * memory) :=
  match k with
  | O => Ok (H mod B, m)
  | S k =>
      let* a := ld m x i in
      let v := ((a * y) mod W64 + H) mod W64 in
      let* m := st m z i (v mod B) in
      mul_word_r k (S i) z x y (v / B) m
  end.
Definition mul_word_n_r (m : memory) (z x : loc) (y : Z) (n : nat) : outcome (Z * memory) := mul_word_r n 0 z x y 0 m.
Fixpoint mul_word_add_r (k i : nat) (z x : loc) (y H : Z) (m : memory) : outcome (Z * memory) :=
  match k with
  | O => Ok (H, m)
  | S k =>
      let* a := ld m x i in
      let* c := ld m z i in
      let v := (((a * y) mod W64 + H) mod W64 + c) mod W64 in
      let* m := st m z i (v mod B) in
      mul_word_add_r k (S i) z x y (v / B) m
  end.
Definition mul_word_add_n_r (m : memory) (z x : loc) (y : Z) (n : nat) : outcome (Z * memory) :=
  let* r := mul_word_add_r n 0 z x y 0 m in Ok (fst r mod B, snd r).

(** bigint.hpp:291-297 [copy_n], 299-304 [clear_n]. *)
Fixpoint copy_r (k i : nat) (y x : loc) (m : memory) : outcome memory :=
  match k with
  | O => Ok m
  | S k => let* a := ld m x i in let* m := st m y i a in copy_r k (S i) y x m
  end.
Definition copy_n_r (m : memory) (y x : loc) (n : nat) : outcome memory := copy_r n 0 y x m.
Fixpoint clear_r (k i : nat) (x : loc) (m : memory) : outcome memory :=
  match k with
  | O => Ok m
  | S k => let* m := st m x i 0 in clear_r k (S i) x m
  end.
Definition clear_n_r (m : memory) (x : loc) (n : nat) : outcome memory := clear_r n 0 x m.

(** bigint.hpp:307-320 [shl_n]: the loop for i = n-1 ... 1; n = 0 reads before the array. *)
Fixpoint shl_r (i : nat) (pz px : loc) (bit prev : Z) (m : memory) : outcome (Z * memory) :=
  match i with
  | O => Ok (prev, m)
  | S k =>
      let* t := ld m px k in
      let* m := st m pz i (Z.lor (Z.shiftl prev bit mod B) (Z.shiftr t (32 - bit))) in
      shl_r k pz px bit t m
  end.
Definition shl_n_r (m : memory) (pz px : loc) (bit : Z) (n : nat) : outcome (Z * memory) :=
  let* _ := check ((0 <? bit) && (bit <? 32)) in
  match n with
  | O => UB
  | S k =>
      let* keep := ld m px k in
      let* r := shl_r k pz px bit keep m in
      let* m := st (snd r) pz 0 (Z.shiftl (fst r) bit mod B) in
      Ok (Z.shiftr keep (32 - bit), m)
  end.
(** bigint.hpp:324-335 [shr_n]: the loop for i = 1 ... n-1. *)
Fixpoint shr_r (k i : nat) (pz px : loc) (bit prev : Z) (m : memory) : outcome (Z * memory) :=
  match k with
  | O => Ok (prev, m)
  | S k =>
      let* t := ld m px (S i) in
      let* m := st m pz i (Z.lor (Z.shiftr prev bit) (Z.shiftl t (32 - bit) mod B)) in
      shr_r k (S i) pz px bit t m
  end.
Definition shr_n_r (m : memory) (pz px : loc) (bit : Z) (n : nat) : outcome memory :=
  let* _ := check ((0 <? bit) && (bit <? 32)) in
  match n with
  | O => UB
  | S k =>
      let* prev := ld m px 0 in
      let* r := shr_r k 0 pz px bit prev m in
      st (snd r) pz k (Z.shiftr (fst r) bit)
  end.
(** bigint.hpp:344-362 [shift_left], the loop of lines 352-354 for index xn-1-i; returns yn. *)
Fixpoint copy_down_r (k : nat) (y x : loc) (m : memory) : outcome memory :=
  match k with
  | O => Ok m
  | S k => let* a := ld m x k in let* m := st m y k a in copy_down_r k y x m
  end.
Definition shift_left_r (m : memory) (y x : loc) (bit : Z) (xn : nat) : outcome (nat * memory) :=
  let* _ := check (Nat.ltb 0 xn) in
  let q := Z.to_nat (bit / 32) in
  let r := bit mod 32 in
  let* ym :=
    (if r =? 0 then let* m := copy_down_r xn (at_ y q) x m in Ok ((xn + q)%nat, m)
     else
       let* s := shl_n_r m (at_ y q) x r xn in
       let* m := st (snd s) y (q + xn) (fst s) in
       Ok (S (xn + q), m)) in
  let* m := clear_n_r (snd ym) y q in
  Ok (fst ym, m).
(** bigint.hpp:370-385 [shift_right]. *)
Definition shift_right_r (m : memory) (y x : loc) (bit : Z) (xn : nat) : outcome (nat * memory) :=
  let* _ := check (bit <=? 32 * Z.of_nat xn) in
  let* _ := check (Nat.ltb 0 xn) in
  let q := Z.to_nat (bit / 32) in
  let r := bit mod 32 in
  let* _ := check (Nat.leb q xn) in
  let* m := (if r =? 0 then copy_n_r m y (at_ x q) (xn - q) else shr_n_r m y (at_ x q) r (xn - q)) in
  Ok ((xn - q)%nat, m).

(** bigint.hpp:388-402 [add_word], 405-419 [sub_word]. *)
Fixpoint add_one_r (k i : nat) (y : loc) (m : memory) : outcome (Z * memory) :=
  match k with
  | O => Ok (1, m)
  | S k =>
      let* a := ld m y i in
      let t := (a + 1) mod B in
      let* m := st m y i t in
      if t =? 0 then add_one_r k (S i) y m else Ok (0, m)
  end.
Definition add_word_r (m : memory) (y : loc) (n : nat) (x : Z) : outcome (Z * memory) :=
  match n with
  | O => Ok (0, m)
  | S k =>
      let* a := ld m y 0 in
      let t := (a + x) mod B in
      let* m := st m y 0 t in
      if t >=? x then Ok (0, m) else add_one_r k 1 y m
  end.
Fixpoint sub_one_r (k i : nat) (y : loc) (m : memory) : outcome (Z * memory) :=
  match k with
  | O => Ok (1, m)
  | S k =>
      let* t := ld m y i in
      let* m := st m y i ((t - 1) mod B) in
      if t =? 0 then sub_one_r k (S i) y m else Ok (0, m)
  end.
Definition sub_word_r (m : memory) (y : loc) (n : nat) (x : Z) : outcome (Z * memory) :=
  match n with
  | O => Ok (0, m)
  | S k =>
      let* t := ld m y 0 in
      let* m := st m y 0 ((t - x) mod B) in
      if t >=? x then Ok (0, m) else sub_one_r k 1 y m
  end.

(** bigint.hpp:421-428 [div_word1] with its assertion; 444-454 [div_word], 460-470 [mod_word]. *)
Definition div_word1_r (H L y : Z) : outcome (Z * Z) := let* _ := check (H <? y) in Ok (div_word1 H L y).
Fixpoint div_word_loop_r (n : nat) (q x : loc) (y r : Z) (m : memory) : outcome (Z * memory) :=
  match n with
  | O => Ok (r, m)
  | S i =>
      let* a := ld m x i in
      let* d := div_word1_r r a y in
      let* m := st m q i (fst d) in
      div_word_loop_r i q x y (snd d) m
  end.
Definition div_word_r (m : memory) (q x : loc) (n : nat) (y : Z) : outcome (Z * memory) :=
  let* _ := check (negb (y =? 0)) in div_word_loop_r n q x y 0 m.
Fixpoint mod_word_loop_r (n : nat) (m : memory) (x : loc) (y r : Z) : outcome Z :=
  match n with
  | O => Ok r
  | S i =>
      let* a := ld m x i in
      let* d := div_word1_r r a y in
      mod_word_loop_r i m x y (snd d)
  end.
Definition mod_word_r (m : memory) (x : loc) (n : nat) (y : Z) : outcome Z :=
  let* _ := check (negb (y =? 0)) in mod_word_loop_r n m x y 0.

(** a loop body that may fail *)
Definition stepo {S A} (o : outcome (loopres S (outcome A))) : loopres S (outcome A) :=
  match o with Ok l => l | Abort => Done Abort | UB => Done UB | NoFuel => Done NoFuel end.

(** bigint.hpp:476-482: the lambda of [div_small]; q may be null. *)
Definition clear_q_r (m : memory) (q : option loc) (qn : nat) (qv : Z) (x : loc) (xn : nat) : outcome (nat * memory) :=
  let* m := match q with
            | None => Ok m
            | Some q => let* m := st m q 0 qv in let* k := less qn 1 in clear_n_r m (at_ q 1) k
            end in
  let* n := real_size_r m x xn in
  Ok (n, m).
(** bigint.hpp:519-522. *)
Definition div_small_step_r (x y : loc) (yn : nat) (s : Z * memory) : loopres (Z * memory) (outcome (Z * memory)) :=
  let '(qv, m) := s in
  stepo (let* g := cmp_ge_r m x y yn in
         if g then let* r := sub_n_r m x x y yn in Ok (Next ((qv + 1) mod B, snd r)) else Ok (Done (Ok (qv, m)))).
(** bigint.hpp:473-527 [div_small]: 0 for "not handled". *)
Definition div_small_r (junk : nat -> Z) (m : memory) (q : option loc) (qn : nat) (x : loc) (xn : nat) (y : loc) (yn : nat)
  : outcome (nat * memory) :=
  if Nat.ltb yn xn then Ok (0%nat, m)
  else
    let* _ := check (Nat.ltb 0 yn) in
    let* yTop := ld m y (yn - 1) in
    let* _ := check (yTop >? 0) in
    let* ret := (if Nat.ltb xn yn then Ok (-1) else cmp_r m x y yn) in
    if ret <? 0 then clear_q_r m q qn 0 x xn
    else if ret =? 0 then let* m := clear_n_r m x xn in clear_q_r m q qn 1 x xn
    else
      let* _ := check (Nat.eqb xn yn) in
      if yTop >=? 2 ^ 16 then
        let* xq :=
          (if yTop =? B - 1 then let* r := sub_n_r m x x y yn in Ok (1, snd r)
           else
             let '(m1, t) := alloca m junk yn in
             let* top := ld m1 x (yn - 1) in
             let qv := top / ((yTop + 1) mod B) in
             let* r := mul_word_n_r m1 t y qv yn in
             let* r := sub_n_r (snd r) x x t yn in
             Ok (qv, leave m (snd r))) in
        let* xq := run_loop (32 * xn + 1) (div_small_step_r x y yn) xq in
        clear_q_r (snd xq) q qn (fst xq) x xn
      else Ok (0%nat, m).

(** bigint.hpp:553-589: the loop of [div_full_bit] over (xn, memory). *)
Definition div_full_step_r (q : option loc) (qn : nat) (x y t : loc) (yn : nat) (yTop rev_ : Z) (s : nat * memory)
  : loopres (nat * memory) (outcome (nat * memory)) :=
  let '(xn, m) := s in
  if Nat.ltb xn yn then Done (Ok (xn, m))
  else
    stepo (let* top := ld m x (xn - 1) in
      if top =? 0 then Ok (Next ((xn - 1)%nat, m))
      else
        let d := (xn - yn)%nat in
        let* g := cmp_ge_r m (at_ x d) y yn in
        if g then
          let* r := sub_n_r m (at_ x d) (at_ x d) y yn in
          let* m := match q with
                    | None => Ok (snd r)
                    | Some q => let* k := less qn d in let* r := add_word_r (snd r) (at_ q d) k 1 in Ok (snd r)
                    end in
          Ok (if Nat.eqb d 0 then Done (Ok (xn, m)) else Next (xn, m))
        else if Nat.eqb d 0 then Ok (Done (Ok (xn, m)))
        else
          let v := full_guess yTop rev_ top in
          let* r1 := mul_word_n_r m t y v yn in
          let* r2 := sub_n_r (snd r1) (at_ x (d - 1)) (at_ x (d - 1)) t yn in
          let ret := (fst r1 + fst r2) mod B in
          let* top := ld (snd r2) x (xn - 1) in
          let* m := st (snd r2) x (xn - 1) ((top - ret) mod B) in
          let* m := match q with
                    | None => Ok m
                    | Some q => let* k := less (qn + 1) d in let* r := add_word_r m (at_ q (d - 1)) k v in Ok (snd r)
                    end in
          Ok (Next (xn, m))).
(** bigint.hpp:530-594 [div_full_bit]; [t] is the array of line 543. *)
Definition div_full_bit_r (junk : nat -> Z) (m : memory) (q : option loc) (qn : nat) (x : loc) (xn : nat) (y : loc) (yn : nat)
  : outcome (nat * memory) :=
  let* _ := check (Nat.ltb 0 xn) in
  let* _ := check (match q with Some q => negb (loc_eqb q x) && negb (loc_eqb q y) | None => true end && negb (loc_eqb x y)) in
  let* k := less yn 1 in
  let* yTop := ld m y k in
  let* _ := check (negb (Z.shiftr yTop 31 =? 0)) in
  let* m := match q with Some q => clear_n_r m q qn | None => Ok m end in
  let '(m1, t) := alloca m junk yn in
  let* rev_ := (if yTop =? B - 1 then Ok 0 else let* d := div_word1_r (2 ^ 31) 0 (yTop + 1) in Ok (fst d)) in
  let* r := run_loop (33 * xn + 1) (div_full_step_r q qn x y t yn yTop rev_) (xn, m1) in
  let '(xn, m1) := r in
  let* lt := (if Nat.ltb xn yn then Ok true else if Nat.eqb xn yn then let* g := cmp_ge_r m1 x y yn in Ok (negb g) else Ok false) in
  let* _ := check lt in
  let* n := real_size_r m1 x xn in
  Ok (n, leave m m1).

(** bigint.hpp:597-617 [div1]. *)
Definition div1_r (m : memory) (q : option loc) (qn : nat) (x : loc) (xn : nat) (y : loc) : outcome (nat * memory) :=
  let* _ := check (Nat.ltb 0 xn) in
  let* _ := check (match q with Some _ => Nat.leb xn qn | None => true end) in
  let* xn := real_size_r m x xn in
  let* tm :=
    match q with
    | Some q =>
        let* m := (if Nat.ltb xn qn then clear_n_r m (at_ q xn) (qn - xn) else Ok m) in
        let* y0 := ld m y 0 in
        div_word_r m q x xn y0
    | None => let* y0 := ld m y 0 in let* t := mod_word_r m x xn y0 in Ok (t, m)
    end in
  let* m := st (snd tm) x 0 (fst tm) in
  let* m := clear_n_r m (at_ x 1) (xn - 1) in
  Ok (1%nat, m).

(** bigint.hpp:620-662 [div]; [junk] numbers the local arrays. *)
Definition div_r (junk : nat -> nat -> Z) (m : memory) (q : option loc) (qn : nat) (x : loc) (xn : nat) (y : loc) (yn : nat)
  : outcome (nat * memory) :=
  if Nat.eqb yn 1 then div1_r m q qn x xn y
  else
    let* _ := check (Nat.ltb 0 xn && Nat.ltb 1 yn) in
    let* _ := check (Nat.ltb xn yn || match q with Some _ => Nat.leb (xn - yn + 1) qn | None => true end) in
    let* yTop := ld m y (yn - 1) in
    let* _ := check (negb (yTop =? 0)) in
    let* xn := real_size_r m x xn in
    let* r := div_small_r (junk 0%nat) m q qn x xn y yn in
    let '(new_xn, m) := r in
    if Nat.ltb 0 new_xn then Ok (new_xn, m)
    else
      let shift := 31 - bsr32 yTop in
      if negb (shift =? 0) then
        let '(m1, yShift) := alloca m (junk 1%nat) yn in
        let* r := shl_n_r m1 yShift y shift yn in
        let '(m2, xx) := alloca (snd r) (junk 2%nat) (xn + 1) in
        let* r := shl_n_r m2 xx x shift xn in
        let '(v, m2) := r in
        let* r := (if v =? 0 then Ok (xn, m2) else let* m2 := st m2 xx xn v in Ok ((xn + 1)%nat, m2)) in
        let* r := div_full_bit_r (junk 3%nat) (snd r) q qn xx (fst r) yShift yn in
        let* m2 := shr_n_r (snd r) x xx shift (fst r) in
        Ok (fst r, leave m m2)
      else div_full_bit_r (junk 3%nat) m q qn x xn y yn.

(** bigint.hpp:665-699 [mul_nm]; rows i = 1 ... yn-1. *)
Fixpoint mul_rows_r (k i : nat) (z x y : loc) (xn : nat) (m : memory) : outcome memory :=
  match k with
  | O => Ok m
  | S k =>
      let* yi := ld m y i in
      let* r := mul_word_add_n_r m (at_ z i) x yi xn in
      let* m := st (snd r) z (xn + i) (fst r) in
      mul_rows_r k (S i) z x y xn m
  end.
Definition mul_nm_r (junk : nat -> nat -> Z) (m : memory) (z x : loc) (xn : nat) (y : loc) (yn : nat) : outcome (bool * memory) :=
  if Nat.eqb xn 0 || Nat.eqb yn 0 then Ok (true, m)
  else
    let '(x, xn, y, yn) := if Nat.ltb xn yn then (y, yn, x, xn) else (x, xn, y, yn) in
    let* _ := check (Nat.leb yn xn) in
    let* r := (if loc_eqb z x then let '(m1, p) := alloca m (junk 0%nat) xn in let* m1 := copy_n_r m1 p x xn in Ok (p, m1) else Ok (x, m)) in
    let '(x, m1) := r in
    let* r := (if loc_eqb z y then let '(m2, p) := alloca m1 (junk 1%nat) yn in let* m2 := copy_n_r m2 p y yn in Ok (p, m2) else Ok (y, m1)) in
    let '(y, m2) := r in
    let* y0 := ld m2 y 0 in
    let* r := mul_word_n_r m2 z x y0 xn in
    let* m3 := st (snd r) z xn (fst r) in
    let* m4 := mul_rows_r (yn - 1) 1 z x y xn m3 in
    Ok (true, leave m m4).

(** bigint.hpp:831-840, the body of [uadd] after the resize (the operands already swapped, line 818-821). *)
Definition uadd_r (m : memory) (dst px : loc) (xn : nat) (py : loc) (yn : nat) : outcome memory :=
  let* _ := check (Nat.leb yn xn) in
  let* r := add_n_r m dst px py yn in
  let* r :=
    (if Nat.ltb yn xn then
       let n := (xn - yn)%nat in
       let* m := (if loc_eqb dst px then Ok (snd r) else copy_n_r (snd r) (at_ dst yn) (at_ px yn) n) in
       add_word_r m (at_ dst yn) n (fst r)
     else Ok r) in
  st (snd r) dst xn (fst r).
(** bigint.hpp:854-858 [uadd1], 871-875 [usub1] after the resize. *)
Definition uadd1_r (m : memory) (dst x : loc) (xn : nat) (w : Z) : outcome memory :=
  let* m := (if loc_eqb dst x then Ok m else copy_n_r m dst x xn) in
  let* r := add_word_r m dst xn w in
  st (snd r) dst xn (fst r).
Definition usub1_r (m : memory) (dst src : loc) (xn : nat) (w : Z) : outcome memory :=
  let* m := (if loc_eqb dst src then Ok m else copy_n_r m dst src xn) in
  let* r := sub_word_r m dst xn w in
  let* _ := check (fst r =? 0) in
  Ok (snd r).
(** bigint.hpp:883, 892-901 [usub] after the resize. *)
Definition usub_r (m : memory) (z x : loc) (xn : nat) (y : loc) (yn : nat) : outcome memory :=
  let* _ := check (Nat.leb yn xn) in
  let* r := sub_n_r m z x y yn in
  let* r :=
    (if Nat.ltb yn xn then
       let n := (xn - yn)%nat in
       let* m := (if loc_eqb (at_ z yn) (at_ x yn) then Ok (snd r) else copy_n_r (snd r) (at_ z yn) (at_ x yn) n) in
       sub_word_r m (at_ z yn) n (fst r)
     else Ok r) in
  let* _ := check (fst r =? 0) in
  Ok (snd r).
(** bigint.hpp:1774 [mulu1] after the resize. *)
Definition mulu1_r (m : memory) (z x : loc) (w : Z) (xn : nat) : outcome memory :=
  let* r := mul_word_n_r m z x w xn in st (snd r) z xn (fst r).
(** bigint.hpp:983-990 [udiv]: the dividend is copied to a local array; returns the remainder words. *)
Definition udiv_r (junk : nat -> nat -> Z) (m : memory) (q : option loc) (qn : nat) (x : loc) (xn : nat) (y : loc) (yn : nat)
  : outcome (list Z * memory) :=
  let '(m1, xx) := alloca m (junk 4%nat) xn in
  let* m1 := copy_n_r m1 xx x xn in
  let* r := div_r junk m1 q qn xx xn y yn in
  Ok (firstn (fst r) (nth (fst xx) (snd r) []), leave m (snd r)).
