(** Model of fp.hpp and of the operators of fe.hpp over the big integers of BigintModel.v / NumModel.v.
    All operands of one operation have the same buffer type ([c]), as in every instantiation in the
    library.  Functions whose big-integer operations can abort or leave memory return an [outcome]. *)
From Coq Require Import List ZArith Bool.
From Verif Require Import Outcome LoopModel WordsModel BigintModel NumModel.
Import ListNotations.
Open Scope Z_scope.

(** fp.hpp:15-19 [fp_is_valid] *)
Definition fp_is_valid (a p : bigint) : bool := (compares1 a 0 >=? 0) && (compare a p <? 0).
(** fp.hpp:21-28 [fp_neg] *)
Definition fp_neg (c : cap) (a p : bigint) : bigint := if compares1 a 0 =? 0 then a else op_sub c p a.
(** fp.hpp:30-62 [fp_normalize], both arguments big integers *)
Definition fp_normalize (c : cap) (a p : bigint) : outcome bigint :=
  if (compares1 a 0 =? 0) || ((compares1 a 1 =? 0) && negb (compares1 p 1 =? 0)) then Ok a
  else if compares1 a 0 <? 0 then
    let* a := if byte_length p <? byte_length a then let* r := mod_r c a a p in Ok (snd r) else Ok a in
    Ok (add c a a p)
  else if compare a p >=? 0 then
    if byte_length p <? byte_length a then let* r := mod_r c a a p in Ok (snd r) else Ok (sub c a a p)
  else Ok a.
(** fp.hpp:64-72 [fp_add], 74-82 [fp_sub], with big-integer and with int second operand *)
Definition fp_add_tail (c : cap) (res p : bigint) : bigint := if compare res p >=? 0 then sub c res res p else res.
Definition fp_add (c : cap) (a b p : bigint) : bigint := fp_add_tail c (op_add c a b) p.
Definition fp_add_int (c : cap) (a : bigint) (b : Z) (p : bigint) : bigint := fp_add_tail c (adds1 c false (zero c) a b) p.
Definition fp_sub_tail (c : cap) (res p : bigint) : bigint := if compares1 res 0 <? 0 then add c res res p else res.
Definition fp_sub (c : cap) (a b p : bigint) : bigint := fp_sub_tail c (op_sub c a b) p.
Definition fp_sub_int (c : cap) (a : bigint) (b : Z) (p : bigint) : bigint := fp_sub_tail c (subs1 c false (zero c) a b) p.
(** fp.hpp:84-88 [fp_mul]; 388-391 [fp_sqr] *)
Definition fp_mul (c : cap) (a b p : bigint) : outcome bigint := op_mod c (op_mul c a b) p.
Definition fp_mul_int (c : cap) (a : bigint) (b : Z) (p : bigint) : outcome bigint := op_mod c (muls1 c (zero c) a b) p.
Definition fp_sqr (c : cap) (a p : bigint) : outcome bigint := fp_mul c a a p.
(** fp.hpp:90-94 [fp_div] *)
Definition fp_div (c : cap) (a b p : bigint) : outcome bigint :=
  let* i := op_modinv c b p in
  op_mod c (op_mul c a i) p.

(** bigint.hpp:1746-1751 [sqr], the flag is ignored; then [% p] *)
Definition sqr_mod (c : cap) (x p : bigint) : outcome bigint := op_mod c (snd (sqr c false (zero c) x)) p.
(** fp.hpp:121-124: the search for a non-square *)
Definition find_z_step (c : cap) (p : bigint) (z : bigint) : loopres bigint (outcome bigint) :=
  match jacobi c z p with
  | Ok j => if j =? -1 then Done (Ok z) else Next (adds1 c true z z 1)
  | Abort => Done Abort | UB => Done UB | NoFuel => Done NoFuel
  end.
(** fp.hpp:133-143: the inner do-while; [None] is the early return of 0.  [k] is s - m, the passes left
    before m reaches s. *)
Fixpoint find_m (c : cap) (p : bigint) (k : nat) (m : nat) (z : bigint) : outcome (option nat) :=
  match k with
  | O => NoFuel
  | S k' =>
      let* z := sqr_mod c z p in
      match k' with
      | O => Ok None
      | S _ => if compares1 z 1 =? 0 then Ok (Some (S m)) else find_m c p k' (S m) z
      end
  end.
(** fp.hpp:145-148 *)
Fixpoint sqr_times (c : cap) (p : bigint) (k : nat) (b : bigint) : outcome bigint :=
  match k with
  | O => Ok b
  | S k => let* b := sqr_mod c b p in sqr_times c p k b
  end.
(** fp.hpp:130-154: the outer loop over (c, r, t, s) *)
Fixpoint tonelli (fuel : nat) (c : cap) (p cc r t : bigint) (s : nat) : outcome bigint :=
  if compares1 t 1 =? 0 then Ok r
  else
    match fuel with
    | O => NoFuel
    | S fuel =>
        let* om := find_m c p s 0 t in
        match om with
        | None => Ok (of_int c 0)
        | Some m =>
            let* b := sqr_times c p (s - m - 1) cc in
            let* cc := sqr_mod c b p in
            let* r := op_mod c (op_mul c r b) p in
            let* t := op_mod c (op_mul c t cc) p in
            tonelli fuel c p cc r t m
        end
    end.
(** fp.hpp:96-157 [fp_sqrt] *)
Definition fp_sqrt (c : cap) (n p : bigint) : outcome bigint :=
  let* j := jacobi c n p in
  if negb (j =? 1) then Ok (of_int c 0)
  else
    let* p4 := mods1 (zero c) p 4 in
    if compares1 p4 3 =? 0 then
      let* e := divs1 c (zero c) (adds1 c false (zero c) p 1) 4 in
      op_modexp c n e p
    else
      let q := subs1 c false (zero c) p 1 in
      let* qs := run_loop (32 * size q + 1) ctz_step (q, 0) in
      let '(q, s) := qs in
      let* z := run_loop (32 * size p + 1) (find_z_step c p) (of_int c 2) in
      let* cc := op_modexp c z q p in
      let* e := divs1 c (zero c) (subs1 c false (zero c) q 1) 2 in
      let* r := op_modexp c n e p in
      let* r2 := sqr_mod c r p in
      let* t := op_mod c (op_mul c r2 n) p in
      let* r := op_mod c (op_mul c n r) p in
      tonelli (Z.to_nat s) c p cc r t (Z.to_nat s).

(** fp.hpp:448-1094 [fp_element]: the value and the pointer to the modulus (null for [zero()], [one()]);
    dereferencing the null pointer is UB. *)
Record fe := mkfe { fv : bigint; fm : option bigint }.
Definition with_m (x : fe) (f : bigint -> outcome bigint) : outcome fe :=
  match fm x with
  | None => UB
  | Some p => let* v := f p in Ok (mkfe v (Some p))
  end.
(** fp.hpp:500-508: the constructor with [check] *)
Definition fe_make (v p : bigint) (chk : bool) : outcome fe :=
  if chk then let* _ := check (fp_is_valid v p) in Ok (mkfe v (Some p)) else Ok (mkfe v (Some p)).
Definition fe_is_valid (x : fe) : bool := match fm x with None => false | Some p => fp_is_valid (fv x) p end.
Definition fe_is_zero (x : fe) : bool :=
  negb (is_one (fv x)) && match fm x with None => true | Some p => is_zero p || is_one p || is_zero (fv x) end.
Definition fe_is_one (x : fe) : bool := is_one (fv x).
Definition fe_eqb (x y : fe) : bool := compare (fv x) (fv y) =? 0.
Definition fe_add_big (c : cap) (x : fe) (y : bigint) : outcome fe := with_m x (fun p => Ok (fp_add c (fv x) y p)).
Definition fe_add_int (c : cap) (x : fe) (y : Z) : outcome fe := with_m x (fun p => Ok (fp_add_int c (fv x) y p)).
Definition fe_add (c : cap) (x y : fe) : outcome fe := fe_add_big c x (fv y).
Definition fe_sub_big (c : cap) (x : fe) (y : bigint) : outcome fe := with_m x (fun p => Ok (fp_sub c (fv x) y p)).
Definition fe_sub_int (c : cap) (x : fe) (y : Z) : outcome fe := with_m x (fun p => Ok (fp_sub_int c (fv x) y p)).
Definition fe_sub (c : cap) (x y : fe) : outcome fe := fe_sub_big c x (fv y).
Definition fe_mul_big (c : cap) (x : fe) (y : bigint) : outcome fe :=
  if is_one (fv x) then with_m x (fun _ => Ok y)
  else if is_one y then Ok x
  else with_m x (fun p => fp_mul c (fv x) y p).
Definition fe_mul_int (c : cap) (x : fe) (y : Z) : outcome fe :=
  if is_one (fv x) then with_m x (fun _ => Ok (of_int c y))
  else if y =? 1 then Ok x
  else with_m x (fun p => fp_mul_int c (fv x) y p).
Definition fe_mul (c : cap) (x y : fe) : outcome fe := fe_mul_big c x (fv y).
Definition fe_sqr (c : cap) (x : fe) : outcome fe := if is_one (fv x) then Ok x else with_m x (fun p => fp_sqr c (fv x) p).
Definition fe_sqrt (c : cap) (x : fe) : outcome fe := if is_one (fv x) then Ok x else with_m x (fun p => fp_sqrt c (fv x) p).
Definition fe_inv (c : cap) (x : fe) : outcome fe := with_m x (fun p => op_modinv c (fv x) p).
Definition fe_div_big (c : cap) (x : fe) (y : bigint) : outcome fe := if is_one y then Ok x else with_m x (fun p => fp_div c (fv x) y p).
Definition fe_div (c : cap) (x y : fe) : outcome fe := fe_div_big c x (fv y).
Definition fe_neg (c : cap) (x : fe) : outcome fe := with_m x (fun p => Ok (fp_neg c (fv x) p)).

(** fe.hpp:334-540: operators with the scalar on the left; each one calls the method of the field element *)
Definition big_plus_fe (c : cap) (a : bigint) (b : fe) : outcome fe := fe_add_big c b a.
Definition int_plus_fe (c : cap) (a : Z) (b : fe) : outcome fe := fe_add_int c b a.
Definition big_minus_fe (c : cap) (a : bigint) (b : fe) : outcome fe := fe_sub_big c b a.
Definition int_minus_fe (c : cap) (a : Z) (b : fe) : outcome fe := fe_sub_int c b a.
Definition big_times_fe (c : cap) (a : bigint) (b : fe) : outcome fe := fe_mul_big c b a.
Definition int_times_fe (c : cap) (a : Z) (b : fe) : outcome fe := fe_mul_int c b a.
Definition big_div_fe (c : cap) (a : bigint) (b : fe) : outcome fe := fe_div_big c b a.
