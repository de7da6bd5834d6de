(** scripts/ec.py: the reference implementation of the curves and of ECDSA in Python.
    Python integers are [Z]; // and % round towards minus infinity, like [Z.div] and [Z.modulo].  Assertions are enabled
    (the interpreter is not run with -O).  What is printed is dropped, but a print whose argument cannot be evaluated
    raises.  Arguments have the annotated types: a point is None or a pair of integers. *)
From Coq Require Import List ZArith Bool.
Import ListNotations.
Open Scope Z_scope.

(** the exceptions of the script *)
Inductive exn := ZeroDivisionError | AssertionError | ValueError | TypeError | NameError.
(** the outcome of a call: a value, an exception, or the loop bound of the model is spent (shown not to happen) *)
Inductive py (A : Type) := Ret (v : A) | Raise (e : exn) | Spent.
Arguments Ret {A}. Arguments Raise {A}. Arguments Spent {A}.
Definition pbind {A B} (m : py A) (f : A -> py B) : py B :=
  match m with Ret v => f v | Raise e => Raise e | Spent => Spent end.
Notation "'let!' x ':=' m 'in' k" := (pbind m (fun x => k)) (at level 200, x pattern, m at level 100, k at level 200, right associativity).
(** the operator % (ec.py:86, 88, 100 and others) *)
Definition pymod (x p : Z) : py Z := if p =? 0 then Raise ZeroDivisionError else Ret (x mod p).
(** the assert statement (ec.py:85, 86 and others) *)
Definition pyassert (b : bool) : py unit := if b then Ret tt else Raise AssertionError.

(** ec.py:7-8: the named tuple of a curve (the name is dropped) and a point *)
Definition pypoint : Type := option (Z * Z).
Record pycurve := mkpycurve { py_p : Z; py_a : Z; py_b : Z; py_g : pypoint; py_n : Z; py_h : Z }.
(** ec.py:10-24 *)
Definition py_secp256k1 : pycurve := mkpycurve
  0xfffffffffffffffffffffffffffffffffffffffffffffffffffffffefffffc2f 0 7
  (Some (0x79be667ef9dcbbac55a06295ce870b07029bfcdb2dce28d959f2815b16f81798,
         0x483ada7726a3c4655da4fbfc0e1108a8fd17b448a68554199c47d08ffb10d4b8))
  0xfffffffffffffffffffffffffffffffebaaedce6af48a03bbfd25e8cd0364141 1.
(** ec.py:26-40 *)
Definition py_secp256r1 : pycurve := mkpycurve
  0xffffffff00000001000000000000000000000000ffffffffffffffffffffffff
  0xffffffff00000001000000000000000000000000fffffffffffffffffffffffc
  0x5ac635d8aa3a93e7b3ebbd55769886bc651d06b0cc53b0f63bce3c3e27d2604b
  (Some (0x6b17d1f2e12c4247f8bce6e563a440f277037d812deb33a0f4a13945d898c296,
         0x4fe342e2fe1a7f9b8ee7eb4a7c0f9e162bce33576b315ececbb6406837bf51f5))
  0xffffffff00000000ffffffffffffffffbce6faada7179e84f3b9cac2fc632551 1.
(** ec.py:42-56 *)
Definition py_brainpoolP256r1 : pycurve := mkpycurve
  0xa9fb57dba1eea9bc3e660a909d838d726e3bf623d52620282013481d1f6e5377
  0x7d5a0975fc2c3057eef67530417affe7fb8055c126dc5c6ce94a4b44f330b5d9
  0x26dc5c6ce94a4b44f330b5d9bbd77cbf958416295cf7e1ce6bccdc18ff8c07b6
  (Some (0x8bd2aeb9cb7e57cb2c4b482ffc81b7afb9de27e1e3bd23c23a4453bd9ace3262,
         0x547ef835c3dac4fd97f8461a14611dc9c27745132ded8e545c1d54c72f046997))
  0xa9fb57dba1eea9bc3e660a909d838d718c397aa3b561a6f7901e0e82974856a7 1.

(** ec.py:77-81, the loop of [inverse_mod] *)
Fixpoint inverse_loop (n : nat) (old_r r old_s s old_t t : Z) : py (Z * Z * Z) :=
  if r =? 0 then Ret (old_r, old_s, old_t) else
  match n with
  | O => Spent
  | S n => let quotient := old_r / r in
      inverse_loop n r (old_r - quotient * r) s (old_s - quotient * s) t (old_t - quotient * t)
  end.
(** ec.py:72-88, [inverse_mod] for a positive k; the loop bound is that of Euclid's algorithm *)
Definition inverse_pos (k p : Z) : py Z :=
  let! (gcd, x, y) := inverse_loop (Z.to_nat (2 * Z.log2 (Z.abs p) + 3)) k p 1 0 0 1 in
  let! _ := pyassert (gcd =? 1) in
  let! m := pymod (k * x) p in
  let! _ := pyassert (m =? 1) in
  pymod x p.
(** ec.py:60-88 [inverse_mod]; the recursive call is on a positive number *)
Definition inverse_mod (k p : Z) : py Z :=
  if k =? 0 then Raise ZeroDivisionError
  else if k <? 0 then let! x := inverse_pos (- k) p in Ret (p - x)
  else inverse_pos k p.

(** ec.py:93-100 [ec_is_on_curve] *)
Definition py_on_curve (P : pypoint) (cv : pycurve) : py bool :=
  match P with
  | None => Ret true
  | Some (x, y) => let! m := pymod (y * y - x * x * x - py_a cv * x - py_b cv) (py_p cv) in Ret (m =? 0)
  end.
(** ec.py:105, 143 and others: assert ec_is_on_curve(P, curve) *)
Definition assert_on (P : pypoint) (cv : pycurve) : py unit := let! b := py_on_curve P cv in pyassert b.
(** ec.py:103-116 [ec_neg] *)
Definition ec_neg (P : pypoint) (cv : pycurve) : py pypoint :=
  let! _ := assert_on P cv in
  match P with
  | None => Ret None
  | Some (x, y) => let! y' := pymod (py_p cv - y) (py_p cv) in
      let R := Some (x, y') in let! _ := assert_on R cv in Ret R
  end.
(** ec.py:141-173 [ec_add] *)
Definition ec_add (P Q : pypoint) (cv : pycurve) : py pypoint :=
  let! _ := assert_on P cv in
  let! _ := assert_on Q cv in
  match P, Q with
  | None, _ => Ret Q
  | _, None => Ret P
  | Some (x1, y1), Some (x2, y2) =>
      if (x1 =? x2) && negb (y1 =? y2) then Ret None else
      let! m := if x1 =? x2 then let! i := inverse_mod (2 * y1) (py_p cv) in pymod ((3 * x1 * x1 + py_a cv) * i) (py_p cv)
                else let! i := inverse_mod (x1 - x2) (py_p cv) in pymod ((y1 - y2) * i) (py_p cv) in
      let! x3 := pymod (m * m - x1 - x2) (py_p cv) in
      let! y3 := pymod (y1 + m * (x3 - x1)) (py_p cv) in
      let! x4 := pymod x3 (py_p cv) in
      let! y4 := pymod (- y3) (py_p cv) in
      let R := Some (x4, y4) in
      let! _ := assert_on R cv in Ret R
  end.
(** ec.py:118-120 [ec_double] *)
Definition ec_double (P : pypoint) (cv : pycurve) : py pypoint := ec_add P P cv.
(** ec.py:175-241 [ec_add_steps] *)
Definition ec_add_steps (P Q : pypoint) (cv : pycurve) : py pypoint :=
  let! _ := assert_on P cv in
  let! _ := assert_on Q cv in
  match P, Q with
  | None, _ => Ret Q
  | _, None => Ret P
  | Some (x1, y1), Some (x2, y2) =>
      if (x1 =? x2) && negb (y1 =? y2) then Ret None else
      let! m := if x1 =? x2 then let! i := inverse_mod (2 * y1) (py_p cv) in pymod ((3 * x1 * x1 + py_a cv) * i) (py_p cv)
                else let! i := inverse_mod (x1 - x2) (py_p cv) in pymod ((y1 - y2) * i) (py_p cv) in
      let! msqrx12 := pymod (m * m) (py_p cv) in
      let! msqrx12 := pymod (msqrx12 - x1) (py_p cv) in
      let! x3 := pymod (msqrx12 - x2) (py_p cv) in
      let! x3subx1 := pymod (x3 - x1) (py_p cv) in
      let! x3subx1mulM := pymod (m * (x3 - x1)) (py_p cv) in
      let! y3 := pymod (y1 + x3subx1mulM) (py_p cv) in
      let! y4 := pymod (- y3) (py_p cv) in
      let R := Some (x3, y4) in
      let! _ := assert_on R cv in Ret R
  end.

(** ec.py:254-265, the loop of [ec_mul]: the binary digits of k from the lowest; the addend is doubled after the last digit too *)
Fixpoint mul_loop (k : positive) (result addend : pypoint) (cv : pycurve) : py pypoint :=
  match k with
  | xH => let! result := ec_add result addend cv in let! _ := ec_add addend addend cv in Ret result
  | xO k => let! addend := ec_add addend addend cv in mul_loop k result addend cv
  | xI k => let! result := ec_add result addend cv in let! addend := ec_add addend addend cv in mul_loop k result addend cv
  end.
(** point is None (ec.py:247) *)
Definition is_none (P : pypoint) : bool := match P with None => true | _ => false end.
(** ec.py:243-269 [ec_mul] for k >= 0 *)
Definition ec_mul_nonneg (P : pypoint) (k : Z) (cv : pycurve) : py pypoint :=
  let! _ := assert_on P cv in
  let! m := pymod k (py_n cv) in
  if (m =? 0) || is_none P then Ret None else
  let! R := match k with Zpos k => mul_loop k None P cv | _ => Ret None end in
  let! _ := assert_on R cv in Ret R.
(** ec.py:243-269 [ec_mul]; the recursive call for k < 0 is with - k *)
Definition ec_mul (P : pypoint) (k : Z) (cv : pycurve) : py pypoint :=
  if k <? 0 then
    let! _ := assert_on P cv in
    let! m := pymod k (py_n cv) in
    if (m =? 0) || is_none P then Ret None else
    let! Q := ec_neg P cv in ec_mul_nonneg Q (- k) cv
  else ec_mul_nonneg P k cv.

(** the binary digits of a positive number from the highest, as bin prints them (ec.py:294-295) *)
Fixpoint bits_of (k : positive) : list bool :=
  match k with xH => [true] | xO k => bits_of k ++ [false] | xI k => bits_of k ++ [true] end.
(** ec.py:294-295, 348-349: bin(a)[2:], which characters are '1'.  The text of a negative number is '-0b...', so that [2:] leaves the letter b. *)
Definition bin2 (a : Z) : list bool :=
  match a with Z0 => [false] | Zpos k => bits_of k | Zneg k => false :: bits_of k end.
(** ec.py:297-300, 351-354: '0' * (max_len - len) + text *)
Definition pad (n : nat) (l : list bool) : list bool := repeat false (n - length l) ++ l.
(** ec.py:296-300: the characters of the two padded texts, position by position *)
Definition columns (a b : Z) : list (bool * bool) :=
  let n := Nat.max (length (bin2 a)) (length (bin2 b)) in combine (pad n (bin2 a)) (pad n (bin2 b)).
(** ec.py:305-312, the loop of [ec_mul_add_fast] *)
Fixpoint fast_loop (l : list (bool * bool)) (R P Q pq : pypoint) (cv : pycurve) : py pypoint :=
  match l with
  | [] => Ret R
  | (i, j) :: l =>
      let! R := ec_double R cv in
      let! R := if i && j then ec_add R pq cv else if i then ec_add R P cv else if j then ec_add R Q cv else Ret R in
      fast_loop l R P Q pq cv
  end.
(** ec.py:284, 338: P == Q *)
Definition same_point (P Q : pypoint) : bool :=
  match P, Q with
  | None, None => true
  | Some (x1, y1), Some (x2, y2) => (x1 =? x2) && (y1 =? y2)
  | _, _ => false
  end.
(** ec.py:273-315 [ec_mul_add_fast] *)
Definition ec_mul_add_fast (a : Z) (P : pypoint) (b : Z) (Q : pypoint) (cv : pycurve) : py pypoint :=
  if a =? 0 then ec_mul Q b cv
  else if b =? 0 then ec_mul P a cv
  else if same_point P Q then ec_mul P (a + b) cv
  else if (py_n cv <=? a) || (py_n cv <=? b) then Raise ValueError
  else
    let! pq := ec_add P Q cv in
    let! R := fast_loop (columns a b) None P Q pq cv in
    let! _ := assert_on R cv in Ret R.
(** ec.py:325, 327, 362, 380: hex(P[0]), hex(P[1]), which raises when P is None *)
Definition show (P : pypoint) : py unit := if is_none P then Raise TypeError else Ret tt.
(** ec.py:363-381, the loop of [ec_mul_add_fast_steps]: the sum is printed at the end of every turn *)
Fixpoint fast_steps_loop (l : list (bool * bool)) (R P Q pq : pypoint) (cv : pycurve) : py pypoint :=
  match l with
  | [] => Ret R
  | (i, j) :: l =>
      let! R := ec_double R cv in
      let! R := if i && j then ec_add R pq cv else if i then ec_add R P cv else if j then ec_add R Q cv else Ret R in
      let! _ := show R in
      fast_steps_loop l R P Q pq cv
  end.
(** ec.py:318-386 [ec_mul_add_fast_steps] *)
Definition ec_mul_add_fast_steps (a : Z) (P : pypoint) (b : Z) (Q : pypoint) (cv : pycurve) : py pypoint :=
  let! _ := show P in
  let! _ := show Q in
  if a =? 0 then ec_mul Q b cv
  else if b =? 0 then ec_mul P a cv
  else if same_point P Q then ec_mul P (a + b) cv
  else if (py_n cv <=? a) || (py_n cv <=? b) then Raise ValueError
  else
    let! pq := ec_add P Q cv in
    let! _ := show pq in
    let! R := fast_steps_loop (columns a b) None P Q pq cv in
    let! _ := assert_on R cv in Ret R.

(** ec.py:398, 416, 456, 494: x, y = P *)
Definition unpack (P : pypoint) : py (Z * Z) := match P with None => Raise TypeError | Some xy => Ret xy end.
(** the range checks of ec.py:390-393, 407-410, 440-445, 478-483 *)
Definition bad_range (r s : Z) (cv : pycurve) : bool :=
  ((r <? 1) || (py_n cv - 1 <? r)) || ((s <? 1) || (py_n cv - 1 <? s)).
(** ec.py:388-403 [ecdsa_verify] *)
Definition py_verify (q : pypoint) (e r s : Z) (cv : pycurve) : py bool :=
  if bad_range r s cv then Ret false else
  let! w := inverse_mod s (py_n cv) in
  let! u1 := pymod (e * w) (py_n cv) in
  let! u2 := pymod (r * w) (py_n cv) in
  let! A := ec_mul (py_g cv) u1 cv in
  let! B := ec_mul q u2 cv in
  let! pq := ec_add A B cv in
  let! (x, y) := unpack pq in
  let! m := pymod x (py_n cv) in Ret (m =? r).
(** ec.py:405-425 [ecdsa_verify_fast] *)
Definition py_verify_fast (q : pypoint) (e r s : Z) (cv : pycurve) : py bool :=
  if bad_range r s cv then Ret false else
  let! w := inverse_mod s (py_n cv) in
  let! u1 := pymod (e * w) (py_n cv) in
  let! u2 := pymod (r * w) (py_n cv) in
  let! pq := ec_mul_add_fast u1 (py_g cv) u2 q cv in
  let! (x, y) := unpack pq in
  let! m := pymod x (py_n cv) in Ret (m =? r).
(** ec.py:430-431, 468-469: the names q_x and q_y, which the functions that print use without defining them: [bound] when the module has been given
    integers of these names *)
Definition name_q (bound : bool) : py unit := if bound then Ret tt else Raise NameError.
(** ec.py:427-463 [ecdsa_verify_steps] *)
Definition py_verify_steps (bound : bool) (q : pypoint) (e r s : Z) (cv : pycurve) : py bool :=
  let! _ := name_q bound in
  if bad_range r s cv then Ret false else
  let! w := inverse_mod s (py_n cv) in
  let! u1 := pymod (e * w) (py_n cv) in
  let! u2 := pymod (r * w) (py_n cv) in
  let! A := ec_mul (py_g cv) u1 cv in
  let! B := ec_mul q u2 cv in
  let! pq := ec_add A B cv in
  let! (x, y) := unpack pq in
  let! m := pymod x (py_n cv) in Ret (m =? r).
(** ec.py:465-501 [ecdsa_verify_fast_steps] *)
Definition py_verify_fast_steps (bound : bool) (q : pypoint) (e r s : Z) (cv : pycurve) : py bool :=
  let! _ := name_q bound in
  if bad_range r s cv then Ret false else
  let! w := inverse_mod s (py_n cv) in
  let! u1 := pymod (e * w) (py_n cv) in
  let! u2 := pymod (r * w) (py_n cv) in
  let! pq := ec_mul_add_fast_steps u1 (py_g cv) u2 q cv in
  let! (x, y) := unpack pq in
  let! m := pymod x (py_n cv) in Ret (m =? r).
