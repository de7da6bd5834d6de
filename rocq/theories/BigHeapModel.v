(** Model of bignum objects (bigint.hpp:777-2597 over flexbuffer, buffer.hpp:145-316) at the level of
    heap blocks and raw pointers: what BigintModel abstracts from.  An object is a growable buffer of
    BufferModel together with the members [size_] and [is_neg_].
    Simplifications: those of BufferModel; a word loop is one step from the words loaded at its source
    pointers to the words saved at its destination pointer (the loops read index i of every source
    before writing index i, and a destination is equal to a source or disjoint from it; see LoopModel);
    the index checks of a call beyond the first ([&z.buf_[yn]] in line 895) are implied by the first. *)
From Coq Require Import List ZArith Bool.
From Verif Require Import Outcome LoopModel WordsModel BigintModel BufferModel.
Import ListNotations.
Open Scope Z_scope.

(** bigint.hpp:783-785: members of the objects of a program; [meta] has size_ and is_neg_. *)
Record hstate := mkh { bufs : prog; meta : list (nat * bool) }.

Definition size_h (s : hstate) (i : nat) : outcome nat := let* m := get (meta s) i in Ok (fst m).
Definition neg_h (s : hstate) (i : nat) : outcome bool := let* m := get (meta s) i in Ok (snd m).
Definition set_size_h (s : hstate) (i : nat) (k : nat) : outcome hstate :=
  let* m := get (meta s) i in Ok (mkh (bufs s) (upd (meta s) i (k, snd m))).
Definition set_neg_h (s : hstate) (i : nat) (g : bool) : outcome hstate :=
  let* m := get (meta s) i in Ok (mkh (bufs s) (upd (meta s) i (fst m, g))).

(** [buf_[k]] *)
Definition word_h (s : hstate) (i k : nat) : outcome Z :=
  let* b := get (objs (bufs s)) i in flex_read (hp (bufs s)) b k.

(** bigint.hpp:788-806 [trim]: the loop of lines 792-797 from index [i] down to 1, 0 if none is set. *)
Fixpoint trim_scan (s : hstate) (o i : nat) : outcome nat :=
  match i with
  | O => Ok O
  | S i' => let* w := word_h s o i in if w =? 0 then trim_scan s o i' else Ok i
  end.
Definition trim_h (s : hstate) (o n : nat) : outcome hstate :=
  match n with
  | O => Ok s
  | S m =>
      let* i := trim_scan s o m in
      match i with
      | S _ => set_size_h s o (S i)
      | O =>
          let* s := set_size_h s o 1 in
          let* w := word_h s o 0 in
          if w =? 0 then set_neg_h s o false else Ok s
      end
  end.

(** [z.buf_.resize(n)] (always true, buffer.hpp:217-245). *)
Definition resize_h (N : nat) (junk : nat -> Z) (s : hstate) (z n : nat) : outcome hstate :=
  let* r := flex_step N junk (Resize z n) (bufs s) in Ok (mkh (snd r) (meta s)).

(** The pattern of lines 849-859, 866-876, 885-898, 1716-1724, 1768-1775, 1826-1834, 1952-1955, 1970-1973:
    resize the destination to n words, then take the pointers, [&z.buf_[0]] and each [&x.buf_[0]],
    and run a word loop [f] on the first words of the sources, writing the destination. *)
Fixpoint load_all (s : prog) (srcs : list (nat * nat)) : outcome (list (list Z)) :=
  match srcs with
  | [] => Ok []
  | (x, m) :: t =>
      let* p := first_ptr s x in
      let* w := load s p m in
      let* r := load_all s t in Ok (w :: r)
  end.
Definition into (N : nat) (junk : nat -> Z) (s : hstate) (z n : nat) (srcs : list (nat * nat))
  (f : list (list Z) -> outcome (list Z)) : outcome hstate :=
  let* s := resize_h N junk s z n in
  let* dst := first_ptr (bufs s) z in
  let* ws := load_all (bufs s) srcs in
  let* r := f ws in
  let* p := save (bufs s) dst r in
  Ok (mkh p (meta s)).
Definition f1 (f : list Z -> outcome (list Z)) (ws : list (list Z)) : outcome (list Z) :=
  match ws with [x] => f x | _ => UB end.
Definition f2 (f : list Z -> list Z -> outcome (list Z)) (ws : list (list Z)) : outcome (list Z) :=
  match ws with [x; y] => f x y | _ => UB end.

(** bigint.hpp:1235-1245 [operator=(word_t)], 1492-1495 [clear]. *)
Definition assign_word_h (N : nat) (junk : nat -> Z) (s : hstate) (z : nat) (w : Z) : outcome hstate :=
  let* s := set_neg_h s z false in
  let* s := resize_h N junk s z 1 in
  let* r := flex_step N junk (Write z 0 w) (bufs s) in
  set_size_h (mkh (snd r) (meta s)) z 1.
Definition clear_h N junk s z := assign_word_h N junk s z 0.

(** bigint.hpp:808-812 [ucompare]. *)
Definition ucompare_h (s : hstate) (x y : nat) : outcome Z :=
  let* xn := size_h s x in
  let* yn := size_h s y in
  if Nat.eqb xn yn then
    let* px := first_ptr (bufs s) x in
    let* py := first_ptr (bufs s) y in
    let* wx := load (bufs s) px xn in
    let* wy := load (bufs s) py yn in
    Ok (cmp_n wx wy)
  else Ok (if Nat.ltb yn xn then 1 else -1).

(** bigint.hpp:814-843 [uadd]: the pointers are taken before the resize, see [uadd_flex]. *)
Definition uadd_h (N : nat) (junk : nat -> Z) (s : hstate) (z x y : nat) : outcome hstate :=
  let* xn := size_h s x in
  let* yn := size_h s y in
  let* p := uadd_flex N junk (bufs s) z x xn y yn in
  trim_h (mkh p (meta s)) z (Nat.max xn yn + 1).

(** bigint.hpp:881-903 [usub]. *)
Definition usub_h (N : nat) (junk : nat -> Z) (s : hstate) (z x y : nat) : outcome hstate :=
  let* xn := size_h s x in
  let* yn := size_h s y in
  let* s := into N junk s z xn [(x, xn); (y, yn)] (f2 (fun a b => Ok (usub_words a b))) in
  trim_h s z xn.

(** bigint.hpp:905-922 [_add], 1699-1707 [add], [sub]; the flags of x and y are arguments by value. *)
Definition add_signed_h (N : nat) (junk : nat -> Z) (s : hstate) (z x : nat) (xNeg : bool) (y : nat) (yNeg : bool)
  : outcome hstate :=
  if negb (xorb xNeg yNeg) then let* s := uadd_h N junk s z x y in set_neg_h s z xNeg
  else
    let* r := ucompare_h s x y in
    if 0 <=? r then let* s := usub_h N junk s z x y in set_neg_h s z xNeg
    else let* s := usub_h N junk s z y x in set_neg_h s z yNeg.

(** bigint.hpp:845-860 [uadd1], 862-879 [usub1]. *)
Definition uadd1_h (N : nat) (junk : nat -> Z) (s : hstate) (z x : nat) (w : Z) : outcome hstate :=
  let* xn := size_h s x in
  let* s := into N junk s z (xn + 1) [(x, xn)] (f1 (fun a => let '(r, c) := add_word a w in Ok (r ++ [c]))) in
  trim_h s z (xn + 1).
Definition usub1_h (N : nat) (junk : nat -> Z) (s : hstate) (z x : nat) (w : Z) : outcome hstate :=
  let* xn := size_h s x in
  let* s := into N junk s z xn [(x, xn)] (f1 (fun a => Ok (fst (sub_word a w)))) in
  trim_h s z xn.
(** bigint.hpp:943-959 [_addu1]; [x.is_neg_] of line 954 is read after [usub1]. *)
Definition add1_signed_h (N : nat) (junk : nat -> Z) (s : hstate) (z x : nat) (w : Z) (yNeg : bool) : outcome hstate :=
  let* xNeg := neg_h s x in
  if negb (xorb xNeg yNeg) then let* s := uadd1_h N junk s z x w in set_neg_h s z yNeg
  else
    let* xn := size_h s x in
    let* low := (if Nat.ltb 1 xn then Ok 0 else word_h s x 0) in
    if Nat.ltb 1 xn || (low >=? w) then
      let* s := usub1_h N junk s z x w in
      let* g := neg_h s x in set_neg_h s z g
    else let* s := assign_word_h N junk s z ((w - low) mod B) in set_neg_h s z yNeg.

(** bigint.hpp:1710-1729 [mul]; the flags are read after [trim]. *)
Definition mul_h (N : nat) (junk : nat -> Z) (s : hstate) (z x y : nat) : outcome hstate :=
  let* xn := size_h s x in
  let* yn := size_h s y in
  let* s := into N junk s z (xn + yn) [(x, xn); (y, yn)] (f2 (fun a b => Ok (mul_nm a b))) in
  let* s := trim_h s z (xn + yn) in
  let* gx := neg_h s x in
  let* gy := neg_h s y in
  set_neg_h s z (xorb gx gy).

(** bigint.hpp:1763-1778 [mulu1]. *)
Definition mulu1_h (N : nat) (junk : nat -> Z) (s : hstate) (z x : nat) (w : Z) : outcome hstate :=
  let* xn := size_h s x in
  let* s := into N junk s z (xn + 1) [(x, xn)] (f1 (fun a => let '(r, h) := mul_word_n a w in Ok (r ++ [h]))) in
  let* g := neg_h s x in
  let* s := set_neg_h s z g in
  trim_h s z (xn + 1).

(** bigint.hpp:1817-1842 [div_mods1] with q, 1886-1889 [divs1]. *)
Definition divs1_h (N : nat) (junk : nat -> Z) (s : hstate) (q x : nat) (k : Z) : outcome hstate :=
  let* xNeg := neg_h s x in
  let* xn := size_h s x in
  let* s := set_neg_h s q (xorb xNeg (k <? 0)) in
  let* s := into N junk s q xn [(x, xn)] (f1 (fun a => let* r := div_word a (cabs32 k) in Ok (fst r))) in
  trim_h s q xn.

(** bigint.hpp:1947-1958 [shl], 1961-1976 [shr]. *)
Definition shl_h (N : nat) (junk : nat -> Z) (s : hstate) (z x : nat) (n : Z) : outcome hstate :=
  let* xn := size_h s x in
  let yn := (xn + Z.to_nat ((n + 31) / 32))%nat in
  let* s := into N junk s z yn [(x, xn)] (f1 (fun a => Ok (shift_left a n))) in
  let* g := neg_h s x in
  let* s := set_neg_h s z g in
  trim_h s z yn.
Definition shr_h (N : nat) (junk : nat -> Z) (s : hstate) (z x : nat) (n : Z) : outcome hstate :=
  let* xn := size_h s x in
  if 32 * Z.of_nat xn <=? n then clear_h N junk s z
  else
    let yn := (xn - Z.to_nat (n / 32))%nat in
    let* s := into N junk s z yn [(x, xn)] (f1 (fun a => Ok (shift_right a n))) in
    let* g := neg_h s x in
    let* s := set_neg_h s z g in
    trim_h s z yn.

(** bigint.hpp:1270-1279 copy assignment, 1281-1290 move assignment. *)
Definition copy_h (N : nat) (junk : nat -> Z) (s : hstate) (z x : nat) : outcome hstate :=
  if Nat.eqb z x then let* _ := get (meta s) z in Ok s
  else
    let* r := flex_step N junk (Copy z x) (bufs s) in
    let* m := get (meta s) x in
    let* _ := get (meta s) z in
    Ok (mkh (snd r) (upd (meta s) z m)).
Definition move_h (N : nat) (junk : nat -> Z) (s : hstate) (z x : nat) : outcome hstate :=
  if Nat.eqb z x then let* _ := get (meta s) z in Ok s
  else
    let* r := flex_step N junk (Move z x) (bufs s) in
    let* m := get (meta s) x in
    let* _ := get (meta s) z in
    Ok (mkh (snd r) (upd (meta s) z m)).

(** bigint.hpp:1301-1306 [swap]: [std::swap] of the buffers is a move construction of a temporary and
    two move assignments (flexbuffer has no free swap function). *)
Definition swap_bufs (N : nat) (junk : nat -> Z) (p : prog) (x y : nat) : outcome prog :=
  let t := length (objs p) in
  let p := mkprog (objs p ++ [flex_new N]) (hp p) in
  let* r := flex_step N junk (Move t x) p in
  let* r := flex_step N junk (Move x y) (snd r) in
  let* r := flex_step N junk (Move y t) (snd r) in
  Ok (mkprog (firstn t (objs (snd r))) (hp (snd r))).
Definition swap_h (N : nat) (junk : nat -> Z) (s : hstate) (x y : nat) : outcome hstate :=
  let* p := swap_bufs N junk (bufs s) x y in
  let* mx := get (meta s) x in
  let* my := get (meta s) y in
  Ok (mkh p (upd (upd (meta s) x my) y mx)).

(** bigint.hpp:1978-1982 [neg], 1992-1996 [abs]: copy, then set the flag; [x.is_neg_] is read last. *)
Definition neg_op_h (N : nat) (junk : nat -> Z) (s : hstate) (y x : nat) : outcome hstate :=
  let* s := copy_h N junk s y x in
  let* g := neg_h s x in set_neg_h s y (negb g).
Definition abs_op_h (N : nat) (junk : nat -> Z) (s : hstate) (y x : nat) : outcome hstate :=
  let* s := copy_h N junk s y x in set_neg_h s y false.

(** bigint.hpp:966-1004 [udiv] with a quotient object, which must be neither r nor y (see
    [udiv_q_is_y] for y); 1852-1863 [div_mod].  The dividend is copied to a local array (lines 984-985). *)
Definition div_mod_h (N : nat) (junk : nat -> Z) (s : hstate) (q r x y : nat) : outcome hstate :=
  let* xNeg := neg_h s x in
  let* yNeg := neg_h s y in
  let* xn := size_h s x in
  let* yn := size_h s y in
  let* s :=
    (if Nat.ltb xn yn then
       let* b := flex_step N junk (Copy r x) (bufs s) in
       let* s := trim_h (mkh (snd b) (meta s)) r xn in
       clear_h N junk s q
     else
       let qn := (xn - yn + 1)%nat in
       let* s := resize_h N junk s q qn in
       let* px := first_ptr (bufs s) x in
       let* xx := load (bufs s) px xn in
       let* qq := first_ptr (bufs s) q in
       let* py := first_ptr (bufs s) y in
       let* wy := load (bufs s) py yn in
       let* d := div qn xx wy in
       let '(qw, xw, rn) := d in
       let* p := save (bufs s) qq qw in
       let* s := resize_h N junk (mkh p (meta s)) r rn in
       let* pr := first_ptr (bufs s) r in
       let* p := save (bufs s) pr (firstn rn xw) in
       let* s := trim_h (mkh p (meta s)) q qn in
       trim_h s r rn) in
  let* s := set_neg_h s r xNeg in
  set_neg_h s q (xorb xNeg yNeg).

(** ** Programs *)
Inductive hop :=
| HWord (z : nat) (w : Z) | HCopy (z x : nat) | HMove (z x : nat) | HSwap (x y : nat)
| HAdd (z x y : nat) | HSub (z x y : nat) | HMul (z x y : nat)
| HAddW (z x : nat) (w : Z) | HSubW (z x : nat) (w : Z) | HMulW (z x : nat) (w : Z)
| HDivI (q x : nat) (k : Z) | HDivMod (q r x y : nat)
| HShl (z x : nat) (n : Z) | HShr (z x : nat) (n : Z) | HNeg (z x : nat) | HAbs (z x : nat).

Definition hstep (N : nat) (junk : nat -> Z) (o : hop) (s : hstate) : outcome hstate :=
  match o with
  | HWord z w => assign_word_h N junk s z w
  | HCopy z x => copy_h N junk s z x
  | HMove z x => move_h N junk s z x
  | HSwap x y => swap_h N junk s x y
  | HAdd z x y => let* gx := neg_h s x in let* gy := neg_h s y in add_signed_h N junk s z x gx y gy
  | HSub z x y => let* gx := neg_h s x in let* gy := neg_h s y in add_signed_h N junk s z x gx y (negb gy)
  | HMul z x y => mul_h N junk s z x y
  | HAddW z x w => add1_signed_h N junk s z x w false
  | HSubW z x w => add1_signed_h N junk s z x w true
  | HMulW z x w => mulu1_h N junk s z x w
  | HDivI q x k => divs1_h N junk s q x k
  | HDivMod q r x y => div_mod_h N junk s q r x y
  | HShl z x n => shl_h N junk s z x n
  | HShr z x n => shr_h N junk s z x n
  | HNeg z x => neg_op_h N junk s z x
  | HAbs z x => abs_op_h N junk s z x
  end.
(** each operation with the indeterminate contents of the memory it may allocate *)
Fixpoint hrun (N : nat) (l : list (hop * (nat -> Z))) (s : hstate) : outcome hstate :=
  match l with
  | [] => Ok s
  | (o, junk) :: t => let* s := hstep N junk o s in hrun N t s
  end.
(** n default-constructed objects (bigint.hpp:1126: [*this = 0]) *)
Definition hinit (N n : nat) : hstate :=
  mkh (mkprog (repeat (flex_new N) n) []) (repeat (0%nat, false) n).
