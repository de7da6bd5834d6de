(** Model of the pointers held by the objects of fp.hpp and ec.hpp: a field element refers to its modulus, a
    point to its curve, the generator of a curve to the curve it was made for.  FpModel.v, EcModel.v and
    EcCurveModel.v replace each pointer by the object it points to; here the objects live in a memory where
    integers can be assigned and destroyed, and curves copied and destroyed.  Reading through a pointer to a
    destroyed object is [UB].  Simplifications: addresses are not reused; a modulus is a variable or the
    member p of a curve object. *)
From Coq Require Import List ZArith Bool.
From Verif Require Import Outcome LoopModel WordsModel BigintModel NumModel FpModel EcModel EcCurveModel.
Import ListNotations.
Open Scope Z_scope.

(** what [const IntT* pm_] (fp.hpp:1092) can point to: an integer variable, or the member p of a curve object *)
Inductive ptr := PInt (i : nat) | PCurve (i : nat).
(** fp.hpp:1090-1092: the members of a field element *)
Record fobj := mkfo { ov : bigint; om : option ptr }.
(** ec.hpp:339, 374-375: the members of an affine point *)
Record pobj := mkpo { oc : option nat; ox : fobj; oy : fobj }.
(** ec.hpp:1522-1532: the members of a curve *)
Record cobj := mkco { k_p : bigint; k_a : bigint; k_b : bigint; k_g : pobj; k_n : bigint; k_h : Z; k_m3 : bool; k_z : bool; k_pmn : bigint }.
(** the variables; [None] is a destroyed one *)
Record heap := mkheap { h_ints : list (option bigint); h_curves : list (option cobj) }.
Definition at_addr {A : Type} (l : list (option A)) (i : nat) : option A := match nth_error l i with Some o => o | None => None end.
Fixpoint put {A : Type} (l : list A) (i : nat) (v : A) : list A :=
  match l, i with [], _ => [] | _ :: l, O => v :: l | x :: l, S i => x :: put l i v end.
Definition deref (h : heap) (q : ptr) : option bigint :=
  match q with PInt i => at_addr (h_ints h) i | PCurve i => option_map k_p (at_addr (h_curves h) i) end.

Section OPS.
Variable c : cap.
Variable h : heap.
(** [*pm_] *)
Definition dm (x : fobj) : outcome bigint :=
  match om x with None => UB | Some q => match deref h q with None => UB | Some p => Ok p end end.
Definition with_p (x : fobj) (f : bigint -> outcome bigint) : outcome fobj :=
  let* p := dm x in let* v := f p in Ok (mkfo v (om x)).

(** fp.hpp:620-633 [is_valid], [is_zero] *)
Definition fo_is_valid (x : fobj) : outcome bool :=
  match om x with None => Ok false | Some _ => let* p := dm x in Ok (fp_is_valid (ov x) p) end.
Definition fo_is_zero (x : fobj) : outcome bool :=
  if is_one (ov x) then Ok false
  else match om x with None => Ok true | Some _ => let* p := dm x in Ok (is_zero p || is_one p || is_zero (ov x)) end.
(** fp.hpp:500-508: the constructor; [q] is the address of the modulus *)
Definition fo_make (v : bigint) (q : ptr) (chk : bool) : outcome fobj :=
  let x := mkfo v (Some q) in
  if chk then let* b := fo_is_valid x in let* _ := check b in Ok x else Ok x.
(** fp.hpp:557-569 [assign] *)
Definition fo_assign (x : fobj) (v : bigint) (chk : bool) : outcome fobj :=
  match om x with
  | None => Ok x
  | Some _ => let* _ := if chk then let* p := dm x in check (fp_is_valid v p) else Ok tt in Ok (mkfo v (om x))
  end.
(** fp.hpp:682-979: [inv], [add], [sub], [mul], [sqr], [sqrt], [div], [neg] *)
Definition fo_inv (x : fobj) : outcome fobj := with_p x (fun p => op_modinv c (ov x) p).
Definition fo_add_big (x : fobj) (y : bigint) : outcome fobj := with_p x (fun p => Ok (fp_add c (ov x) y p)).
Definition fo_add (x y : fobj) : outcome fobj := fo_add_big x (ov y).
Definition fo_sub (x y : fobj) : outcome fobj := with_p x (fun p => Ok (fp_sub c (ov x) (ov y) p)).
Definition fo_mul_big (x : fobj) (y : bigint) : outcome fobj :=
  if is_one (ov x) then with_p x (fun _ => Ok y)
  else if is_one y then Ok x
  else with_p x (fun p => fp_mul c (ov x) y p).
Definition fo_mul (x y : fobj) : outcome fobj := fo_mul_big x (ov y).
Definition fo_mul_int (k : Z) (x : fobj) : outcome fobj :=
  if is_one (ov x) then with_p x (fun _ => Ok (of_int c k))
  else if k =? 1 then Ok x
  else with_p x (fun p => fp_mul_int c (ov x) k p).
Definition fo_sqr (x : fobj) : outcome fobj := if is_one (ov x) then Ok x else with_p x (fun p => fp_sqr c (ov x) p).
Definition fo_sqrt (x : fobj) : outcome fobj := if is_one (ov x) then Ok x else with_p x (fun p => fp_sqrt c (ov x) p).
Definition fo_div (x y : fobj) : outcome fobj := if is_one (ov y) then Ok x else with_p x (fun p => fp_div c (ov x) (ov y) p).
Definition fo_neg (x : fobj) : outcome fobj := with_p x (fun p => Ok (fp_neg c (ov x) p)).

(** ec.hpp:384-388: the default-constructed point *)
Definition po_default : pobj := mkpo None (mkfo (zero c) None) (mkfo (zero c) None).
(** ec.hpp:38-42 [curve] *)
Definition curve_of (P : pobj) : outcome cobj :=
  match oc P with None => Abort | Some i => match at_addr (h_curves h) i with None => UB | Some k => Ok k end end.
(** ec.hpp:394-397 *)
Definition po_is_identity (P : pobj) : outcome bool :=
  match oc P with
  | None => Ok true
  | Some _ => let* b := fo_is_zero (ox P) in if b then fo_is_zero (oy P) else Ok false
  end.
(** ec.hpp:405-411 *)
Definition po_is_on_curve (P : pobj) : outcome bool :=
  let* b := po_is_identity P in
  if b then Ok true
  else
    let* y2 := fo_sqr (oy P) in
    let* x2 := fo_sqr (ox P) in let* k := curve_of P in let* t := fo_add_big x2 (k_a k) in let* t := fo_mul t (ox P) in let* t := fo_add_big t (k_b k) in
    let* d := fo_sub y2 t in
    Ok (compares1 (ov d) 0 =? 0).
(** ec.hpp:448-454; the constructor takes the address of [curve()], which it does not read *)
Definition same_curve (P : pobj) (x y : fobj) : outcome pobj := let* _ := check (match oc P with None => false | Some _ => true end) in Ok (mkpo (oc P) x y).
Definition po_inverted (P : pobj) : outcome pobj :=
  let* b := po_is_identity P in
  if b then Ok P else let* y := fo_neg (oy P) in same_curve P (ox P) y.
(** ec.hpp:497-510 *)
Definition po_doubled (P : pobj) : outcome pobj :=
  let* b := po_is_identity P in
  let* b := if b then Ok true else fo_is_zero (oy P) in
  if b then Ok po_default
  else
    let* x2 := fo_sqr (ox P) in let* n := fo_mul_int 3 x2 in let* k := curve_of P in let* n := fo_add_big n (k_a k) in
    let* d := fo_mul_int 2 (oy P) in
    let* s := fo_div n d in
    let* s2 := fo_sqr s in let* dx := fo_mul_int 2 (ox P) in
    let* x2 := fo_sub s2 dx in
    let* t := fo_sub (ox P) x2 in let* t := fo_mul s t in
    let* y2 := fo_sub t (oy P) in
    same_curve P x2 y2.
(** ec.hpp:463-489 *)
Definition po_add (P A : pobj) : outcome pobj :=
  let* b := po_is_identity P in
  if b then Ok A
  else
    let* b := po_is_identity A in
    if b then Ok P
    else
      let* s := fo_sub (ox A) (ox P) in
      let* z := fo_is_zero s in
      if z then
        if compare (ov (oy P)) (ov (oy A)) =? 0 then po_doubled P else Ok po_default
      else
        let* d := fo_sub (oy A) (oy P) in
        let* s := fo_div d s in
        let* s2 := fo_sqr s in let* t := fo_sub s2 (ox P) in
        let* x3 := fo_sub t (ox A) in
        let* t := fo_sub (ox P) x3 in let* t := fo_mul s t in
        let* y3 := fo_sub t (oy P) in
        same_curve P x3 y3.
(** ec.hpp:519-522 *)
Definition po_sub (P A : pobj) : outcome pobj := let* N := po_inverted A in po_add P N.
(** ec.hpp:531-556; line 542 calls [mul] again with the opposite scalar *)
Definition po_loop (P : pobj) (s : bigint) : outcome pobj :=
  run_loop (32 * size s + 1) (ladder_step po_add po_doubled) (s, po_default, P).
Definition po_mul (P : pobj) (s : bigint) : outcome pobj :=
  let* b := if is_one s then Ok true else po_is_identity P in
  if b then Ok P
  else if is_zero s then Ok po_default
  else if compares1 s 0 <? 0 then
    let* N := po_inverted P in
    let s := op_neg s in
    let* b := if is_one s then Ok true else po_is_identity N in
    if b then Ok N
    else if is_zero s then Ok po_default
    else po_loop N s
  else po_loop P s.
(** ec.hpp:420-438 *)
Definition po_is_valid (P : pobj) : outcome bool :=
  let* b := po_is_identity P in
  if b then Ok false
  else
    let* o := po_is_on_curve P in
    if negb o then Ok false
    else let* k := curve_of P in let* R := po_mul P (k_n k) in po_is_identity R.
(** ec.hpp:566-572 *)
Definition same_address (a b : option nat) : bool :=
  match a, b with None, None => true | Some i, Some j => Nat.eqb i j | _, _ => false end.
Definition po_eqb (P Q : pobj) : bool :=
  (compare (ov (ox P)) (ov (ox Q)) =? 0) && (compare (ov (oy P)) (ov (oy Q)) =? 0) &&
  (same_address (oc P) (oc Q) || (compares1 (ov (ox P)) 0 =? 0)).

(** ec.hpp:1928-1941 [make_point], 1678-1689, of the curve object at address [i] *)
Definition po_make (i : nat) (x y : bigint) (verify : bool) : outcome pobj :=
  match at_addr (h_curves h) i with
  | None => UB
  | Some k =>
      let* _ := check (is_valid_integer (k_p k) x) in
      let* _ := check (is_valid_integer (k_p k) y) in
      let P := mkpo (Some i) (mkfo x (Some (PCurve i))) (mkfo y (Some (PCurve i))) in
      let* _ := if verify then let* v := po_is_valid P in check v else Ok tt in
      Ok P
  end.
(** ec.hpp:1562-1571 [generate_point] *)
Definition po_generate (i : nat) (x : bigint) : outcome pobj :=
  match at_addr (h_curves h) i with
  | None => UB
  | Some k =>
      let* _ := check ((compares1 x 0 >? 0) && (compare x (k_n k) <? 0)) in
      po_mul (k_g k) x
  end.
End OPS.

(** ** the life of curve objects *)
(** ec.hpp:1542-1552: the constructor; the generator refers to the object under construction *)
Definition new_curve (c : cap) (h : heap) (p a b gx gy n : bigint) (cof : Z) : outcome heap :=
  let i := length (h_curves h) in
  let* _ := check (is_valid_integer p gx) in
  let* _ := check (is_valid_integer p gy) in
  let g := mkpo (Some i) (mkfo gx (Some (PCurve i))) (mkfo gy (Some (PCurve i))) in
  Ok (mkheap (h_ints h) (h_curves h ++
    [Some (mkco p a b g n cof (compare a (subs1 c false (zero c) p 3) =? 0) (is_zero a) (op_sub c p n))])).
(** the implicit copy constructor of [ec_curve_fp]: every member is copied, the pointers in [g] too *)
Definition copy_curve (h : heap) (i : nat) : outcome heap :=
  match at_addr (h_curves h) i with
  | None => UB
  | Some k => Ok (mkheap (h_ints h) (h_curves h ++ [Some k]))
  end.
(** the end of its life *)
Definition kill_curve (h : heap) (i : nat) : heap := mkheap (h_ints h) (put (h_curves h) i None).
(** what a program does with curve objects; their members are const, so there is no assignment *)
Inductive ccmd := KNew (p a b gx gy n : bigint) (cof : Z) | KCopy (i : nat) | KKill (i : nat).
Definition kstep (c : cap) (h : heap) (m : ccmd) : outcome heap :=
  match m with
  | KNew p a b gx gy n cof => new_curve c h p a b gx gy n cof
  | KCopy i => copy_curve h i
  | KKill i => Ok (kill_curve h i)
  end.
Fixpoint krun (c : cap) (h : heap) (l : list ccmd) : outcome heap :=
  match l with [] => Ok h | m :: l => let* h := kstep c h m in krun c h l end.

(** ** programs over integer variables and field elements *)
Inductive fbin := Badd | Bsub | Bmul | Bdiv.
Inductive fun1 := Uneg | Uinv | Usqr | Usqrt.
Definition run_bin (c : cap) (h : heap) (o : fbin) : fobj -> fobj -> outcome fobj :=
  match o with Badd => fo_add c h | Bsub => fo_sub c h | Bmul => fo_mul c h | Bdiv => fo_div c h end.
Definition run_un (c : cap) (h : heap) (o : fun1) : fobj -> outcome fobj :=
  match o with Uneg => fo_neg c h | Uinv => fo_inv c h | Usqr => fo_sqr c h | Usqrt => fo_sqrt c h end.
(** [FInt], [FSet], [FKill]: an integer variable begins its life, is assigned, is destroyed.  [FElem v i chk]:
    fp_element(v, variable i, chk).  [FTemp v p]: fp_element(v, IntT(p), false); only the calls with two
    arguments and a temporary modulus are deleted (fp.hpp:492, 511).  The others name elements. *)
Inductive fcmd :=
| FInt (v : bigint) | FSet (i : nat) (v : bigint) | FKill (i : nat)
| FElem (v : bigint) (i : nat) (chk : bool) | FTemp (v p : bigint)
| FCopy (j : nat) | FStore (j k : nat) | FBin (o : fbin) (j k : nat) | FUn (o : fun1) (j : nat) | FAssign (j : nat) (v : bigint) (chk : bool).
Record fstate := mkfs { f_heap : heap; f_els : list fobj }.
Definition set_ints (h : heap) (l : list (option bigint)) : heap := mkheap l (h_curves h).
Definition elem_at {A : Type} (l : list A) (j : nat) : outcome A := match nth_error l j with Some x => Ok x | None => UB end.
Definition fstep (c : cap) (s : fstate) (m : fcmd) : outcome fstate :=
  let h := f_heap s in let els := f_els s in
  let push x := Ok (mkfs h (els ++ [x])) in
  match m with
  | FInt v => Ok (mkfs (set_ints h (h_ints h ++ [Some v])) els)
  | FSet i v => match at_addr (h_ints h) i with None => UB | Some _ => Ok (mkfs (set_ints h (put (h_ints h) i (Some v))) els) end
  | FKill i => match at_addr (h_ints h) i with None => UB | Some _ => Ok (mkfs (set_ints h (put (h_ints h) i None)) els) end
  | FElem v i chk => match at_addr (h_ints h) i with None => UB | Some _ => let* x := fo_make h v (PInt i) chk in push x end
  | FTemp v p => Ok (mkfs (set_ints h (h_ints h ++ [None])) (els ++ [mkfo v (Some (PInt (length (h_ints h))))]))
  | FCopy j => let* x := elem_at els j in push x
  | FStore j k => let* _ := elem_at els j in let* x := elem_at els k in Ok (mkfs h (put els j x))
  | FBin o j k => let* x := elem_at els j in let* y := elem_at els k in let* r := run_bin c h o x y in push r
  | FUn o j => let* x := elem_at els j in let* r := run_un c h o x in push r
  | FAssign j v chk => let* x := elem_at els j in let* r := fo_assign h x v chk in Ok (mkfs h (put els j r))
  end.
Fixpoint frun (c : cap) (s : fstate) (l : list fcmd) : outcome fstate :=
  match l with [] => Ok s | m :: l => let* s := fstep c s m in frun c s l end.
Definition fstart : fstate := mkfs (mkheap [] []) [].
