(** C68: what the objects mean without memory.  A field element has the modulus its variable had when the
    element was made; a point has the coefficients of its curve. *)
From Coq Require Import List ZArith Bool.
From Verif Require Import Outcome WordsModel BigintModel NumModel FpModel FieldOpModel EcModel EcCurveModel PointerModel.
Import ListNotations.
Open Scope Z_scope.

(** the field element, point and curve that objects stand for in a memory *)
Definition look (h : heap) (x : fobj) : fe := mkfe (ov x) (match om x with None => None | Some q => deref h q end).
Definition look_point (h : heap) (P : pobj) : option (fe * fe) :=
  match oc P with None => None | Some _ => Some (look h (ox P), look h (oy P)) end.
Definition look_curve (h : heap) (k : cobj) : curve :=
  mkcurve (k_p k) (k_a k) (k_b k) (look_point h (k_g k)) (k_n k) (k_h k) (k_m3 k) (k_z k) (k_pmn k).
(** an element whose modulus, if any, still exists *)
Definition live (h : heap) (x : fobj) : Prop := forall q, om x = Some q -> deref h q <> None.
(** the curve objects at the addresses [S] exist and have the parameters of [k] *)
Definition alike (h : heap) (k : cobj) (S : nat -> Prop) : Prop :=
  forall i, S i -> exists k', at_addr (h_curves h) i = Some k' /\ k_p k' = k_p k /\ k_a k' = k_a k /\ k_b k' = k_b k /\ k_n k' = k_n k.
(** a point of one of these curves, or the default-constructed one *)
Definition point_of (h : heap) (S : nat -> Prop) (P : pobj) : Prop :=
  live h (ox P) /\ live h (oy P) /\ forall i, oc P = Some i -> S i.
(** two outcomes agree: both end in the same way, and results are related *)
Definition agree {A B : Type} (R : A -> B -> Prop) (a : outcome A) (b : outcome B) : Prop :=
  match a, b with Ok x, Ok y => R x y | Abort, Abort | UB, UB | NoFuel, NoFuel => True | _, _ => False end.

(** ** programs *)
Record vstate := mkvs { v_ints : list (option bigint); v_els : list fe }.
Definition val_bin (c : cap) (o : fbin) : fe -> fe -> outcome fe :=
  match o with Badd => fe_add c | Bsub => fe_sub c | Bmul => fe_mul c | Bdiv => fe_div c end.
Definition val_un (c : cap) (o : fun1) : fe -> outcome fe :=
  match o with Uneg => fe_neg c | Uinv => fe_inv c | Usqr => fe_sqr c | Usqrt => fe_sqrt c end.
Definition vstep (c : cap) (s : vstate) (m : fcmd) : outcome vstate :=
  let ints := v_ints s in let els := v_els s in
  let push x := Ok (mkvs ints (els ++ [x])) in
  match m with
  | FInt v => Ok (mkvs (ints ++ [Some v]) els)
  | FSet i v => match at_addr ints i with None => UB | Some _ => Ok (mkvs (put ints i (Some v)) els) end
  | FKill i => match at_addr ints i with None => UB | Some _ => Ok (mkvs (put ints i None) els) end
  | FElem v i chk => match at_addr ints i with None => UB | Some p => let* x := fe_make v p chk in push x end
  | FTemp v p => Ok (mkvs (ints ++ [None]) (els ++ [mkfe v (Some p)]))
  | FCopy j => let* x := elem_at els j in push x
  | FStore j k => let* _ := elem_at els j in let* x := elem_at els k in Ok (mkvs ints (put els j x))
  | FBin o j k => let* x := elem_at els j in let* y := elem_at els k in let* r := val_bin c o x y in push r
  | FUn o j => let* x := elem_at els j in let* r := val_un c o x in push r
  | FAssign j v chk => let* x := elem_at els j in let* r := fe_assign x v chk in Ok (mkvs ints (put els j r))
  end.
Fixpoint vrun (c : cap) (s : vstate) (l : list fcmd) : outcome vstate :=
  match l with [] => Ok s | m :: l => let* s := vstep c s m in vrun c s l end.
Definition vstart : vstate := mkvs [] [].

(** programs that keep every modulus as it is as long as an element refers to it, and make no element of a
    temporary; [ps] are the variables the elements refer to *)
Definition refers (ps : list nat) (i : nat) : bool := existsb (Nat.eqb i) ps.
Fixpoint stable (ps : list nat) (l : list fcmd) : bool :=
  match l with
  | [] => true
  | m :: l =>
      match m with
      | FInt _ | FAssign _ _ _ => stable ps l
      | FSet i _ | FKill i => negb (refers ps i) && stable ps l
      | FElem _ i _ => stable (ps ++ [i]) l
      | FTemp _ _ => false
      | FCopy j | FBin _ j _ | FUn _ j => stable (ps ++ [nth j ps O]) l
      | FStore j k => stable (put ps j (nth k ps O)) l
      end
  end.

(** ** curves *)
(** the life of each curve object of a program: the object whose constructor made its generator, whether it
    still exists, and the parameters it was given *)
Record life := mklife { l_from : nat; l_alive : bool; l_params : bigint * bigint * bigint * bigint * bigint * bigint * Z }.
Definition live_on (ls : list life) (m : ccmd) : list life :=
  match m with
  | KNew p a b gx gy n cof => ls ++ [mklife (length ls) true (p, a, b, gx, gy, n, cof)]
  | KCopy i => match nth_error ls i with Some x => ls ++ [mklife (l_from x) true (l_params x)] | None => ls end
  | KKill i => match nth_error ls i with Some x => put ls i (mklife (l_from x) false (l_params x)) | None => ls end
  end.
Definition lives (l : list ccmd) : list life := fold_left live_on l [].
Definition exists_at (ls : list life) (i : nat) : bool := match nth_error ls i with Some x => l_alive x | None => false end.
(** the curve with given parameters *)
Definition curve_with (c : cap) (ps : bigint * bigint * bigint * bigint * bigint * bigint * Z) : outcome curve :=
  let '(p, a, b, gx, gy, n, cof) := ps in curve_make c p a b gx gy n cof.
