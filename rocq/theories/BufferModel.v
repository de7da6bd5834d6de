(** Model of buffer.hpp: [fixed_buffer] and [flexbuffer] (run-time path), as objects of a program
    state.  Elements are [Z].
    Simplifications: allocation does not fail; sizes are natural numbers (no wrap of [size_t], a
    request that large cannot be allocated); heap memory that is never released is not counted. *)
From Coq Require Import List ZArith Bool.
From Verif Require Import Outcome WordsModel BigintModel.
Import ListNotations.
Open Scope Z_scope.

(** Replace element k. *)
Fixpoint upd {A} (l : list A) (k : nat) (v : A) : list A :=
  match l, k with
  | [], _ => []
  | _ :: t, O => v :: t
  | a :: t, S k' => a :: upd t k' v
  end.

(** Operations on the buffer objects of a program, objects named by index. *)
Inductive bop :=
| Resize (i n : nat) | Clear (i : nat) | Write (i k : nat) (v : Z) | Read (i k : nat)
| Copy (dst src : nat) | Move (dst src : nat) | Swap (i j : nat).
Inductive bres := RBool (b : bool) | RUnit | RVal (v : Z).

(** buffer.hpp:131-133 members of [fixed_buffer]. *)
Record fixbuf := mkfix { xdata : list Z; xsize : nat }.
Definition fix_new (N : nat) : fixbuf := mkfix (repeat 0 N) 0.

(** buffer.hpp:79-86 [resize], 88-91 [clear], 119-129 [operator[]]. *)
Definition fix_resize (N : nat) (b : fixbuf) (n : nat) : bool * fixbuf :=
  if Nat.ltb N n then (false, b) else (true, mkfix (xdata b) n).
Definition fix_clear (b : fixbuf) : fixbuf := mkfix (xdata b) 0.
Definition fix_read (b : fixbuf) (k : nat) : outcome Z :=
  let* _ := check (Nat.ltb k (xsize b)) in
  match nth_error (xdata b) k with Some v => Ok v | None => UB end.
Definition fix_write (b : fixbuf) (k : nat) (v : Z) : outcome fixbuf :=
  let* _ := check (Nat.ltb k (xsize b)) in
  match nth_error (xdata b) k with Some _ => Ok (mkfix (upd (xdata b) k v) (xsize b)) | None => UB end.

Definition get {A} (l : list A) (i : nat) : outcome A := match nth_error l i with Some a => Ok a | None => UB end.

(** One operation; copy and move (lines 74-77) are the defaulted member-wise ones, [swap] is 113-117. *)
Definition fix_step (N : nat) (o : bop) (s : list fixbuf) : outcome (bres * list fixbuf) :=
  match o with
  | Resize i n => let* b := get s i in let '(ok, b') := fix_resize N b n in Ok (RBool ok, upd s i b')
  | Clear i => let* b := get s i in Ok (RUnit, upd s i (fix_clear b))
  | Write i k v => let* b := get s i in let* b' := fix_write b k v in Ok (RUnit, upd s i b')
  | Read i k => let* b := get s i in let* v := fix_read b k in Ok (RVal v, s)
  | Copy i j => let* _ := get s i in let* b := get s j in Ok (RUnit, upd s i b)
  | Move i j => let* _ := get s i in let* b := get s j in Ok (RUnit, upd s i b)
  | Swap i j => let* a := get s i in let* b := get s j in Ok (RUnit, upd (upd s i b) j a)
  end.

(** ** flexbuffer *)

(** buffer.hpp:311-315 members; [dd] is the heap block (null = None). *)
Record flexbuf := mkflex { sd : list Z; dd : option nat; fsize : nat; dsize : nat }.
Definition flex_new (N : nat) : flexbuf := mkflex (repeat 0 N) None 0 0.

(** The heap: block number to contents; None is a freed block. *)
Definition heap := list (option (list Z)).
Definition block (h : heap) (a : nat) : option (list Z) :=
  match nth_error h a with Some (Some b) => Some b | _ => None end.
(** [new T[n]]: contents are indeterminate, given by [junk]. *)
Definition fresh (junk : nat -> Z) (n : nat) : list Z := map junk (seq 0 n).
Definition alloc (h : heap) (b : list Z) : nat * heap := (length h, h ++ [Some b]).
(** [delete[] p]: of a block that is not live is UB *)
Definition free (h : heap) (a : nat) : outcome heap :=
  match block h a with Some _ => Ok (upd h a None) | None => UB end.
(** memcpy of n elements from [src] into the front of [dst] *)
Definition memcpy (dst src : list Z) (n : nat) : outcome (list Z) :=
  if Nat.leb n (length src) && Nat.leb n (length dst) then Ok (firstn n src ++ skipn n dst) else UB.

(** buffer.hpp:217-245 [resize] (returns true). *)
Definition flex_resize (N : nat) (junk : nat -> Z) (h : heap) (b : flexbuf) (n : nat)
  : outcome (heap * flexbuf) :=
  if Nat.ltb N n && Nat.ltb (dsize b) n then
    let ds := (dsize b + Nat.max N n)%nat in
    match dd b with
    | None =>
        let* blk := memcpy (fresh junk ds) (sd b) N in
        let '(p, h) := alloc h blk in
        Ok (h, mkflex (sd b) (Some p) n ds)
    | Some old =>
        match block h old with
        | None => UB
        | Some src =>
            let* blk := memcpy (fresh junk ds) src (ds - Nat.max N n) in
            let '(p, h) := alloc h blk in
            let* h := free h old in
            Ok (h, mkflex (sd b) (Some p) n ds)
        end
    end
  else Ok (h, mkflex (sd b) (dd b) n (dsize b)).

(** buffer.hpp:247-257 [clear]. *)
Definition flex_clear (h : heap) (b : flexbuf) : outcome (heap * flexbuf) :=
  match dd b with
  | Some p => let* h := free h p in Ok (h, mkflex (sd b) None 0 0)
  | None => Ok (h, mkflex (sd b) None 0 0)
  end.

(** buffer.hpp:289-309 [operator[]]: the array the reference points into; a freed block is UB. *)
Definition flex_data (h : heap) (b : flexbuf) : outcome (list Z) :=
  match dd b with
  | Some p => match block h p with Some d => Ok d | None => UB end
  | None => Ok (sd b)
  end.
Definition flex_read (h : heap) (b : flexbuf) (k : nat) : outcome Z :=
  let* _ := check (Nat.ltb k (fsize b)) in
  let* d := flex_data h b in get d k.
Definition flex_put (h : heap) (b : flexbuf) (d : list Z) : heap * flexbuf :=
  match dd b with
  | Some p => (upd h p (Some d), b)
  | None => (h, mkflex d None (fsize b) (dsize b))
  end.
Definition flex_write (h : heap) (b : flexbuf) (k : nat) (v : Z) : outcome (heap * flexbuf) :=
  let* _ := check (Nat.ltb k (fsize b)) in
  let* d := flex_data h b in
  let* _ := get d k in
  Ok (flex_put h b (upd d k v)).

(** buffer.hpp:150-161 copy constructor and 180-188 of the assignment: duplicate into a fresh block. *)
Definition flex_dup (junk : nat -> Z) (h : heap) (r : flexbuf) : outcome (heap * flexbuf) :=
  match dd r with
  | Some p =>
      match block h p with
      | None => UB
      | Some src =>
          let* blk := memcpy (fresh junk (dsize r)) src (dsize r) in
          let '(p', h) := alloc h blk in
          Ok (h, mkflex (sd r) (Some p') (fsize r) (dsize r))
      end
  | None => Ok (h, mkflex (sd r) None (fsize r) (dsize r))
  end.

Record prog := mkprog { objs : list flexbuf; hp : heap }.
Definition flex_step (N : nat) (junk : nat -> Z) (o : bop) (s : prog) : outcome (bres * prog) :=
  let os := objs s in
  let h := hp s in
  match o with
  | Resize i n =>
      let* b := get os i in
      let* r := flex_resize N junk h b n in let '(h, b) := r in Ok (RBool true, mkprog (upd os i b) h)
  | Clear i =>
      let* b := get os i in
      let* r := flex_clear h b in let '(h, b) := r in Ok (RUnit, mkprog (upd os i b) h)
  | Write i k v =>
      let* b := get os i in
      let* r := flex_write h b k v in let '(h, b) := r in Ok (RUnit, mkprog (upd os i b) h)
  | Read i k =>
      let* b := get os i in let* v := flex_read h b k in Ok (RVal v, s)
  | Copy i j =>                                             (* 175-190 *)
      let* d := get os i in
      let* r := get os j in
      if Nat.eqb i j then Ok (RUnit, s)
      else
        let* c := flex_clear h d in
        let* r := flex_dup junk (fst c) r in let '(h, b) := r in Ok (RUnit, mkprog (upd os i b) h)
  | Move i j =>                                             (* 192-207 *)
      let* d := get os i in
      let* r := get os j in
      if Nat.eqb i j then Ok (RUnit, s)
      else
        let* c := flex_clear h d in
        Ok (RUnit, mkprog (upd (upd os i r) j (mkflex (sd r) None 0 0)) (fst c))
  | Swap i j =>                                             (* 279-287 *)
      let* a := get os i in let* b := get os j in Ok (RUnit, mkprog (upd (upd os i b) j a) h)
  end.

(** A program: operations, each with the indeterminate contents of the memory it may allocate. *)
Fixpoint flex_run (N : nat) (l : list (bop * (nat -> Z))) (s : prog) : outcome prog :=
  match l with
  | [] => Ok s
  | (o, junk) :: t => let* r := flex_step N junk o s in flex_run N t (snd r)
  end.
Definition flex_init (N n : nat) : prog := mkprog (repeat (flex_new N) n) [].
Fixpoint fix_run (N : nat) (l : list bop) (s : list fixbuf) : outcome (list fixbuf) :=
  match l with
  | [] => Ok s
  | o :: t => let* r := fix_step N o s in fix_run N t (snd r)
  end.
Definition fix_init (N n : nat) : list fixbuf := repeat (fix_new N) n.

(** ** uadd on heap buffers *)

(** A raw pointer to the first element of a buffer. *)
Inductive ptr := PStack (obj : nat) | PHeap (a : nat).
(** [&x[0]]: aborts on an empty buffer *)
Definition first_ptr (s : prog) (i : nat) : outcome ptr :=
  let* b := get (objs s) i in
  let* _ := check (Nat.ltb 0 (fsize b)) in
  Ok (match dd b with Some a => PHeap a | None => PStack i end).
(** n elements at a pointer *)
Definition load (s : prog) (p : ptr) (n : nat) : outcome (list Z) :=
  match p with
  | PStack i => let* b := get (objs s) i in if Nat.leb n (length (sd b)) then Ok (firstn n (sd b)) else UB
  | PHeap a =>
      match block (hp s) a with
      | Some d => if Nat.leb n (length d) then Ok (firstn n d) else UB
      | None => UB
      end
  end.
Definition save (s : prog) (p : ptr) (ws : list Z) : outcome prog :=
  match p with
  | PStack i =>
      let* b := get (objs s) i in
      let* d := memcpy (sd b) ws (length ws) in
      Ok (mkprog (upd (objs s) i (mkflex d (dd b) (fsize b) (dsize b))) (hp s))
  | PHeap a =>
      match block (hp s) a with
      | Some old => let* d := memcpy old ws (length ws) in Ok (mkprog (objs s) (upd (hp s) a (Some d)))
      | None => UB
      end
  end.

(** bigint.hpp:814-842 [uadd] on growable buffers: the buffer part, without [trim].  The operand
    pointers are taken before the destination is resized (lines 816-826).  The word loops read index i
    of both sources before writing index i, and the destination is either equal to a source pointer or
    disjoint from it, so the sum is computed from the words loaded. *)
Definition uadd_flex (N : nat) (junk : nat -> Z) (s : prog) (z x : nat) (xn : nat) (y : nat) (yn : nat)
  : outcome prog :=
  let* px := first_ptr s x in
  let* py := first_ptr s y in
  let '(xn, yn, px, py) := if Nat.ltb xn yn then (yn, xn, py, px) else (xn, yn, px, py) in
  let* b := get (objs s) z in
  let* r := flex_resize N junk (hp s) b (xn + 1) in
  let '(h, b) := r in
  let s := mkprog (upd (objs s) z b) h in
  let* dst := first_ptr s z in
  let* wx := load s px xn in
  let* wy := load s py yn in
  save s dst (uadd_words wx wy).
