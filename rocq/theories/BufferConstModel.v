(** Model of buffer.hpp, [flexbuffer] in a constant expression (the branches under std::is_constant_evaluated()).
    A failed check makes the initialiser not a constant expression; it is modelled as [Abort]. *)
From Coq Require Import List ZArith Bool.
From Verif Require Import Outcome BufferModel.
Import ListNotations.
Open Scope Z_scope.

(** 217-223, 242-245 [resize] *)
Definition ce_resize (b : flexbuf) (n : nat) : bool * flexbuf :=
  if Nat.ltb (length (sd b)) n then (false, b) else (true, mkflex (sd b) (dd b) n (dsize b)).
(** 247-257 [clear]: nothing is released *)
Definition ce_clear (b : flexbuf) : flexbuf := mkflex (sd b) (dd b) 0 0.
(** 289-309 [operator[]] *)
Definition ce_read (b : flexbuf) (k : nat) : outcome Z :=
  let* _ := check (Nat.ltb k (fsize b)) in get (sd b) k.
Definition ce_write (b : flexbuf) (k : nat) (v : Z) : outcome flexbuf :=
  let* _ := check (Nat.ltb k (fsize b)) in
  let* _ := get (sd b) k in
  Ok (mkflex (upd (sd b) k v) (dd b) (fsize b) (dsize b)).
(** 175-190 copy assignment (150-161 is the same on a new object), 192-207 move assignment, 279-287 [swap] *)
Definition ce_step (o : bop) (s : list flexbuf) : outcome (bres * list flexbuf) :=
  match o with
  | Resize i n => let* b := get s i in let '(ok, b') := ce_resize b n in Ok (RBool ok, upd s i b')
  | Clear i => let* b := get s i in Ok (RUnit, upd s i (ce_clear b))
  | Write i k v => let* b := get s i in let* b' := ce_write b k v in Ok (RUnit, upd s i b')
  | Read i k => let* b := get s i in let* v := ce_read b k in Ok (RVal v, s)
  | Copy i j =>
      let* d := get s i in let* r := get s j in
      if Nat.eqb i j then Ok (RUnit, s)
      else let d := ce_clear d in Ok (RUnit, upd s i (mkflex (sd r) (dd d) (fsize r) (dsize r)))
  | Move i j =>
      let* d := get s i in let* r := get s j in
      if Nat.eqb i j then Ok (RUnit, s)
      else Ok (RUnit, upd (upd s i (mkflex (sd r) (dd r) (fsize r) (dsize r))) j (mkflex (sd r) None 0 0))
  | Swap i j =>
      let* a := get s i in let* b := get s j in
      let s := upd s i (mkflex (sd b) (dd a) (fsize b) (dsize a)) in
      Ok (RUnit, if Nat.eqb i j then s else upd s j (mkflex (sd a) (dd b) (fsize a) (dsize b)))
  end.
(** a constant expression that works on n buffers *)
Fixpoint ce_run (l : list bop) (s : list flexbuf) : outcome (list flexbuf) :=
  match l with
  | [] => Ok s
  | o :: t => let* r := ce_step o s in ce_run t (snd r)
  end.
