(** What programs over big-integer variables should do: each variable holds an integer, or none (before
    its first assignment and after its value was moved away). *)
From Coq Require Import List ZArith Bool.
From Verif Require Import Outcome BigintModel BigintSpec BufferModel BufferSpec BigHeapModel.
Import ListNotations.
Open Scope Z_scope.

Definition var (vs : list (option Z)) (i : nat) : option Z := nth i vs None.
Definition unary (vs : list (option Z)) (z x : nat) (f : Z -> Z) : option (list (option Z)) :=
  match var vs x with Some a => Some (upd vs z (Some (f a))) | None => None end.
Definition binary (vs : list (option Z)) (z x y : nat) (f : Z -> Z -> Z) : option (list (option Z)) :=
  match var vs x, var vs y with Some a, Some b => Some (upd vs z (Some (f a b))) | _, _ => None end.

(** The integers after an operation; [None]: an operand has no value, or the divisor is 0. *)
Definition zstep (o : hop) (vs : list (option Z)) : option (list (option Z)) :=
  match o with
  | HWord z w => Some (upd vs z (Some w))
  | HCopy z x => Some (upd vs z (var vs x))
  | HMove z x => Some (if Nat.eqb z x then vs else upd (upd vs z (var vs x)) x None)
  | HSwap x y => Some (upd (upd vs x (var vs y)) y (var vs x))
  | HAdd z x y => binary vs z x y Z.add
  | HSub z x y => binary vs z x y Z.sub
  | HMul z x y => binary vs z x y Z.mul
  | HAddW z x w => unary vs z x (fun a => a + w)
  | HSubW z x w => unary vs z x (fun a => a - w)
  | HMulW z x w => unary vs z x (fun a => a * w)
  | HDivI q x k => if k =? 0 then None else unary vs q x (fun a => Z.quot a k)
  | HDivMod q r x y =>
      match var vs x, var vs y with
      | Some a, Some b => if b =? 0 then None else Some (upd (upd vs q (Some (Z.quot a b))) r (Some (Z.rem a b)))
      | _, _ => None
      end
  | HShl z x n => unary vs z x (fun a => a * 2 ^ n)
  | HShr z x n => unary vs z x (fun a => Z.quot a (2 ^ n))
  | HNeg z x => unary vs z x Z.opp
  | HAbs z x => unary vs z x Z.abs
  end.
Fixpoint zrun (l : list (hop * (nat -> Z))) (vs : list (option Z)) : option (list (option Z)) :=
  match l with
  | [] => Some vs
  | (o, _) :: t => match zstep o vs with Some vs => zrun t vs | None => None end
  end.

(** The objects named exist and the arguments have the types of the C++ parameters; the quotient object
    of a division is neither the remainder nor the divisor. *)
Definition hnames (n : nat) (o : hop) : Prop :=
  match o with
  | HWord z w => (z < n)%nat /\ 0 <= w < 2 ^ 32
  | HCopy z x | HMove z x | HSwap z x | HNeg z x | HAbs z x => (z < n)%nat /\ (x < n)%nat
  | HAdd z x y | HSub z x y | HMul z x y => (z < n)%nat /\ (x < n)%nat /\ (y < n)%nat
  | HAddW z x w | HSubW z x w | HMulW z x w => (z < n)%nat /\ (x < n)%nat /\ 0 <= w < 2 ^ 32
  | HDivI z x k => (z < n)%nat /\ (x < n)%nat /\ - 2 ^ 31 <= k < 2 ^ 31
  | HDivMod q r x y => (q < n)%nat /\ (r < n)%nat /\ (x < n)%nat /\ (y < n)%nat /\ q <> r /\ q <> y
  | HShl z x k | HShr z x k => (z < n)%nat /\ (x < n)%nat /\ 0 <= k
  end.

(** an addition or subtraction whose destination is one of its operands *)
Definition in_place (o : hop) : Prop :=
  match o with HAdd z x y | HSub z x y => z = x \/ z = y | _ => False end.

(** What the objects of the model hold: the value of the first size_ words of a non-empty buffer. *)
Definition held (c : list Z) (m : nat * bool) : option Z :=
  match c with [] => None | _ => Some (value (mk c (fst m) (snd m))) end.
Definition values (s : hstate) : list (option Z) :=
  map (fun e => held (fst e) (snd e)) (combine (contents (bufs s)) (meta s)).

(** resizing b to n words moves an existing heap block *)
Definition moves_block (N : nat) (b : flexbuf) (n : nat) : Prop := dd b <> None /\ (N < n)%nat /\ (dsize b < n)%nat.
(** The hazard of [uadd]: magnitudes are added, the destination is an operand, and its block moves. *)
Definition hazard (N : nat) (s : hstate) (o : hop) : Prop :=
  in_place o /\
  match o with
  | HAdd z x y | HSub z x y =>
      exists b xn gx yn gy, nth_error (objs (bufs s)) z = Some b /\
        nth_error (meta s) x = Some (xn, gx) /\ nth_error (meta s) y = Some (yn, gy) /\
        gx = (match o with HSub _ _ _ => negb gy | _ => gy end) /\ moves_block N b (Nat.max xn yn + 1)
  | _ => False
  end.

(** a division by 0 of a value *)
Definition by_zero (vs : list (option Z)) (o : hop) : Prop :=
  match o with
  | HDivI _ x k => var vs x <> None /\ k = 0
  | HDivMod _ _ x y => var vs x <> None /\ var vs y = Some 0
  | _ => False
  end.

(** the program x = 1; x += x; ... (k times) *)
Definition doubling (k : nat) (junk : nat -> nat -> Z) : list (hop * (nat -> Z)) :=
  (HWord 0 1, junk 0%nat) :: map (fun i => (HAdd 0 0 0, junk (S i))) (seq 0 k).
