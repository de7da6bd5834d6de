(** What a set of array objects should do: each object is the list of its elements.
    [limit] is the largest size, if any; [move_keeps] says whether moving from an object leaves it
    as it was (array copy) or empties it. *)
From Coq Require Import List ZArith.
From Verif Require Import Outcome BufferModel.
Import ListNotations.
Local Open Scope nat_scope.

Definition arrays := list (list Z).
Definition fits (limit : option nat) (n : nat) : Prop := match limit with Some N => n <= N | None => True end.

(** A' is A with object i replaced by l. *)
Definition changed (A : arrays) (i : nat) (l : list Z) (A' : arrays) : Prop :=
  length A' = length A /\ nth_error A' i = Some l /\ forall j, j <> i -> nth_error A' j = nth_error A j.

Inductive aspec (limit : option nat) (move_keeps : bool) : bop -> arrays -> outcome bres -> arrays -> Prop :=
| A_resize A i n l l' A' : nth_error A i = Some l -> fits limit n -> length l' = n ->
    (forall k, k < n -> k < length l -> nth_error l' k = nth_error l k) -> changed A i l' A' ->
    aspec limit move_keeps (Resize i n) A (Ok (RBool true)) A'
| A_resize_fail A i n : ~ fits limit n -> aspec limit move_keeps (Resize i n) A (Ok (RBool false)) A
| A_clear A i A' : changed A i [] A' -> aspec limit move_keeps (Clear i) A (Ok RUnit) A'
| A_write A i k v l l' A' : nth_error A i = Some l -> length l' = length l -> nth_error l' k = Some v ->
    (forall m, m <> k -> nth_error l' m = nth_error l m) -> changed A i l' A' ->
    aspec limit move_keeps (Write i k v) A (Ok RUnit) A'
| A_write_out A i k v l : nth_error A i = Some l -> length l <= k -> aspec limit move_keeps (Write i k v) A Abort A
| A_read A i k v l : nth_error A i = Some l -> nth_error l k = Some v -> aspec limit move_keeps (Read i k) A (Ok (RVal v)) A
| A_read_out A i k l : nth_error A i = Some l -> length l <= k -> aspec limit move_keeps (Read i k) A Abort A
| A_copy A i j l A' : nth_error A j = Some l -> changed A i l A' -> aspec limit move_keeps (Copy i j) A (Ok RUnit) A'
| A_move_self A i l : nth_error A i = Some l -> aspec limit move_keeps (Move i i) A (Ok RUnit) A
| A_move A i j l A1 A' : i <> j -> nth_error A j = Some l -> changed A i l A1 ->
    changed A1 j (if move_keeps then l else []) A' -> aspec limit move_keeps (Move i j) A (Ok RUnit) A'
| A_swap A i j li lj A1 A' : nth_error A i = Some li -> nth_error A j = Some lj ->
    changed A i lj A1 -> changed A1 j li A' -> aspec limit move_keeps (Swap i j) A (Ok RUnit) A'.

(** the objects an operation names exist *)
Definition names (o : bop) (n : nat) : Prop :=
  match o with
  | Resize i _ | Clear i | Write i _ _ | Read i _ => i < n
  | Copy i j | Move i j | Swap i j => i < n /\ j < n
  end.

(** contents of the model's objects *)
Definition fix_contents (b : fixbuf) : list Z := firstn (xsize b) (xdata b).
Definition flex_contents (h : heap) (b : flexbuf) : list Z :=
  firstn (fsize b) (match dd b with Some p => match block h p with Some d => d | None => [] end | None => sd b end).
Definition contents (s : prog) : arrays := map (flex_contents (hp s)) (objs s).

(** the outcome of a step, with the state it leaves (an aborted call leaves no state: the old one is meant) *)
Definition outcome_of {S} (r : outcome (bres * S)) : outcome bres :=
  match r with Ok (v, _) => Ok v | Abort => Abort | UB => UB | NoFuel => NoFuel end.
Definition state_of {S} (r : outcome (bres * S)) (s : S) : S :=
  match r with Ok (_, s') => s' | _ => s end.
