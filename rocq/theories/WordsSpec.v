(** What a word array denotes. *)
From Coq Require Import List ZArith.
Import ListNotations.
Open Scope Z_scope.

Definition is_word (w : Z) : Prop := 0 <= w < 2 ^ 32.
Definition all_words (l : list Z) : Prop := Forall is_word l.

(** little-endian base-2^32 value *)
Fixpoint eval (l : list Z) : Z :=
  match l with
  | [] => 0
  | a :: t => a + 2 ^ 32 * eval t
  end.

(** big-endian byte-string value *)
Fixpoint be_value_acc (acc : Z) (l : list Z) : Z :=
  match l with
  | [] => acc
  | b :: t => be_value_acc (256 * acc + b) t
  end.
Definition be_value (l : list Z) : Z := be_value_acc 0 l.

(** a byte string without its leading zeros (at least one byte is kept) *)
Fixpoint strip0 (l : list Z) : list Z :=
  match l with
  | [] => [0]
  | b :: t => match t with [] => [b] | _ :: _ => if b =? 0 then strip0 t else b :: t end
  end.
