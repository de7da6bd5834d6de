(** What the word loops should do to memory, stated on integers. *)
From Coq Require Import List ZArith Bool.
From Verif Require Import Outcome WordsModel WordsSpec RawModel.
Import ListNotations.
Open Scope nat_scope.

(** cell k of array b is one of the n words at p *)
Definition within (p : loc) (n b k : nat) : Prop := b = fst p /\ snd p <= k < snd p + n.
(** the words at p are [ws] *)
Definition reads (m : memory) (p : loc) (ws : list Z) : Prop :=
  forall j, j < length ws -> rd m (fst p) (snd p + j) = Some (nth j ws 0%Z).
(** n words exist at p *)
Definition room (m : memory) (p : loc) (n : nat) : Prop :=
  forall j, j < n -> rd m (fst p) (snd p + j) <> None.
(** the n words at p are 32-bit words that represent the integer v *)
Definition holds (m : memory) (p : loc) (n : nat) (v : Z) : Prop :=
  exists ws, length ws = n /\ all_words ws /\ reads m p ws /\ eval ws = v.
(** the same arrays with the same lengths, and the same words outside the ranges [rs] *)
Definition only (m m' : memory) (rs : list (loc * nat)) : Prop :=
  map (@length Z) m' = map (@length Z) m /\
  forall b k, (forall r, In r rs -> ~ within (fst r) (snd r) b k) -> rd m' b k = rd m b k.

(** the n words at p and the k words at q do not overlap *)
Definition apart (p : loc) (n : nat) (q : loc) (k : nat) : Prop :=
  fst p <> fst q \/ snd p + n <= snd q \/ snd q + k <= snd p.
(** z may be written from the bottom up while x is read: z does not start inside x *)
Definition upward (z x : loc) (n : nat) : Prop := fst z <> fst x \/ snd z <= snd x \/ snd x + n <= snd z.
(** z may be written from the top down while x is read: x does not start inside z *)
Definition downward (z x : loc) (n : nat) : Prop := fst z <> fst x \/ snd x <= snd z \/ snd z + n <= snd x.
(** x is the array at z itself or does not overlap it *)
Definition same_or_apart (z : loc) (n : nat) (x : loc) (k : nat) : Prop := z = x \/ apart z n x k.
(** the integers of n words are those in [0, cap n) *)
Definition cap (n : nat) : Z := 2 ^ (32 * Z.of_nat n).
