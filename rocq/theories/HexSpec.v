(** The number a hexadecimal text stands for, digit by digit from the left. *)
From Coq Require Import ZArith List.
From Verif Require Import UtilsSpec.
Import ListNotations.
Open Scope Z_scope.

Inductive hex_number : list Z -> Z -> Prop :=
| hn_nil : hex_number [] 0
| hn_digit s v c d : hex_number s v -> hex_digit c d -> hex_number (s ++ [c]) (16 * v + d).
(** the words that the bytes of a text of n digits take *)
Definition text_words (n : nat) : nat := Nat.max 1 (((n + 1) / 2 + 3) / 4).
(** a text, or the same with a terminating NUL *)
Definition written (s t : list Z) : Prop := s = t \/ s = t ++ [0].
