(** What the word routines of c/powm.h should do to memory, stated on integers and bytes. *)
From Coq Require Import List ZArith Bool.
From Verif Require Import WordsModel WordsSpec RawModel RawSpec.
Import ListNotations.
Open Scope Z_scope.

(** the bytes of a word in the order of a little-endian memory *)
Definition le_bytes (w : Z) : list Z := [w mod 256; w / 2 ^ 8 mod 256; w / 2 ^ 16 mod 256; w / 2 ^ 24 mod 256].
(** the memory at p contains the bytes [bs] *)
Definition bytes_at (m : memory) (p : loc) (bs : list Z) : Prop :=
  exists ws, all_words ws /\ reads m p ws /\ bs = flat_map le_bytes ws.
(** the integer v stored in the BearSSL format: its announced bit length h, then the words *)
Definition i32_at (m : memory) (p : loc) (h : Z) (n : nat) (v : Z) : Prop :=
  reads m p [h] /\ holds m (at_ p 1) n v.
(** the number of words of h bits *)
Definition words_for (h : Z) : nat := Z.to_nat ((h + 31) / 32).
(** h is the number of binary digits of v *)
Definition has_bits (v h : Z) : Prop := 0 < h /\ 2 ^ (h - 1) <= v < 2 ^ h.
(** [k] is the constant of Montgomery reduction for N: -1/N modulo 2^32 *)
Definition mont_const (N k : Z) : Prop := 0 <= k < 2 ^ 32 /\ (N * k + 1) mod 2 ^ 32 = 0.
