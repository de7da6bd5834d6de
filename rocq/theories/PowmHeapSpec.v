(** What a function that allocates should leave behind. *)
From Coq Require Import List ZArith Bool.
From Verif Require Import Outcome PowmModel PowmHeapModel.
Import ListNotations.
Open Scope nat_scope.

(** the live blocks come from earlier requests *)
Definition heap_ok (h : heap) : Prop := forall k b, In (k, b) (h_live h) -> k < h_next h.
(** one of the next n requests fails; none does *)
Definition some_fails (fails : nat -> bool) (h : heap) (n : nat) : Prop := exists j, j < n /\ fails (h_next h + j) = true.
Definition none_fails (fails : nat -> bool) (h : heap) (n : nat) : Prop := forall j, j < n -> fails (h_next h + j) = false.
(** the struct at p and the arrays it points to have the contents [k] *)
Definition prop_at (h : heap) (p : ptr) (k : key_prop) : Prop :=
  exists s, get_struct h p = Ok s /\ get_array h (s_rr s) = Ok (p_rr k) /\ get_array h (s_modulus s) = Ok (p_modulus k) /\
    get_array h (s_exponent s) = Ok (p_exponent k) /\ s_n0inv s = p_n0inv k /\ s_num_bits s = p_num_bits k.
