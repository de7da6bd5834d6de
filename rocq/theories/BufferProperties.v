(** Property theorems C04 (buffers), and the heap part of C13. *)
From Coq Require Import List ZArith.
From Verif Require Import Outcome WordsModel BigintModel BufferModel BufferSpec BufferProofs BufferConstModel BufferConst.
Import ListNotations.
Local Open Scope nat_scope.

(** C04: after any run of operations on n fixed buffers, the next operation behaves as on arrays limited to N elements; no undefined behaviour. *)
Theorem C04_fixed_buffer : forall N n l s o,
  Forall (fun o => names o n) l -> fix_run N l (fix_init N n) = Ok s -> names o n ->
  aspec (Some N) true o (map fix_contents s) (outcome_of (fix_step N o s)) (map fix_contents (state_of (fix_step N o s) s)).
Proof. exact fix_claim. Qed.
Print Assumptions C04_fixed_buffer.
Example C04_fixed_ex : exists s, fix_run 3 [Resize 0 2; Write 0 1 7%Z; Copy 1 0; Write 0 1 8%Z; Resize 0 4] (fix_init 3 2) = Ok s /\
  aspec (Some 3) true (Read 1 1) (map fix_contents s) (Ok (RVal 7%Z)) (map fix_contents s) /\ map fix_contents s = [[0; 8]; [0; 7]]%Z.
Proof.
  eexists. split; [reflexivity|]. split; [|reflexivity].
  refine (C04_fixed_buffer 3 2 [Resize 0 2; Write 0 1 7%Z; Copy 1 0; Write 0 1 8%Z; Resize 0 4] _ (Read 1 1) _ eq_refl _); repeat constructor.
Qed.
(** C04: the same for growable buffers, whatever the allocator returns in fresh memory; in particular no block is freed twice or used after being freed, and copies are independent. *)
Theorem C04_flexbuffer : forall N n l s o junk,
  Forall (fun q => names (fst q) n) l -> flex_run N l (flex_init N n) = Ok s -> names o n ->
  aspec None false o (contents s) (outcome_of (flex_step N junk o s)) (contents (state_of (flex_step N junk o s) s)).
Proof. exact flex_claim. Qed.
Print Assumptions C04_flexbuffer.
Definition bx_junk : nat -> Z := fun _ => 99%Z.
Definition bx_ops : list (bop * (nat -> Z)) :=
  map (fun o => (o, bx_junk)) [Resize 0 2; Write 0 1 7%Z; Resize 0 5; Copy 1 0; Write 0 1 8%Z; Resize 0 12; Move 2 0; Resize 1 2].
Example C04_flex_ex : exists s, flex_run 2 bx_ops (flex_init 2 3) = Ok s /\
  contents s = [[]; [0; 7]; [0; 8; 99; 99; 99; 99; 99; 99; 99; 99; 99; 99]]%Z /\
  aspec None false (Read 0 0) (contents s) Abort (contents s).
Proof.
  eexists. split; [reflexivity|]. split; [reflexivity|].
  refine (C04_flexbuffer 2 3 bx_ops _ (Read 0 0) bx_junk _ eq_refl _); repeat constructor.
Qed.
(** C04: in constant expressions growable buffers are arrays limited to N elements. *)
Theorem C04_flex_constant : forall N n l s o,
  Forall (fun o => names o n) l -> ce_run l (ce_init N n) = Ok s -> names o n ->
  aspec (Some N) false o (ce_contents s) (outcome_of (ce_step o s)) (ce_contents (state_of (ce_step o s) s)).
Proof. exact ce_claim. Qed.
Print Assumptions C04_flex_constant.
(** C04: objects made by a constant expression and used further at run time behave as arrays without limit. *)
Theorem C04_flex_mixed : forall N n l l' s s' o junk,
  Forall (fun o => names o n) l -> ce_run l (ce_init N n) = Ok s ->
  Forall (fun q => names (fst q) n) l' -> flex_run N l' (mkprog s []) = Ok s' -> names o n ->
  aspec None false o (contents s') (outcome_of (flex_step N junk o s')) (contents (state_of (flex_step N junk o s') s')).
Proof. exact mixed_claim. Qed.
Print Assumptions C04_flex_mixed.
Example C04_const_ex : exists s s', ce_run [Resize 0 2; Write 0 1 7%Z; Resize 0 3; Copy 1 0; Swap 0 2] (ce_init 2 3) = Ok s /\
  ce_contents s = [[]; [0; 7]; [0; 7]]%Z /\ aspec (Some 2) false (Resize 1 3) (ce_contents s) (Ok (RBool false)) (ce_contents s) /\
  flex_run 2 [(Resize 1 3, bx_junk)] (mkprog s []) = Ok s' /\ contents s' = [[]; [0; 7; 99]; [0; 7]]%Z /\
  aspec None false (Read 1 1) (contents s') (Ok (RVal 7%Z)) (contents s').
Proof.
  eexists. eexists. split; [reflexivity|]. split; [reflexivity|]. split; [|split; [reflexivity|split; [reflexivity|]]].
  - refine (C04_flex_constant 2 3 [Resize 0 2; Write 0 1 7%Z; Resize 0 3; Copy 1 0; Swap 0 2] _ (Resize 1 3) _ eq_refl _); repeat constructor.
  - refine (C04_flex_mixed 2 3 [Resize 0 2; Write 0 1 7%Z; Resize 0 3; Copy 1 0; Swap 0 2] [(Resize 1 3, bx_junk)] _ _ (Read 1 1) bx_junk _ eq_refl _ eq_refl _); repeat constructor.
Qed.
(** C13 on growable buffers at the level of heap blocks and raw pointers: the addition writes the sum of the operands and touches nothing else, provided an in-place addition does not move the block. *)
Theorem C13_heap_uadd : forall N n l s junk z x xn y yn,
  Forall (fun q => names (fst q) n) l -> flex_run N l (flex_init N n) = Ok s ->
  z < n -> x < n -> y < n ->
  0 < xn <= length (nth x (contents s) []) -> 0 < yn <= length (nth y (contents s) []) ->
  (z = x \/ z = y -> forall bz, nth_error (objs s) z = Some bz -> ~ regrows N bz (Nat.max xn yn + 1)) ->
  exists s', uadd_flex N junk s z x xn y yn = Ok s' /\
    changed (contents s) z (uadd_words (firstn xn (nth x (contents s) [])) (firstn yn (nth y (contents s) []))) (contents s').
Proof. exact uadd_flex_claim. Qed.
Print Assumptions C13_heap_uadd.
Example C13_heap_ex : exists s s', flex_run 1 (map (fun o => (o, bx_junk)) [Resize 0 1; Write 0 0 4294967295%Z; Resize 1 1; Write 1 0 1%Z]) (flex_init 1 2) = Ok s /\
  uadd_flex 1 bx_junk s 0 0 1 1 1 = Ok s' /\ contents s' = [[0; 1]; [1]]%Z.
Proof. eexists. eexists. split; [reflexivity|]. split; vm_compute; reflexivity. Qed.
(** x += y on a heap-allocated bignum whose block has no spare word reads freed memory, for every in-object size N (bigint.hpp:816-826: the comment "&x[0] and &y[0] will not change" is wrong). *)
Theorem C13_heap_inplace_growth_refuted : forall N,
  exists l s, Forall (fun q => names (fst q) 2) l /\ flex_run N l (flex_init N 2) = Ok s /\
  length (nth 0 (contents s) []) = N + 1 /\ forall junk, uadd_flex N junk s 0 0 (N + 1) 1 1 = UB.
Proof. exact uadd_flex_refute. Qed.
Print Assumptions C13_heap_inplace_growth_refuted.
