(** Property theorems C22 (the Jacobi symbol of bigint.hpp). *)
From Coq Require Import List ZArith Znumtheory Bool Lia.
From Verif Require Import Outcome WordsModel WordsSpec WordsProofs BigintModel BigintSpec BigintProofs BigintClaims NumModel Residues JacobiSpec JacobiProofs.
Import ListNotations.
Open Scope Z_scope.

(** C22: for an odd positive n and any m, jacobi(m, n) is the Jacobi symbol, the product of Legendre symbols over the prime factors of n. *)
Theorem C22_jacobi : forall c m n,
  valid c m -> valid c n -> 0 < value n -> Z.odd (value n) = true ->
  exists j, jacobi c m n = Ok j /\ jacobi_symbol (value m) (value n) j /\ (forall j', jacobi_symbol (value m) (value n) j' -> j' = j).
Proof. exact jacobi_claim. Qed.
Print Assumptions C22_jacobi.
(** C22: for an odd prime n the result is 0, 1, -1 exactly for multiples of n, non-zero squares, non-squares. *)
Theorem C22_prime : forall c m n,
  valid c m -> valid c n -> prime (value n) -> value n <> 2 ->
  exists j, jacobi c m n = Ok j /\ (j = 0 <-> (value n | value m)) /\ (j = 1 <-> (~ (value n | value m) /\ square_mod (value m) (value n))) /\
    (j = -1 <-> ~ square_mod (value m) (value n)).
Proof. exact jacobi_prime_claim. Qed.
Print Assumptions C22_prime.
Definition jx_c : cap := Flex 4.
Definition jx (k : Z) : bigint := of_int jx_c k.
Example C22_ex : valid jx_c (jx 1001) /\ valid jx_c (jx 9907) /\ Z.odd (value (jx 9907)) = true /\ 0 < value (jx 9907) /\
  jacobi jx_c (jx 1001) (jx 9907) = Ok (-1) /\ jacobi jx_c (jx 2) (jx 15) = Ok 1 /\ jacobi jx_c (jx 6) (jx 15) = Ok 0 /\
  jacobi jx_c (jx 2) (jx 7) = Ok 1 /\ jacobi jx_c (jx 3) (jx 7) = Ok (-1) /\ jacobi jx_c (jx (-1)) (jx 7) = Ok (-1).
Proof.
  split; [apply of_int_value; [exact I|reflexivity]|]. split; [apply of_int_value; [exact I|reflexivity]|]. repeat split; vm_compute; reflexivity.
Qed.
