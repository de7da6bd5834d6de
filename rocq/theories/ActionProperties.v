(** C52, C56: the table of ECDSA actions, and recovery of keys: exactness of ecdsa_recover and the actions that recover and compare. *)
From Coq Require Import List ZArith Znumtheory Bool Lia.
From Verif Require Import Outcome UtilsModel UtilsSpec WordsModel WordsSpec BigintModel BigintSpec BigintProofs BigintBits BigintClaims NumModel FpModel FpSpec FpProofs FpClaims EcGroup EcGroupProofs ZpField EcModel EcSpec EcScalar EcFeSpec EcCurveModel EcClaims EcLaws EcCurveSpec EcCodec EcCurveClaims EcdsaModel EcdsaSpec EcdsaProofs EcdsaClaims EcdsaExamples NamedModel NamedSpec CurveVerify EcKey GroupSpec NamedGroup ContractModel ContractSpec ContractNamed RecoverSpec RecoverModel RecoverExact.
Import ListNotations.
Open Scope Z_scope.

(** C52: there is one ECDSA action per named curve, and each uses the shortest hash function with at least as many bits as the order, SHA-512 for secp521r1. *)
Theorem C52_hashes : map fst ecdsa_actions = named_curves /\ forall m k, In (m, k) ecdsa_actions -> k = matching_hash (bitlen (hexval (pm_n m))).
Proof. exact action_table. Qed.
Print Assumptions C52_hashes.
Example C52_hashes_ex : In (brainpoolP320r1, SHA384) ecdsa_actions /\ bitlen (hexval (pm_n brainpoolP320r1)) = 320.
Proof. split; [cbn; tauto|vm_compute; reflexivity]. Qed.

(** C56: for all integers r, s, every digest and every identifier ecdsa_recover returns a point of the curve; the point is not the identity exactly when SEC 1 recovers a key, and then it is that key. *)
Theorem C56_exact : forall c C (Pp : prime (value (cu_p C))), usable c C Pp -> forall msg r s id v, all_bytes msg -> fits_order C msg -> valid c r -> valid c s -> 0 <= id ->
  exists Q, ecdsa_recover c C msg r s id v = Ok Q /\ good2 c (cu_p C) Q /\ on_curve (kval (cu_p C) Pp (cu_a C)) (kval (cu_p C) Pp (cu_b C)) (aff_pt (cu_p C) Pp Q) /\
    forall X, X <> Inf -> (aff_pt (cu_p C) Pp Q = X <-> recovers (coord (cu_p C) Pp) (kval (cu_p C) Pp (cu_a C)) (kval (cu_p C) Pp (cu_b C)) (aff_pt (cu_p C) Pp (cu_g C)) (value (cu_n C)) id X (leftmost (bitlen (value (cu_n C))) msg) (value r) (value s)).
Proof. exact recover_exact. Qed.
Print Assumptions C56_exact.
(** C56: the same for every digest, with the integer the code takes from it: the leading bytes, or 0 if they exceed 2n. *)
Theorem C56_any_digest : forall c C (Pp : prime (value (cu_p C))), usable c C Pp -> forall msg r s id v, all_bytes msg -> valid c r -> valid c s -> 0 <= id ->
  exists Q, ecdsa_recover c C msg r s id v = Ok Q /\ good2 c (cu_p C) Q /\ on_curve (kval (cu_p C) Pp (cu_a C)) (kval (cu_p C) Pp (cu_b C)) (aff_pt (cu_p C) Pp Q) /\
    forall X, X <> Inf -> (aff_pt (cu_p C) Pp Q = X <-> recovers (coord (cu_p C) Pp) (kval (cu_p C) Pp (cu_a C)) (kval (cu_p C) Pp (cu_b C)) (aff_pt (cu_p C) Pp (cu_g C)) (value (cu_n C)) id X
      (if leftmost (8 * byte_length (cu_n C)) msg <=? 2 * value (cu_n C) then leftmost (8 * byte_length (cu_n C)) msg else 0) (value r) (value s)).
Proof. exact recover_any. Qed.
Print Assumptions C56_any_digest.
(** C56: the same on the eight named curves. *)
Theorem C56_named_any : forall wasm m C, In m named_curves -> named_curve wasm m = Ok C -> forall Pp : prime (value (cu_p C)), forall msg r s id v, all_bytes msg -> valid (named_cap wasm m) r -> valid (named_cap wasm m) s -> 0 <= id ->
  exists Q, ecdsa_recover (named_cap wasm m) C msg r s id v = Ok Q /\ good2 (named_cap wasm m) (cu_p C) Q /\ on_curve (kval (cu_p C) Pp (cu_a C)) (kval (cu_p C) Pp (cu_b C)) (aff_pt (cu_p C) Pp Q) /\
    forall X, X <> Inf -> (aff_pt (cu_p C) Pp Q = X <-> recovers (coord (cu_p C) Pp) (kval (cu_p C) Pp (cu_a C)) (kval (cu_p C) Pp (cu_b C)) (aff_pt (cu_p C) Pp (cu_g C)) (value (cu_n C)) id X
      (if leftmost (8 * byte_length (cu_n C)) msg <=? 2 * value (cu_n C) then leftmost (8 * byte_length (cu_n C)) msg else 0) (value r) (value s)).
Proof. exact named_recover_any. Qed.
Print Assumptions C56_named_any.
(** on secp521r1 both branches occur with digests of 66 bytes *)
Example C56_any_ex : In secp521r1 named_curves /\ 2 * hexval (pm_n secp521r1) < leftmost (8 * 66) (repeat 255 66) /\ hexval (pm_n secp521r1) < leftmost (8 * 66) (2 :: repeat 255 65) <= 2 * hexval (pm_n secp521r1) /\
  bitlen (hexval (pm_n secp521r1)) = 521.
Proof. split; [cbn; tauto|]. split; [vm_compute; reflexivity|]. split; [split; [vm_compute; reflexivity|vm_compute; discriminate]|vm_compute; reflexivity]. Qed.
(** C56: a key and a signature determine the identifier. *)
Theorem C56_unique_id : forall c C (Pp : prime (value (cu_p C))), usable c C Pp -> forall id id' X e r s, recovers (coord (cu_p C) Pp) (kval (cu_p C) Pp (cu_a C)) (kval (cu_p C) Pp (cu_b C)) (aff_pt (cu_p C) Pp (cu_g C)) (value (cu_n C)) id X e r s -> recovers (coord (cu_p C) Pp) (kval (cu_p C) Pp (cu_a C)) (kval (cu_p C) Pp (cu_b C)) (aff_pt (cu_p C) Pp (cu_g C)) (value (cu_n C)) id' X e r s -> id = id'.
Proof. exact id_unique. Qed.
Print Assumptions C56_unique_id.
(** C56: a key on the curve accepts a signature exactly when some identifier recovers it. *)
Theorem C56_accepts : forall c C (Pp : prime (value (cu_p C))), usable c C Pp -> forall msg r s q, all_bytes msg -> fits_order C msg -> valid c r -> valid c s -> good2 c (cu_p C) q -> on_curve (kval (cu_p C) Pp (cu_a C)) (kval (cu_p C) Pp (cu_b C)) (aff_pt (cu_p C) Pp q) -> aff_pt (cu_p C) Pp q <> Inf ->
  (accepts (coord (cu_p C) Pp) (kval (cu_p C) Pp (cu_a C)) (aff_pt (cu_p C) Pp (cu_g C)) (value (cu_n C)) (aff_pt (cu_p C) Pp q) (leftmost (bitlen (value (cu_n C))) msg) (value r) (value s) <-> exists id, recovers (coord (cu_p C) Pp) (kval (cu_p C) Pp (cu_a C)) (kval (cu_p C) Pp (cu_b C)) (aff_pt (cu_p C) Pp (cu_g C)) (value (cu_n C)) id (aff_pt (cu_p C) Pp q) (leftmost (bitlen (value (cu_n C))) msg) (value r) (value s)).
Proof. exact accepts_recovers. Qed.
Print Assumptions C56_accepts.
(** C56: recovering and comparing succeeds or aborts; for a key other than the identity it succeeds exactly when the identifier recovers that key, for the identity exactly when no key is recovered. *)
Theorem C56_check : forall c C (Pp : prime (value (cu_p C))), usable c C Pp -> forall msg r s id v q, all_bytes msg -> fits_order C msg -> valid c r -> valid c s -> 0 <= id -> good2 c (cu_p C) q ->
  (recover_check c C msg r s id v q = Ok tt \/ recover_check c C msg r s id v q = Abort) /\
  (aff_pt (cu_p C) Pp q <> Inf -> (recover_check c C msg r s id v q = Ok tt <-> recovers (coord (cu_p C) Pp) (kval (cu_p C) Pp (cu_a C)) (kval (cu_p C) Pp (cu_b C)) (aff_pt (cu_p C) Pp (cu_g C)) (value (cu_n C)) id (aff_pt (cu_p C) Pp q) (leftmost (bitlen (value (cu_n C))) msg) (value r) (value s))) /\
  (aff_pt (cu_p C) Pp q = Inf -> (recover_check c C msg r s id v q = Ok tt <-> forall X, X <> Inf -> ~ recovers (coord (cu_p C) Pp) (kval (cu_p C) Pp (cu_a C)) (kval (cu_p C) Pp (cu_b C)) (aff_pt (cu_p C) Pp (cu_g C)) (value (cu_n C)) id X (leftmost (bitlen (value (cu_n C))) msg) (value r) (value s))).
Proof. exact recover_check_exact. Qed.
Print Assumptions C56_check.
(** C56: for a key on the curve other than the identity, ecdsa_verify accepts exactly when recovering and comparing succeeds for one of the four identifiers, and it succeeds for at most one. *)
Theorem C56_check_verifies : forall c C (Pp : prime (value (cu_p C))), usable c C Pp -> forall msg r s v q, all_bytes msg -> fits_order C msg -> valid c r -> valid c s -> good2 c (cu_p C) q -> on_curve (kval (cu_p C) Pp (cu_a C)) (kval (cu_p C) Pp (cu_b C)) (aff_pt (cu_p C) Pp q) -> aff_is_identity (fe_ops c (cu_p C)) q = false ->
  (ecdsa_verify c C q msg r s = Ok true <-> exists id, 0 <= id <= 3 /\ recover_check c C msg r s id v q = Ok tt) /\
  (forall id id', 0 <= id -> 0 <= id' -> recover_check c C msg r s id v q = Ok tt -> recover_check c C msg r s id' v q = Ok tt -> id = id').
Proof. exact recover_check_verifies. Qed.
Print Assumptions C56_check_verifies.
(** C56, refuted for the identity as key: that recovering and comparing succeeds only if the signature verifies.  A signature out of range recovers the identity, which equals the identity given as key. *)
Theorem C56_identity_refuted : forall c C (Pp : prime (value (cu_p C))) msg r s id v, usable c C Pp -> valid c r -> valid c s -> ~ 1 <= value r < (value (cu_n C)) ->
  recover_check c C msg r s id v None = Ok tt /\ ecdsa_verify c C None msg r s = Ok false.
Proof. exact recover_check_identity. Qed.
Print Assumptions C56_identity_refuted.
(** C56: exactness of recovery on the eight named curves, with no hypothesis on the curve. *)
Theorem C56_named : forall wasm m C, In m named_curves -> named_curve wasm m = Ok C -> forall Pp : prime (value (cu_p C)), forall msg r s id v, all_bytes msg -> digest_fits m msg -> valid (named_cap wasm m) r -> valid (named_cap wasm m) s -> 0 <= id ->
  exists Q, ecdsa_recover (named_cap wasm m) C msg r s id v = Ok Q /\ good2 (named_cap wasm m) (cu_p C) Q /\ on_curve (kval (cu_p C) Pp (cu_a C)) (kval (cu_p C) Pp (cu_b C)) (aff_pt (cu_p C) Pp Q) /\
    forall X, X <> Inf -> (aff_pt (cu_p C) Pp Q = X <-> recovers (coord (cu_p C) Pp) (kval (cu_p C) Pp (cu_a C)) (kval (cu_p C) Pp (cu_b C)) (aff_pt (cu_p C) Pp (cu_g C)) (value (cu_n C)) id X (leftmost (bitlen (value (cu_n C))) msg) (value r) (value s)).
Proof. exact named_recover_exact. Qed.
Print Assumptions C56_named.
(** C56: recovering and comparing against verifying on the named curves. *)
Theorem C56_named_check : forall wasm m C, In m named_curves -> named_curve wasm m = Ok C -> forall Pp : prime (value (cu_p C)), forall msg r s v q, all_bytes msg -> digest_fits m msg -> valid (named_cap wasm m) r -> valid (named_cap wasm m) s -> good2 (named_cap wasm m) (cu_p C) q -> on_curve (kval (cu_p C) Pp (cu_a C)) (kval (cu_p C) Pp (cu_b C)) (aff_pt (cu_p C) Pp q) -> aff_is_identity (fe_ops (named_cap wasm m) (cu_p C)) q = false ->
  (ecdsa_verify (named_cap wasm m) C q msg r s = Ok true <-> exists id, 0 <= id <= 3 /\ recover_check (named_cap wasm m) C msg r s id v q = Ok tt) /\
  (forall id id', 0 <= id -> 0 <= id' -> recover_check (named_cap wasm m) C msg r s id v q = Ok tt -> recover_check (named_cap wasm m) C msg r s id' v q = Ok tt -> id = id').
Proof. exact named_recover_check. Qed.
Print Assumptions C56_named_check.
Lemma E251_usable : usable ex_c E251 prime_251.
Proof.
  split; [exact E251_ok|]. split; [vm_compute; discriminate|]. split; [vm_compute; split; [reflexivity|discriminate]|]. split; [vm_compute; split; reflexivity|]. split; [vm_compute; reflexivity|].
  split; [apply finite_neq; vm_compute; reflexivity|]. split; [|exact E251_all].
  assert (K : forallb (fun x => negb (rhs E251 (Z.of_nat x) mod 251 =? 0)) (seq 0 251) = true) by (vm_compute; reflexivity). rewrite forallb_forall in K.
  intros x S. unfold satisfies in S. change (value (cu_p E251)) with 251 in S. assert (E : rhs E251 x mod 251 = rhs E251 (x mod 251) mod 251).
  { unfold rhs. pose proof (Z.div_mod x 251 ltac:(lia)) as D. set (t := x mod 251) in *. set (q := x / 251) in *. set (a := value (cu_a E251)). set (b := value (cu_b E251)).
    rewrite D. replace (_ + b) with (t * t * t + a * t + b + (251 * 251 * q * q * q + 3 * 251 * q * q * t + 3 * q * t * t + a * q) * 251) at 1 by ring. apply Z.mod_add. lia. }
  rewrite E in S. pose proof (Z.mod_pos_bound x 251 ltac:(lia)) as R. specialize (K (Z.to_nat (x mod 251)) ltac:(apply in_seq; lia)). rewrite Z2Nat.id in K by lia. rewrite <- S in K. discriminate.
Qed.
(** the key (60, 57) and the signature (18, 190) of the digest [200; 17]: exactly one identifier recovers the key *)
Example C56_ex : usable ex_c E251 prime_251 /\ fits_order E251 [200; 17] /\ ecdsa_verify ex_c E251 (q251 60 57) [200; 17] (of_int ex_c 18) (of_int ex_c 190) = Ok true /\
  map (fun id => recover_check ex_c E251 [200; 17] (of_int ex_c 18) (of_int ex_c 190) id true (q251 60 57)) [0; 1; 2; 3; 4] = [Abort; Abort; Abort; Ok tt; Abort] /\
  recover_check ex_c E251 [200; 17] (of_int ex_c 0) (of_int ex_c 190) 0 true None = Ok tt /\ In secp521r1 named_curves /\ digest_fits secp521r1 (repeat 255 64).
Proof.
  split; [exact E251_usable|]. split; [left; reflexivity|]. split; [vm_compute; reflexivity|]. split; [vm_compute; reflexivity|]. split; [vm_compute; reflexivity|]. split; [cbn; tauto|]. right. vm_compute. lia.
Qed.
