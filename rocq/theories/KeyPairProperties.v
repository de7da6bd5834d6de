(** C60: key pairs of ECDSA.  The curve has exactly n points, every key on it has exactly one private key, and verification accepts exactly the signatures made with it. *)
From Coq Require Import List ZArith Znumtheory Bool Lia.
From Verif Require Import Outcome WordsModel WordsSpec UtilsSpec BigintModel BigintSpec NumModel FpModel FpSpec FpProofs FpClaims EcGroup ZpField EcModel EcSpec EcFeSpec EcCurveModel EcClaims EcLaws EcCurveSpec EcCodec EcCurveClaims EcdsaModel EcdsaSpec EcdsaProofs EcdsaClaims EcdsaExamples NamedModel NamedSpec GroupSpec KeyPairSpec KeyPair ActionProperties.
Import ListNotations.
Open Scope Z_scope.

(** C60: a usable curve has exactly n points. *)
Theorem C60_points : forall c C (Pp : prime (value (cu_p C))), usable c C Pp -> has_points (kval (cu_p C) Pp (cu_a C)) (kval (cu_p C) Pp (cu_b C)) (value (cu_n C)).
Proof. exact usable_points. Qed.
Print Assumptions C60_points.
(** C60: a key on the curve has exactly one private key d, and ecdsa_verify accepts exactly the pairs (r, s) that d produces with some nonce. *)
Theorem C60_holder : forall c C (Pp : prime (value (cu_p C))), usable c C Pp ->
  let A := kval (cu_p C) Pp (cu_a C) in let B := kval (cu_p C) Pp (cu_b C) in let G := aff_pt (cu_p C) Pp (cu_g C) in let N := value (cu_n C) in
  forall q, good2 c (cu_p C) q -> on_curve A B (aff_pt (cu_p C) Pp q) -> aff_pt (cu_p C) Pp q <> Inf ->
  exists d, private_key A G N d (aff_pt (cu_p C) Pp q) /\ (forall d', private_key A G N d' (aff_pt (cu_p C) Pp q) -> d' = d) /\
  forall msg r s, all_bytes msg -> fits_order C msg -> valid c r -> valid c s ->
    exists v, ecdsa_verify c C q msg r s = Ok v /\ (v = true <-> exists k, 1 <= k < N /\ signature (coord (cu_p C) Pp) A G N d k (leftmost (bitlen N) msg) (value r) (value s)).
Proof. exact key_holder. Qed.
Print Assumptions C60_holder.
(** C60: the nonce of a signature is unique. *)
Theorem C60_nonce : forall c C (Pp : prime (value (cu_p C))), usable c C Pp ->
  let A := kval (cu_p C) Pp (cu_a C) in let G := aff_pt (cu_p C) Pp (cu_g C) in let N := value (cu_n C) in
  forall d k k' e r s, 1 <= k < N -> 1 <= k' < N -> signature (coord (cu_p C) Pp) A G N d k e r s -> signature (coord (cu_p C) Pp) A G N d k' e r s -> k = k'.
Proof. exact nonce_unique. Qed.
Print Assumptions C60_nonce.
(** C60: generate_point reaches every key on the curve. *)
Theorem C60_generate : forall c C (Pp : prime (value (cu_p C))), usable c C Pp ->
  forall q, good2 c (cu_p C) q -> on_curve (kval (cu_p C) Pp (cu_a C)) (kval (cu_p C) Pp (cu_b C)) (aff_pt (cu_p C) Pp q) -> aff_pt (cu_p C) Pp q <> Inf ->
  exists d R, valid c d /\ generate_point c C d = Ok R /\ good2 c (cu_p C) R /\ aff_eqb (fe_ops c (cu_p C)) R q = true.
Proof. exact generate_all. Qed.
Print Assumptions C60_generate.
(** C60: the same for the named curves, with no hypothesis on the curve. *)
Theorem C60_named : forall wasm m C (Pp : prime (value (cu_p C))) q, In m named_curves -> named_curve wasm m = Ok C ->
  let c := named_cap wasm m in let A := kval (cu_p C) Pp (cu_a C) in let B := kval (cu_p C) Pp (cu_b C) in let G := aff_pt (cu_p C) Pp (cu_g C) in let N := hexval (pm_n m) in
  has_points A B N /\
  (good2 c (cu_p C) q -> on_curve A B (aff_pt (cu_p C) Pp q) -> aff_pt (cu_p C) Pp q <> Inf ->
   exists d, private_key A G N d (aff_pt (cu_p C) Pp q) /\ (forall d', private_key A G N d' (aff_pt (cu_p C) Pp q) -> d' = d) /\
   forall msg r s, all_bytes msg -> digest_fits m msg -> valid c r -> valid c s ->
    exists v, ecdsa_verify c C q msg r s = Ok v /\ (v = true <-> exists k, 1 <= k < N /\ signature (coord (cu_p C) Pp) A G N d k (leftmost (bitlen N) msg) (value r) (value s))).
Proof. exact named_holder. Qed.
Print Assumptions C60_named.
(** the curve of 223 points over the field of 251 elements: the key (60, 57) has the private key 10, and (18, 190) is its signature with the nonce 2 *)
Example C60_ex : usable ex_c E251 prime_251 /\ good2 ex_c (cu_p E251) (q251 60 57) /\
  private_key (kval (cu_p E251) prime_251 (cu_a E251)) (aff_pt (cu_p E251) prime_251 (cu_g E251)) (value (cu_n E251)) 10 (aff_pt (cu_p E251) prime_251 (q251 60 57)) /\
  signature (coord (cu_p E251) prime_251) (kval (cu_p E251) prime_251 (cu_a E251)) (aff_pt (cu_p E251) prime_251 (cu_g E251)) (value (cu_n E251)) 10 2 (leftmost (bitlen (value (cu_n E251))) [200; 17]) 18 190 /\
  ecdsa_verify ex_c E251 (q251 60 57) [200; 17] (of_int ex_c 18) (of_int ex_c 190) = Ok true /\ ecdsa_verify ex_c E251 (q251 60 57) [200; 17] (of_int ex_c 18) (of_int ex_c 191) = Ok false /\
  In secp521r1 named_curves /\ digest_fits secp521r1 (repeat 255 64).
Proof.
  split; [exact E251_usable|]. split; [apply q251_good; lia|]. split; [split; [vm_compute; split; [discriminate|reflexivity]|vm_compute; reflexivity]|].
  split; [|split; [vm_compute; reflexivity|split; [vm_compute; reflexivity|split; [cbn; tauto|right; vm_compute; lia]]]].
  split; [vm_compute; split; [discriminate|reflexivity]|]. split; [vm_compute; split; [discriminate|reflexivity]|]. split; [vm_compute; reflexivity|]. eexists. eexists. split; [vm_compute; reflexivity|vm_compute; reflexivity].
Qed.
