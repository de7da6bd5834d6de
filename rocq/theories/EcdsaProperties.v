(** Property theorems C39-C42 and C46 (ecdsa.hpp). *)
From Coq Require Import List ZArith Znumtheory Bool Lia.
From Verif Require Import Outcome WordsModel WordsSpec UtilsSpec BigintModel BigintSpec BigintProofs BigintClaims NumModel FpModel FpSpec FpClaims EcGroup EcGroupProofs ZpField EcModel EcSpec EcScalar EcFeSpec EcCurveModel EcClaims EcLaws EcCurveSpec EcCodec EcCurveClaims EcdsaModel EcdsaSpec EcdsaProofs EcdsaRecover EcdsaClaims EcdsaLong EcdsaExamples.
Import ListNotations.
Open Scope Z_scope.

(** C39: verification returns, and returns true exactly for the signatures the standard accepts (p <= 2n; order of whole bytes or digest not longer than the order). *)
Theorem C39_verify : forall c C (Pp : prime (value (cu_p C))), ecdsa_curve c C Pp -> forall q msg r s,
  (value (cu_p C)) <= 2 * (value (cu_n C)) -> good2 c (cu_p C) q -> on_curve (kval (cu_p C) Pp (cu_a C)) (kval (cu_p C) Pp (cu_b C)) (aff_pt (cu_p C) Pp q) -> all_bytes msg -> fits_order C msg -> valid c r -> valid c s ->
  exists v, ecdsa_verify c C q msg r s = Ok v /\ (v = true <-> accepts (coord (cu_p C) Pp) (kval (cu_p C) Pp (cu_a C)) (aff_pt (cu_p C) Pp (cu_g C)) (value (cu_n C)) (aff_pt (cu_p C) Pp q) (leftmost (bitlen (value (cu_n C))) msg) (value r) (value s)).
Proof. exact verify_std. Qed.
Print Assumptions C39_verify.
(** C39: assert_ecdsa aborts exactly for the signatures the standard does not accept. *)
Theorem C39_assert : forall c C (Pp : prime (value (cu_p C))), ecdsa_curve c C Pp -> forall q msg r s,
  (value (cu_p C)) <= 2 * (value (cu_n C)) -> good2 c (cu_p C) q -> on_curve (kval (cu_p C) Pp (cu_a C)) (kval (cu_p C) Pp (cu_b C)) (aff_pt (cu_p C) Pp q) -> all_bytes msg -> fits_order C msg -> valid c r -> valid c s ->
  (accepts (coord (cu_p C) Pp) (kval (cu_p C) Pp (cu_a C)) (aff_pt (cu_p C) Pp (cu_g C)) (value (cu_n C)) (aff_pt (cu_p C) Pp q) (leftmost (bitlen (value (cu_n C))) msg) (value r) (value s) -> assert_ecdsa c C q msg r s = Ok tt) /\
  (~ accepts (coord (cu_p C) Pp) (kval (cu_p C) Pp (cu_a C)) (aff_pt (cu_p C) Pp (cu_g C)) (value (cu_n C)) (aff_pt (cu_p C) Pp q) (leftmost (bitlen (value (cu_n C))) msg) (value r) (value s) -> assert_ecdsa c C q msg r s = Abort).
Proof. exact assert_std. Qed.
Print Assumptions C39_assert.
(** C39: for any order and digest, with the digest cut to the byte length of the order. *)
Theorem C39_verify_bytes : forall c C (Pp : prime (value (cu_p C))), ecdsa_curve c C Pp -> forall q msg r s,
  (value (cu_p C)) <= 2 * (value (cu_n C)) -> good2 c (cu_p C) q -> on_curve (kval (cu_p C) Pp (cu_a C)) (kval (cu_p C) Pp (cu_b C)) (aff_pt (cu_p C) Pp q) -> all_bytes msg -> valid c r -> valid c s ->
  exists v, ecdsa_verify c C q msg r s = Ok v /\ (v = true <-> accepts (coord (cu_p C) Pp) (kval (cu_p C) Pp (cu_a C)) (aff_pt (cu_p C) Pp (cu_g C)) (value (cu_n C)) (aff_pt (cu_p C) Pp q) (leftmost (8 * byte_length (cu_n C)) msg) (value r) (value s)).
Proof. exact verify_bytes. Qed.
Print Assumptions C39_verify_bytes.
(** C39: a signature that is accepted satisfies the equation, whatever the sizes of p and n. *)
Theorem C39_sound : forall c C (Pp : prime (value (cu_p C))), ecdsa_curve c C Pp -> forall q msg r s,
  good2 c (cu_p C) q -> on_curve (kval (cu_p C) Pp (cu_a C)) (kval (cu_p C) Pp (cu_b C)) (aff_pt (cu_p C) Pp q) -> all_bytes msg -> valid c r -> valid c s -> ecdsa_verify c C q msg r s = Ok true ->
  accepts (coord (cu_p C) Pp) (kval (cu_p C) Pp (cu_a C)) (aff_pt (cu_p C) Pp (cu_g C)) (value (cu_n C)) (aff_pt (cu_p C) Pp q) (leftmost (8 * byte_length (cu_n C)) msg) (value r) (value s).
Proof. exact verify_sound. Qed.
Print Assumptions C39_sound.
(** C39: on a curve with p > 2n a signature the standard accepts can be rejected: the abscissa is reduced by subtracting n once. *)
Theorem C39_cofactor_refuted : exists c C (Pp : prime (value (cu_p C))) q msg r s, ecdsa_curve c C Pp /\ good2 c (cu_p C) q /\ on_c C Pp q /\ all_bytes msg /\ fits_order C msg /\ valid c r /\ valid c s /\
  std_accepts C Pp q msg r s /\ ecdsa_verify c C q msg r s = Ok false.
Proof. exact cofactor_refute. Qed.
Print Assumptions C39_cofactor_refuted.
(** C39, C42: with an order of 5 bits a signature the standard accepts is rejected, since whole bytes of the digest are taken. *)
Theorem C39_digest_refuted : exists c C (Pp : prime (value (cu_p C))) q msg r s, ecdsa_curve c C Pp /\ value (cu_p C) <= 2 * value (cu_n C) /\ good2 c (cu_p C) q /\ on_c C Pp q /\ all_bytes msg /\ valid c r /\ valid c s /\
  std_accepts C Pp q msg r s /\ ecdsa_verify c C q msg r s = Ok false /\
  exists e, digest_int c (cu_n C) msg = Ok e /\ value e mod value (cu_n C) <> leftmost (bitlen (value (cu_n C))) msg mod value (cu_n C).
Proof. exact digest_refute. Qed.
Print Assumptions C39_digest_refuted.
Example C39_ex : ecdsa_curve ex_c E251 prime_251 /\ value (cu_p E251) <= 2 * value (cu_n E251) /\ good2 ex_c (cu_p E251) (q251 60 57) /\
  on_curve (kval (cu_p E251) prime_251 (cu_a E251)) (kval (cu_p E251) prime_251 (cu_b E251)) (aff_pt (cu_p E251) prime_251 (q251 60 57)) /\ all_bytes [200; 17] /\ fits_order E251 [200; 17] /\
  ecdsa_verify ex_c E251 (q251 60 57) [200; 17] (of_int ex_c 18) (of_int ex_c 190) = Ok true /\ ecdsa_verify ex_c E251 (q251 60 57) [200; 17] (of_int ex_c 40) (of_int ex_c 120) = Ok true /\
  ecdsa_verify ex_c E251 (q251 60 57) [201; 17] (of_int ex_c 18) (of_int ex_c 190) = Ok false /\ ecdsa_verify ex_c E251 (q251 60 57) [200; 17] (of_int ex_c 18) (of_int ex_c 191) = Ok false.
Proof.
  split; [exact E251_ok|]. split; [vm_compute; discriminate|]. split; [apply q251_good; lia|]. split; [apply q251_on; lia|]. split; [repeat constructor; unfold is_byte; lia|]. split; [left; reflexivity|].
  vm_compute. repeat split.
Qed.
(** C40: when r or s is not in [1, n) verification is false and recovery returns the identity whatever the key and the digest (they do not even need to be well-formed), and assert_ecdsa aborts. *)
Theorem C40_rejected : forall c C q msg r s,
  valid c (cu_n C) -> valid c r -> valid c s ->
  ~ (1 <= value r < value (cu_n C) /\ 1 <= value s < value (cu_n C)) ->
  ecdsa_verify c C q msg r s = Ok false /\ (forall id v, ecdsa_recover c C msg r s id v = Ok None) /\ assert_ecdsa c C q msg r s = Abort.
Proof. exact reject_claim. Qed.
Print Assumptions C40_rejected.
(** C40: on any integers r, s verification returns: no abort, no division by zero. *)
Theorem C40_returns : forall c C (Pp : prime (value (cu_p C))), ecdsa_curve c C Pp -> forall q msg r s,
  good2 c (cu_p C) q -> on_curve (kval (cu_p C) Pp (cu_a C)) (kval (cu_p C) Pp (cu_b C)) (aff_pt (cu_p C) Pp q) -> all_bytes msg -> valid c r -> valid c s -> exists v, ecdsa_verify c C q msg r s = Ok v.
Proof. exact verify_total. Qed.
Print Assumptions C40_returns.
Example C40_ex : ecdsa_curve ex_c E251 prime_251 /\ valid ex_c (of_int ex_c (-18)) /\ ~ (1 <= value (of_int ex_c (-18)) < value (cu_n E251) /\ 1 <= value (of_int ex_c 190) < value (cu_n E251)) /\
  map (fun rs => ecdsa_verify ex_c E251 (q251 60 57) [200; 17] (of_int ex_c (fst rs)) (of_int ex_c (snd rs))) [(18, 190); (0, 190); (18, 0); (-18, 190); (241, 190); (18, 413); (223, 190)] = Ok true :: repeat (Ok false) 6.
Proof. split; [exact E251_ok|]. split; [apply (of_int_value ex_c); cbn; lia|]. split; [intros ((H & _) & _); vm_compute in H; apply H; reflexivity|]. vm_compute. reflexivity. Qed.
(** C41: recovery returns the identity or a key on the curve with which verification succeeds (r < p; without the order check, on curves where n kills every point). *)
Theorem C41_recovered_verifies : forall c C (Pp : prime (value (cu_p C))), ecdsa_curve c C Pp -> cu_p_minus_n C = op_sub c (cu_p C) (cu_n C) -> zmul (kval (cu_p C) Pp (cu_a C)) (value (cu_n C)) (aff_pt (cu_p C) Pp (cu_g C)) = Inf -> (value (cu_p C)) <= 2 * (value (cu_n C)) -> forall msg r s id v,
  all_bytes msg -> fits_order C msg -> valid c r -> valid c s -> 0 <= id -> value r < (value (cu_p C)) ->
  (v = true -> value (cu_b C) <> 0) -> (v = false -> forall X, on_curve (kval (cu_p C) Pp (cu_a C)) (kval (cu_p C) Pp (cu_b C)) X -> zmul (kval (cu_p C) Pp (cu_a C)) (value (cu_n C)) X = Inf) ->
  exists Q, ecdsa_recover c C msg r s id v = Ok Q /\ good2 c (cu_p C) Q /\ (aff_is_identity (fe_ops c (cu_p C)) Q = true \/ on_curve (kval (cu_p C) Pp (cu_a C)) (kval (cu_p C) Pp (cu_b C)) (aff_pt (cu_p C) Pp Q) /\ ecdsa_verify c C Q msg r s = Ok true).
Proof. exact recover_verify. Qed.
Print Assumptions C41_recovered_verifies.
(** C41: the key under which a signature verifies is recovered by one of the identifiers 0 to 3. *)
Theorem C41_key_recovered : forall c C (Pp : prime (value (cu_p C))), ecdsa_curve c C Pp -> cu_p_minus_n C = op_sub c (cu_p C) (cu_n C) -> zmul (kval (cu_p C) Pp (cu_a C)) (value (cu_n C)) (aff_pt (cu_p C) Pp (cu_g C)) = Inf -> (value (cu_p C)) <= 2 * (value (cu_n C)) -> forall msg r s v q,
  all_bytes msg -> fits_order C msg -> valid c r -> valid c s -> 2 < (value (cu_n C)) -> value r < (value (cu_p C)) -> good2 c (cu_p C) q ->
  (v = true -> value (cu_b C) <> 0) -> on_curve (kval (cu_p C) Pp (cu_a C)) (kval (cu_p C) Pp (cu_b C)) (aff_pt (cu_p C) Pp q) -> zmul (kval (cu_p C) Pp (cu_a C)) (value (cu_n C)) (aff_pt (cu_p C) Pp q) = Inf -> ecdsa_verify c C q msg r s = Ok true ->
  exists id Q, 0 <= id <= 3 /\ ecdsa_recover c C msg r s id v = Ok Q /\ good2 c (cu_p C) Q /\ raw_pt (cu_p C) Pp Q = aff_pt (cu_p C) Pp q.
Proof. exact recover_key. Qed.
Print Assumptions C41_key_recovered.
(** C41: with an order that does not fill its bytes and a digest above 2n a recovered key need not verify: n - e is negative. *)
Theorem C41_digest_refuted : exists c C (Pp : prime (value (cu_p C))) msg r s Q, ecdsa_curve c C Pp /\ value (cu_p C) <= 2 * value (cu_n C) /\ value (cu_b C) <> 0 /\ all_bytes msg /\ valid c r /\ valid c s /\
  value r < value (cu_p C) /\ cu_p_minus_n C = op_sub c (cu_p C) (cu_n C) /\
  ecdsa_recover c C msg r s 0 true = Ok Q /\ aff_is_identity (fe_ops c (cu_p C)) Q = false /\ ecdsa_verify c C Q msg r s = Ok false.
Proof. exact recover_digest_refute. Qed.
Print Assumptions C41_digest_refuted.
(** C41: a digest above 2n is recovered from as the empty digest is: the recovered key does not depend on it. *)
Theorem C41_long_digest : forall c C (Pp : prime (value (cu_p C))), ecdsa_curve c C Pp -> forall msg r s id v, all_bytes msg -> valid c r -> valid c s -> 2 * value (cu_n C) < leftmost (8 * byte_length (cu_n C)) msg ->
  ecdsa_recover c C msg r s id v = ecdsa_recover c C [] r s id v.
Proof. exact recover_long. Qed.
Print Assumptions C41_long_digest.
Example C41_long_ex : ecdsa_curve ex_c E17 prime_E17 /\ 2 * value (cu_n E17) < leftmost (8 * byte_length (cu_n E17)) [200] /\
  ecdsa_recover ex_c E17 [200] (of_int ex_c 6) (of_int ex_c 5) 0 true <> ecdsa_recover ex_c E17 [20] (of_int ex_c 6) (of_int ex_c 5) 0 true.
Proof. split; [exact E17_ok|]. split; [vm_compute; reflexivity|]. vm_compute. discriminate. Qed.
(** C41: with n > p and r >= p a recovered key need not verify: r is taken for an unreduced abscissa. *)
Theorem C41_range_refuted : exists c C (Pp : prime (value (cu_p C))) msg r s Q, ecdsa_curve c C Pp /\ value (cu_p C) <= 2 * value (cu_n C) /\ value (cu_b C) <> 0 /\ all_bytes msg /\ fits_order C msg /\ valid c r /\ valid c s /\
  value r < value (cu_n C) /\ cu_p_minus_n C = op_sub c (cu_p C) (cu_n C) /\
  ecdsa_recover c C msg r s 0 true = Ok Q /\ aff_is_identity (fe_ops c (cu_p C)) Q = false /\ ecdsa_verify c C Q msg r s = Ok false.
Proof. exact recover_range_refute. Qed.
Print Assumptions C41_range_refuted.
Example C41_ex : ecdsa_curve ex_c E251 prime_251 /\ value (cu_p E251) <= 2 * value (cu_n E251) /\ good2 ex_c (cu_p E251) (q251 60 57) /\
  on_curve (kval (cu_p E251) prime_251 (cu_a E251)) (kval (cu_p E251) prime_251 (cu_b E251)) (aff_pt (cu_p E251) prime_251 (q251 60 57)) /\ all_bytes [200; 17] /\ fits_order E251 [200; 17] /\ value (cu_b E251) <> 0 /\ zmul (kval (cu_p E251) prime_251 (cu_a E251)) (value (cu_n E251)) (aff_pt (cu_p E251) prime_251 (cu_g E251)) = Inf /\
  (forall X, on_curve (kval (cu_p E251) prime_251 (cu_a E251)) (kval (cu_p E251) prime_251 (cu_b E251)) X -> zmul (kval (cu_p E251) prime_251 (cu_a E251)) (value (cu_n E251)) X = Inf) /\
  cu_p_minus_n E251 = op_sub ex_c (cu_p E251) (cu_n E251) /\
  ecdsa_recover ex_c E251 [200; 17] (of_int ex_c 18) (of_int ex_c 190) 3 true = Ok (q251 60 57) /\ ecdsa_recover ex_c E251 [200; 17] (of_int ex_c 40) (of_int ex_c 120) 1 false = Ok (q251 60 57) /\
  ecdsa_recover ex_c E251 [200; 17] (of_int ex_c 40) (of_int ex_c 120) 3 false = Ok None /\ ecdsa_recover ex_c E251 [200; 17] (of_int ex_c 40) (of_int ex_c 120) 5 false = Ok None.
Proof.
  split; [exact E251_ok|]. split; [vm_compute; discriminate|]. split; [apply q251_good; lia|]. split; [apply q251_on; lia|]. split; [repeat constructor; unfold is_byte; lia|]. split; [left; reflexivity|].
  split; [discriminate|]. split; [exact E251_gen|]. split; [exact E251_all|]. split; [reflexivity|]. vm_compute. repeat split.
Qed.
(** C42: the message integer is, modulo the order, the leftmost min(bitlen n, 8 length) bits (order of whole bytes or digest not longer than the order); it is not reduced more than once. *)
(** C42: the message integer. *)
Theorem C42_bits : forall c n, modulus_ok c n -> forall msg,
  all_bytes msg -> bitlen (value n) mod 8 = 0 \/ 8 * Z.of_nat (length msg) <= bitlen (value n) ->
  exists e, digest_int c n msg = Ok e /\ valid c e /\ 0 <= value e <= value n /\ value e mod value n = leftmost (bitlen (value n)) msg mod value n /\
    (leftmost (bitlen (value n)) msg <= value n -> value e = leftmost (bitlen (value n)) msg).
Proof. exact digest_bits_claim. Qed.
Print Assumptions C42_bits.
(** C42: for any order, the leftmost bytes, as many as the order has. *)
Theorem C42_bytes : forall c n, modulus_ok c n -> forall msg,
  all_bytes msg ->
  exists e, digest_int c n msg = Ok e /\ valid c e /\ value e mod value n = leftmost (8 * byte_length n) msg mod value n /\ byte_length n = (bitlen (value n) + 7) / 8.
Proof. exact digest_bytes_claim. Qed.
Print Assumptions C42_bytes.
(** C42: an order of 5 bits: all bits of the first byte are taken. *)
Theorem C42_refuted : exists c C (Pp : prime (value (cu_p C))) q msg r s, ecdsa_curve c C Pp /\ value (cu_p C) <= 2 * value (cu_n C) /\ good2 c (cu_p C) q /\ on_c C Pp q /\ all_bytes msg /\ valid c r /\ valid c s /\
  std_accepts C Pp q msg r s /\ ecdsa_verify c C q msg r s = Ok false /\
  exists e, digest_int c (cu_n C) msg = Ok e /\ value e mod value (cu_n C) <> leftmost (bitlen (value (cu_n C))) msg mod value (cu_n C).
Proof. exact digest_refute. Qed.
Print Assumptions C42_refuted.
Example C42_ex : modulus_ok ex_c (of_int ex_c 223) /\ all_bytes [200; 17] /\ bitlen (value (of_int ex_c 223)) mod 8 = 0 /\ leftmost (bitlen (value (of_int ex_c 223))) [200; 17] = 200 /\
  leftmost (bitlen (value (of_int ex_c 223))) [] = 0 /\ leftmost 521 [1; 2] = 258 /\ digest_int ex_c (of_int ex_c 223) [200; 17] = Ok (of_int ex_c 200).
Proof. split; [apply small_mod; lia|]. split; [repeat constructor; unfold is_byte; lia|]. vm_compute. repeat split. Qed.
(** C46: a signature made as the standard says by the private key d with the nonce k verifies under the public key d G. *)
Theorem C46_signed_verifies : forall c C (Pp : prime (value (cu_p C))), ecdsa_curve c C Pp -> zmul (kval (cu_p C) Pp (cu_a C)) (value (cu_n C)) (aff_pt (cu_p C) Pp (cu_g C)) = Inf -> (value (cu_p C)) <= 2 * (value (cu_n C)) -> forall d k q msg r s,
  good2 c (cu_p C) q -> aff_pt (cu_p C) Pp q = zmul (kval (cu_p C) Pp (cu_a C)) d (aff_pt (cu_p C) Pp (cu_g C)) -> aff_is_identity (fe_ops c (cu_p C)) q = false -> all_bytes msg -> fits_order C msg -> valid c r -> valid c s ->
  signature (coord (cu_p C) Pp) (kval (cu_p C) Pp (cu_a C)) (aff_pt (cu_p C) Pp (cu_g C)) (value (cu_n C)) d k (leftmost (bitlen (value (cu_n C))) msg) (value r) (value s) -> ecdsa_verify c C q msg r s = Ok true.
Proof. exact sign_verify. Qed.
Print Assumptions C46_signed_verifies.
Example C46_ex : ecdsa_curve ex_c E251 prime_251 /\ value (cu_p E251) <= 2 * value (cu_n E251) /\ good2 ex_c (cu_p E251) (q251 60 57) /\
  on_curve (kval (cu_p E251) prime_251 (cu_a E251)) (kval (cu_p E251) prime_251 (cu_b E251)) (aff_pt (cu_p E251) prime_251 (q251 60 57)) /\ all_bytes [200; 17] /\ fits_order E251 [200; 17] /\ signature (coord (cu_p E251) prime_251) (kval (cu_p E251) prime_251 (cu_a E251)) (aff_pt (cu_p E251) prime_251 (cu_g E251)) (value (cu_n E251)) 10 2
    (leftmost (bitlen (value (cu_n E251))) [200; 17]) (value (of_int ex_c 18)) (value (of_int ex_c 190)).
Proof.
  split; [exact E251_ok|]. split; [vm_compute; discriminate|]. split; [apply q251_good; lia|]. split; [apply q251_on; lia|]. split; [repeat constructor; unfold is_byte; lia|]. split; [left; reflexivity|].
  split; [vm_compute; split; [discriminate|reflexivity]|]. split; [vm_compute; split; [discriminate|reflexivity]|]. split; [vm_compute; reflexivity|].
  eexists. eexists. split; [vm_compute; reflexivity|vm_compute; reflexivity].
Qed.
