(** C50, C51: the named curves: prime fields, prime orders, ECDSA and the codec without hypotheses on the curve. *)
From Coq Require Import List ZArith Znumtheory Bool Lia.
From Verif Require Import Outcome UtilsModel UtilsSpec WordsModel WordsSpec BigintModel BigintSpec BigintProofs BigintBits BigintClaims NumModel FpModel FpSpec FpProofs FpClaims EcGroup EcGroupProofs ZpField EcModel EcSpec EcScalar EcFeSpec EcCurveModel EcClaims EcLaws EcCurveSpec EcCodec EcCurveClaims EcdsaModel EcdsaSpec EcdsaProofs EcdsaClaims EcdsaExamples NamedModel NamedSpec CurveVerify EcKey Malleable GroupSpec NamedGroup.
Import ListNotations.
Open Scope Z_scope.

(** C50: the moduli and orders of the eight named curves are prime. *)
Theorem C50_primes : forall m, In m named_curves -> prime (hexval (pm_p m)) /\ prime (hexval (pm_n m)).
Proof. exact named_primes. Qed.
Print Assumptions C50_primes.
(** C50: over the field of p elements the curve is not singular, holds the generator, has no point of order two, and n kills every point. *)
Theorem C50_group : forall m (Pp : prime (hexval (pm_p m))), In m named_curves ->
  let a := zmk _ Pp (hexval (pm_a m)) : Zp _ Pp in let b := zmk _ Pp (hexval (pm_b m)) : Zp _ Pp in let G := Aff (zmk _ Pp (hexval (pm_gx m))) (zmk _ Pp (hexval (pm_gy m))) : point (Zp _ Pp) in
  disc a b <> 0%f /\ on_curve a b G /\ zmul a (hexval (pm_n m)) G = Inf /\ (forall x, ~ on_curve a b (Aff x 0%f)) /\ forall X, on_curve a b X -> zmul a (hexval (pm_n m)) X = Inf.
Proof. exact named_points. Qed.
Print Assumptions C50_group.
(** C50: the declared objects satisfy the hypotheses of all the theorems about curves ([usable] of GroupSpec.v). *)
Theorem C50_object : forall wasm m C, In m named_curves -> named_curve wasm m = Ok C -> prime (value (cu_p C)) /\ forall Pp : prime (value (cu_p C)), usable (named_cap wasm m) C Pp.
Proof. exact named_usable. Qed.
Print Assumptions C50_object.
(** C50: verify accepts all of them. *)
Theorem C50_verify : forall wasm m C, In m named_curves -> named_curve wasm m = Ok C -> prime (value (cu_p C)) -> curve_verify (named_cap wasm m) C = Ok true.
Proof. exact named_verify. Qed.
Print Assumptions C50_verify.
(** C50: generate_point returns x G, not the identity, for 0 < x < n and aborts otherwise. *)
Theorem C50_generate : forall wasm m C, In m named_curves -> named_curve wasm m = Ok C -> forall Pp : prime (value (cu_p C)), forall x, valid (named_cap wasm m) x ->
  (0 < value x < (value (cu_n C)) -> exists R, generate_point (named_cap wasm m) C x = Ok R /\ good2 (named_cap wasm m) (cu_p C) R /\ aff_pt (cu_p C) Pp R = zmul (kval (cu_p C) Pp (cu_a C)) (value x) (aff_pt (cu_p C) Pp (cu_g C)) /\ aff_is_identity (fe_ops (named_cap wasm m) (cu_p C)) R = false) /\
  (~ 0 < value x < (value (cu_n C)) -> generate_point (named_cap wasm m) C x = Abort).
Proof. exact named_generate. Qed.
Print Assumptions C50_generate.
Example C50_ex : In secp256k1 named_curves /\ hexval (pm_p secp256k1) = 2 ^ 256 - 2 ^ 32 - 977 /\ prime (2 ^ 256 - 2 ^ 32 - 977) /\ prime (2 ^ 521 - 1) /\
  exists C, named_curve false secp256k1 = Ok C /\ prime (value (cu_p C)) /\ valid (named_cap false secp256k1) (of_int (named_cap false secp256k1) 1) /\ 0 < value (of_int (named_cap false secp256k1) 1) < value (cu_n C) /\
  generate_point (named_cap false secp256k1) C (of_int (named_cap false secp256k1) 0) = Abort.
Proof.
  assert (I : In secp256k1 named_curves) by (do 4 right; left; reflexivity). split; [exact I|]. split; [vm_compute; reflexivity|].
  split; [exact (proj1 (named_primes secp256k1 I))|]. split; [exact (proj1 (named_primes secp521r1 ltac:(do 7 right; left; reflexivity)))|].
  destruct (named_holds false secp256k1 I) as (C & K & H). exists C. split; [exact K|]. split; [exact (proj1 (named_usable false secp256k1 C I K))|].
  destruct (of_int_ok (named_cap false secp256k1) 1 2 ltac:(vm_compute; lia) ltac:(lia) ltac:(lia)) as (V & _ & E). split; [exact V|]. split; [|reflexivity].
  rewrite E. pose proof (nN false secp256k1 C I K (proj1 (named_usable false secp256k1 C I K))). lia.
Qed.
(** C51: ECDSA verification on a named curve accepts exactly what the standard accepts, for every digest (of at most 65 bytes for secp521r1). *)
Theorem C51_verify : forall wasm m C, In m named_curves -> named_curve wasm m = Ok C -> forall Pp : prime (value (cu_p C)), forall q msg r s, good2 (named_cap wasm m) (cu_p C) q -> on_curve (kval (cu_p C) Pp (cu_a C)) (kval (cu_p C) Pp (cu_b C)) (aff_pt (cu_p C) Pp q) -> all_bytes msg -> digest_fits m msg -> valid (named_cap wasm m) r -> valid (named_cap wasm m) s ->
  exists v, ecdsa_verify (named_cap wasm m) C q msg r s = Ok v /\ (v = true <-> accepts (coord (cu_p C) Pp) (kval (cu_p C) Pp (cu_a C)) (aff_pt (cu_p C) Pp (cu_g C)) (value (cu_n C)) (aff_pt (cu_p C) Pp q) (leftmost (bitlen (value (cu_n C))) msg) (value r) (value s)).
Proof. exact named_ecdsa_verify. Qed.
Print Assumptions C51_verify.
(** C51: signatures made by a private key d in [1, n) verify under d G. *)
Theorem C51_signed : forall wasm m C, In m named_curves -> named_curve wasm m = Ok C -> forall Pp : prime (value (cu_p C)), forall d k q msg r s, good2 (named_cap wasm m) (cu_p C) q -> aff_pt (cu_p C) Pp q = zmul (kval (cu_p C) Pp (cu_a C)) d (aff_pt (cu_p C) Pp (cu_g C)) -> 0 < d < (value (cu_n C)) -> all_bytes msg -> digest_fits m msg -> valid (named_cap wasm m) r -> valid (named_cap wasm m) s ->
  signature (coord (cu_p C) Pp) (kval (cu_p C) Pp (cu_a C)) (aff_pt (cu_p C) Pp (cu_g C)) (value (cu_n C)) d k (leftmost (bitlen (value (cu_n C))) msg) (value r) (value s) -> ecdsa_verify (named_cap wasm m) C q msg r s = Ok true.
Proof. exact named_sign. Qed.
Print Assumptions C51_signed.
(** C51: a recovered key verifies the signature. *)
Theorem C51_recovered : forall wasm m C, In m named_curves -> named_curve wasm m = Ok C -> forall Pp : prime (value (cu_p C)), forall msg r s id v, all_bytes msg -> digest_fits m msg -> valid (named_cap wasm m) r -> valid (named_cap wasm m) s -> 0 <= id ->
  exists Q, ecdsa_recover (named_cap wasm m) C msg r s id v = Ok Q /\ good2 (named_cap wasm m) (cu_p C) Q /\ (aff_is_identity (fe_ops (named_cap wasm m) (cu_p C)) Q = true \/ on_curve (kval (cu_p C) Pp (cu_a C)) (kval (cu_p C) Pp (cu_b C)) (aff_pt (cu_p C) Pp Q) /\ ecdsa_verify (named_cap wasm m) C Q msg r s = Ok true).
Proof. exact named_recover. Qed.
Print Assumptions C51_recovered.
(** C51: every key that verifies a signature is recovered by one of the four recovery ids. *)
Theorem C51_recoverable : forall wasm m C, In m named_curves -> named_curve wasm m = Ok C -> forall Pp : prime (value (cu_p C)), forall msg r s v q, all_bytes msg -> digest_fits m msg -> valid (named_cap wasm m) r -> valid (named_cap wasm m) s -> good2 (named_cap wasm m) (cu_p C) q -> on_curve (kval (cu_p C) Pp (cu_a C)) (kval (cu_p C) Pp (cu_b C)) (aff_pt (cu_p C) Pp q) -> ecdsa_verify (named_cap wasm m) C q msg r s = Ok true ->
  exists id Q, 0 <= id <= 3 /\ ecdsa_recover (named_cap wasm m) C msg r s id v = Ok Q /\ good2 (named_cap wasm m) (cu_p C) Q /\ raw_pt (cu_p C) Pp Q = aff_pt (cu_p C) Pp q.
Proof. exact named_recover_key. Qed.
Print Assumptions C51_recoverable.
(** C51: every point of a named curve survives encoding, compressed or not, and decoding. *)
Theorem C51_codec : forall wasm m C, In m named_curves -> named_curve wasm m = Ok C -> forall Pp : prime (value (cu_p C)), forall Q compress, good2 (named_cap wasm m) (cu_p C) Q -> on_curve (kval (cu_p C) Pp (cu_a C)) (kval (cu_p C) Pp (cu_b C)) (aff_pt (cu_p C) Pp Q) ->
  exists R, decode_point (named_cap wasm m) C (encode_point (named_cap wasm m) C Q compress) = Ok R /\ good2 (named_cap wasm m) (cu_p C) R /\ aff_eqb (fe_ops (named_cap wasm m) (cu_p C)) R Q = true.
Proof. exact named_codec. Qed.
Print Assumptions C51_codec.
(** C51: decompression fails exactly on the numbers that are no abscissa and otherwise gives the point of the requested parity. *)
Theorem C51_decompress : forall wasm m C, In m named_curves -> named_curve wasm m = Ok C -> forall Pp : prime (value (cu_p C)), forall x odd v, reduced (named_cap wasm m) (cu_p C) x -> exists R, decompress_point (named_cap wasm m) C x odd v = Ok R /\ good2 (named_cap wasm m) (cu_p C) R /\ (R = None <-> ~ abscissa C (value x)) /\
    (forall u y, R = Some (u, y) -> value (fv u) = value x /\ satisfies C (value x) (value (fv y)) /\ Z.odd (value (fv y)) = odd).
Proof. exact named_decompress. Qed.
Print Assumptions C51_decompress.
(** C51: make_point with verification accepts exactly the reduced coordinates that satisfy the equation. *)
Theorem C51_make_point : forall wasm m C, In m named_curves -> named_curve wasm m = Ok C -> forall Pp : prime (value (cu_p C)), forall x y, valid (named_cap wasm m) x -> valid (named_cap wasm m) y ->
  let Q := Some (mkfe x (Some (cu_p C)), mkfe y (Some (cu_p C))) in
  let fine := 0 <= value x < value (cu_p C) /\ 0 <= value y < value (cu_p C) /\ satisfies C (value x) (value y) in
  (fine -> make_point (named_cap wasm m) C x y true = Ok Q /\ good2 (named_cap wasm m) (cu_p C) Q /\ on_curve (kval (cu_p C) Pp (cu_a C)) (kval (cu_p C) Pp (cu_b C)) (aff_pt (cu_p C) Pp Q)) /\ (~ fine -> make_point (named_cap wasm m) C x y true = Abort).
Proof. exact named_make_point. Qed.
Print Assumptions C51_make_point.
(** on secp256k1, the key G (private scalar 1), the digest 0x0102, the nonce 1: the signature (x_G, x_G + 258) verifies. *)
Example C51_ex : exists C x y, named_curve false secp256k1 = Ok C /\ cu_g C = Some (x, y) /\ value (fv x) = hexval (pm_gx secp256k1) /\
  ecdsa_verify (named_cap false secp256k1) C (cu_g C) [1; 2] (fv x) (op_add (named_cap false secp256k1) (fv x) (of_int (named_cap false secp256k1) 258)) = Ok true.
Proof.
  assert (I : In secp256k1 named_curves) by (do 4 right; left; reflexivity). destruct (named_holds false secp256k1 I) as (C & K & H).
  destruct H as (_ & Ep & _ & _ & _ & _ & (x & y & Eg & Fx & Ex & Fy & Ey) & _ & En & _). exists C, x, y. split; [exact K|]. split; [exact Eg|]. split; [exact Ex|].
  destruct (named_usable false secp256k1 C I K) as (Pp & _). pose proof (nEC false secp256k1 C I K Pp) as EC. pose proof (nN false secp256k1 C I K Pp) as HN. pose proof (nG0 false secp256k1 C I K Pp) as G0.
  pose proof (eCO _ C Pp EC) as (Mp & _). set (c := named_cap false secp256k1) in *. destruct (of_int_ok c 258 259 ltac:(vm_compute; lia) ltac:(lia) ltac:(lia)) as (V & _ & E).
  assert (R258 : reduced c (cu_p C) (of_int c 258)) by (split; [exact V|]; rewrite E, Ep; vm_compute; split; [discriminate|reflexivity]).
  destruct (op_add_val c (cu_p C) Mp (fv x) (of_int c 258) ltac:(apply Fx) V ltac:(apply (red_size c (cu_p C) Mp), Fx) ltac:(apply (red_size c (cu_p C) Mp), R258)) as (VA & EA).
  assert (EG : aff_pt (cu_p C) Pp (cu_g C) = Aff (fval (cu_p C) Pp x) (fval (cu_p C) Pp y)).
  { rewrite Eg in *. unfold aff_pt in *. cbn [option_map fst snd abs_aff] in *. destruct (_ && _); [exfalso; apply G0; reflexivity|reflexivity]. }
  apply (named_sign false secp256k1 C I K Pp 1 1); [exact (eGg _ C Pp EC)|rewrite zmul_1; reflexivity|lia|repeat constructor; unfold is_byte; lia|left; discriminate|apply Fx|exact VA|].
  rewrite EA, E, En, Ex. split; [vm_compute; split; [discriminate|reflexivity]|]. split; [vm_compute; split; [discriminate|reflexivity]|]. split; [vm_compute; reflexivity|].
  exists (fval (cu_p C) Pp x), (fval (cu_p C) Pp y). rewrite zmul_1. split; [exact EG|]. unfold coord, fval. rewrite zval_mk, Ex, Ep. vm_compute. reflexivity.
Qed.
