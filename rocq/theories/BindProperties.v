(** C75: what an accepted ECDSA signature binds. *)
From Coq Require Import List ZArith Znumtheory Bool Lia.
From Verif Require Import Outcome WordsModel WordsSpec UtilsSpec BigintModel BigintSpec NumModel FpModel FpSpec FpProofs FpClaims EcGroup ZpField EcModel EcSpec EcFeSpec EcCurveModel EcClaims EcLaws EcCurveSpec EcCodec EcCurveClaims EcdsaModel EcdsaSpec EcdsaProofs EcdsaClaims EcdsaExamples NamedModel NamedSpec GroupSpec KeyPairSpec KeyPair ActionProperties BindProofs.
Import ListNotations.
Open Scope Z_scope.

(** C75: for one key, message and r, when r is the abscissa of no second point (r + n >= p), s and n - s are the only values accepted. *)
Theorem C75_s : forall c C (Pp : prime (value (cu_p C))), usable c C Pp -> forall q, good2 c (cu_p C) q -> on_curve (kval (cu_p C) Pp (cu_a C)) (kval (cu_p C) Pp (cu_b C)) (aff_pt (cu_p C) Pp q) -> aff_pt (cu_p C) Pp q <> Inf ->
  forall msg r s s', all_bytes msg -> fits_order C msg -> valid c r -> valid c s -> valid c s' -> value (cu_p C) <= value r + value (cu_n C) ->
  ecdsa_verify c C q msg r s = Ok true -> ecdsa_verify c C q msg r s' = Ok true -> value s' = value s \/ value s' = value (cu_n C) - value s.
Proof. exact s_claim. Qed.
Print Assumptions C75_s.
(** C75: for any r at most four values of s are accepted. *)
Theorem C75_s_four : forall c C (Pp : prime (value (cu_p C))), usable c C Pp -> forall q, good2 c (cu_p C) q -> on_curve (kval (cu_p C) Pp (cu_a C)) (kval (cu_p C) Pp (cu_b C)) (aff_pt (cu_p C) Pp q) -> aff_pt (cu_p C) Pp q <> Inf ->
  forall msg r l, all_bytes msg -> fits_order C msg -> valid c r -> NoDup (map value l) -> (forall s, In s l -> valid c s /\ ecdsa_verify c C q msg r s = Ok true) -> (length l <= 4)%nat.
Proof. exact s_four. Qed.
Print Assumptions C75_s_four.
(** C75: one signature is accepted for the digests congruent to e and, with the private key d, those congruent to - e - 2 r d; r with one abscissa. *)
Theorem C75_digest : forall c C (Pp : prime (value (cu_p C))), usable c C Pp -> forall q, good2 c (cu_p C) q ->
  forall d, private_key (kval (cu_p C) Pp (cu_a C)) (aff_pt (cu_p C) Pp (cu_g C)) (value (cu_n C)) d (aff_pt (cu_p C) Pp q) ->
  forall msg msg' r s, all_bytes msg -> fits_order C msg -> all_bytes msg' -> fits_order C msg' -> valid c r -> valid c s -> value (cu_p C) <= value r + value (cu_n C) ->
  ecdsa_verify c C q msg r s = Ok true -> ecdsa_verify c C q msg' r s = Ok true ->
  let e := leftmost (bitlen (value (cu_n C))) in e msg' mod value (cu_n C) = e msg mod value (cu_n C) \/ (e msg + e msg' + 2 * value r * d) mod value (cu_n C) = 0.
Proof. exact digest_claim. Qed.
Print Assumptions C75_digest.
(** C75: and for these it is accepted, whatever r. *)
Theorem C75_second_digest : forall c C (Pp : prime (value (cu_p C))), usable c C Pp -> forall q, good2 c (cu_p C) q ->
  forall d, private_key (kval (cu_p C) Pp (cu_a C)) (aff_pt (cu_p C) Pp (cu_g C)) (value (cu_n C)) d (aff_pt (cu_p C) Pp q) ->
  forall msg msg' r s, all_bytes msg -> fits_order C msg -> all_bytes msg' -> fits_order C msg' -> valid c r -> valid c s ->
  let e := leftmost (bitlen (value (cu_n C))) in (e msg + e msg' + 2 * value r * d) mod value (cu_n C) = 0 -> ecdsa_verify c C q msg' r s = ecdsa_verify c C q msg r s.
Proof. exact both_claim. Qed.
Print Assumptions C75_second_digest.
(** C75: for any r at most four digests modulo n are accepted with one signature. *)
Theorem C75_digest_four : forall c C (Pp : prime (value (cu_p C))), usable c C Pp -> forall q, good2 c (cu_p C) q -> on_curve (kval (cu_p C) Pp (cu_a C)) (kval (cu_p C) Pp (cu_b C)) (aff_pt (cu_p C) Pp q) -> aff_pt (cu_p C) Pp q <> Inf ->
  forall r s l, valid c r -> valid c s -> NoDup (map (fun m => leftmost (bitlen (value (cu_n C))) m mod value (cu_n C)) l) ->
  (forall m, In m l -> all_bytes m /\ fits_order C m /\ ecdsa_verify c C q m r s = Ok true) -> (length l <= 4)%nat.
Proof. exact digest_four. Qed.
Print Assumptions C75_digest_four.
(** C75: two accepted signatures with one r give a linear equation for the private key, one of two. *)
Theorem C75_reuse : forall c C (Pp : prime (value (cu_p C))), usable c C Pp -> forall q, good2 c (cu_p C) q ->
  forall d, private_key (kval (cu_p C) Pp (cu_a C)) (aff_pt (cu_p C) Pp (cu_g C)) (value (cu_n C)) d (aff_pt (cu_p C) Pp q) ->
  forall msg msg' r s s', all_bytes msg -> fits_order C msg -> all_bytes msg' -> fits_order C msg' -> valid c r -> valid c s -> valid c s' -> value (cu_p C) <= value r + value (cu_n C) ->
  ecdsa_verify c C q msg r s = Ok true -> ecdsa_verify c C q msg' r s' = Ok true ->
  let e := leftmost (bitlen (value (cu_n C))) in
  (value r * d * (value s - value s')) mod value (cu_n C) = (value s' * e msg - value s * e msg') mod value (cu_n C) \/
  (value r * d * (value s + value s')) mod value (cu_n C) = (- (value s' * e msg + value s * e msg')) mod value (cu_n C).
Proof. exact reuse_claim. Qed.
Print Assumptions C75_reuse.
(** C75 refuted: an accepted signature does not determine the digest: for any two messages whose digests are neither equal nor opposite modulo n there are a key on the curve and a signature that ecdsa_verify accepts for both. This is a property of ECDSA itself; it means that a signer can prepare a key for a pair of messages. *)
Theorem C75_message_refuted : forall c C (Pp : prime (value (cu_p C))), usable c C Pp ->
  forall msg msg', all_bytes msg -> fits_order C msg -> all_bytes msg' -> fits_order C msg' ->
  let e := leftmost (bitlen (value (cu_n C))) in (e msg - e msg') mod value (cu_n C) <> 0 -> (e msg + e msg') mod value (cu_n C) <> 0 ->
  (forall x y, aff_pt (cu_p C) Pp (cu_g C) = Aff x y -> coord (cu_p C) Pp x mod value (cu_n C) <> 0) ->
  exists q r s, good2 c (cu_p C) q /\ on_curve (kval (cu_p C) Pp (cu_a C)) (kval (cu_p C) Pp (cu_b C)) (aff_pt (cu_p C) Pp q) /\ valid c r /\ valid c s /\ ecdsa_verify c C q msg r s = Ok true /\ ecdsa_verify c C q msg' r s = Ok true.
Proof. exact twice. Qed.
Print Assumptions C75_message_refuted.
(** C75 refuted: the same on each of the eight named curves, with no hypothesis on the curve. *)
Theorem C75_named_refuted : forall wasm m C (Pp : prime (value (cu_p C))) msg msg', In m named_curves -> named_curve wasm m = Ok C -> all_bytes msg -> digest_fits m msg -> all_bytes msg' -> digest_fits m msg' ->
  let c := named_cap wasm m in let N := hexval (pm_n m) in let e := leftmost (bitlen N) in
  (e msg - e msg') mod N <> 0 -> (e msg + e msg') mod N <> 0 ->
  exists q r s, good2 c (cu_p C) q /\ on_curve (kval (cu_p C) Pp (cu_a C)) (kval (cu_p C) Pp (cu_b C)) (aff_pt (cu_p C) Pp q) /\ valid c r /\ valid c s /\ ecdsa_verify c C q msg r s = Ok true /\ ecdsa_verify c C q msg' r s = Ok true.
Proof. exact named_twice. Qed.
Print Assumptions C75_named_refuted.
(** C75: the bounds on the named curves, with no hypothesis on the curve; half the bits of r and one more suffice for r to be the abscissa of one pair of points. *)
Theorem C75_named : forall wasm m C (Pp : prime (value (cu_p C))) q, In m named_curves -> named_curve wasm m = Ok C ->
  let c := named_cap wasm m in let A := kval (cu_p C) Pp (cu_a C) in let G := aff_pt (cu_p C) Pp (cu_g C) in let N := hexval (pm_n m) in let e := leftmost (bitlen N) in
  good2 c (cu_p C) q -> on_curve A (kval (cu_p C) Pp (cu_b C)) (aff_pt (cu_p C) Pp q) -> aff_pt (cu_p C) Pp q <> Inf ->
  exists d, private_key A G N d (aff_pt (cu_p C) Pp q) /\
  forall msg msg' r s s', all_bytes msg -> digest_fits m msg -> all_bytes msg' -> digest_fits m msg' -> valid c r -> valid c s -> valid c s' -> 2 ^ (pm_bits m / 2 + 1) <= value r ->
  ecdsa_verify c C q msg r s = Ok true -> ecdsa_verify c C q msg' r s' = Ok true ->
  (e msg' = e msg -> value s' = value s \/ value s' = N - value s) /\
  (value s' = value s -> e msg' mod N = e msg mod N \/ (e msg + e msg' + 2 * value r * d) mod N = 0) /\
  ((value r * d * (value s - value s')) mod N = (value s' * e msg - value s * e msg') mod N \/ (value r * d * (value s + value s')) mod N = (- (value s' * e msg + value s * e msg')) mod N).
Proof. exact named_bind. Qed.
Print Assumptions C75_named.
Theorem C75_named_four : forall wasm m C (Pp : prime (value (cu_p C))) q msg r l, In m named_curves -> named_curve wasm m = Ok C ->
  let c := named_cap wasm m in good2 c (cu_p C) q -> on_curve (kval (cu_p C) Pp (cu_a C)) (kval (cu_p C) Pp (cu_b C)) (aff_pt (cu_p C) Pp q) -> aff_pt (cu_p C) Pp q <> Inf ->
  all_bytes msg -> digest_fits m msg -> valid c r -> NoDup (map value l) -> (forall s, In s l -> valid c s /\ ecdsa_verify c C q msg r s = Ok true) -> (length l <= 4)%nat.
Proof. exact named_four. Qed.
Print Assumptions C75_named_four.
(** on the curve of 223 points the key (60, 57) of the private key 10 accepts exactly 83 and 140 for r = 30 and the digest 200, and (30, 83) also for the digest 92; for r = 18, which is the abscissa of two pairs of points, it accepts four values *)
Definition accepts_251 (r s m : Z) : outcome bool := ecdsa_verify ex_c E251 (q251 60 57) [m] (of_int ex_c r) (of_int ex_c s).
Example C75_ex : usable ex_c E251 prime_251 /\ good2 ex_c (cu_p E251) (q251 60 57) /\ all_bytes [200] /\ fits_order E251 [200] /\ value (cu_p E251) <= 30 + value (cu_n E251) /\
  private_key (kval (cu_p E251) prime_251 (cu_a E251)) (aff_pt (cu_p E251) prime_251 (cu_g E251)) (value (cu_n E251)) 10 (aff_pt (cu_p E251) prime_251 (q251 60 57)) /\
  accepts_251 30 83 200 = Ok true /\ accepts_251 30 140 200 = Ok true /\ accepts_251 30 84 200 = Ok false /\ accepts_251 30 83 92 = Ok true /\ accepts_251 30 83 91 = Ok false /\
  accepts_251 18 4 200 = Ok true /\ accepts_251 18 33 200 = Ok true /\ accepts_251 18 190 200 = Ok true /\ accepts_251 18 219 200 = Ok true.
Proof.
  split; [exact E251_usable|]. split; [apply q251_good; lia|]. split; [repeat constructor; unfold is_byte; lia|]. split; [left; reflexivity|]. split; [vm_compute; discriminate|].
  split; [split; [vm_compute; split; [discriminate|reflexivity]|vm_compute; reflexivity]|]. vm_compute. repeat split.
Qed.
Example C75_named_ex : In secp256k1 named_curves /\ digest_fits secp256k1 [1] /\ (leftmost (bitlen (hexval (pm_n secp256k1))) [1] - leftmost (bitlen (hexval (pm_n secp256k1))) [2]) mod hexval (pm_n secp256k1) <> 0 /\
  (leftmost (bitlen (hexval (pm_n secp256k1))) [1] + leftmost (bitlen (hexval (pm_n secp256k1))) [2]) mod hexval (pm_n secp256k1) <> 0.
Proof. split; [do 4 right; left; reflexivity|]. split; [left; vm_compute; discriminate|]. vm_compute. split; discriminate. Qed.
(** the signature of C51_ex, made by the key G, meets the bound on r *)
Example C75_named_bound_ex : 2 ^ (pm_bits secp256k1 / 2 + 1) <= hexval (pm_gx secp256k1) /\ digest_fits secp256k1 [1; 2] /\ map (fun m => hexval (pm_p m) <? hexval (pm_n m)) named_curves = map (fun _ => false) named_curves.
Proof. split; [vm_compute; discriminate|]. split; [left; vm_compute; discriminate|]. vm_compute. reflexivity. Qed.
