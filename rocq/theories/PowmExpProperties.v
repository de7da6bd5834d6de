(** C63: RSA verification over the exponentiation of powm.h, for every public exponent. *)
From Coq Require Import List ZArith Znumtheory Bool Lia.
From Verif Require Import Outcome UtilsModel UtilsSpec UtilsProofs RsaModel RsaSpec RsaProofs RsaClaims RsaPssSpec PowmModel PowmSpec PowmMain PowmClaims ShaModel ContractModel ContractSpec RsaSignSpec RsaProperties PowmExp.
Import ListNotations.
Open Scope Z_scope.

(** C63, PKCS#1 v1.5: for every exponent, of any length and value, the outcome.  An odd exponent of at most 8 bytes accepts exactly the signatures valid for the exponent [effective e]; a refused exponent answers false to everything; 64 bits or more abort; leading zeros beyond 8 bytes are undefined behaviour. *)
Theorem C63_pkcs1 : forall n e k digest sig, modulus_fit n -> all_bytes e -> all_bytes sig -> length digest = hash_size k ->
  let v := verify_rsa mod_exp_sw k n e digest sig in
  (length sig <> length n \/ OS2IP n <= OS2IP sig -> v = Ok false) /\
  (length sig = length n -> OS2IP sig < OS2IP n ->
    (e = [] \/ 2 ^ 64 <= OS2IP e -> v = Abort) /\
    ((8 < length e)%nat -> OS2IP e < 2 ^ 64 -> v = UB) /\
    ((0 < length e <= 8)%nat -> Z.even (OS2IP e) = true \/ OS2IP e < 3 -> v = Ok false) /\
    (odd_exponent e -> exists b, v = Ok b /\ (b = true <-> rsassa_pkcs1_valid (OS2IP n) (effective (OS2IP e)) (length n) (digest_info (action_oid k) digest) sig))).
Proof. exact table. Qed.
Print Assumptions C63_pkcs1.
(** C63, PSS: the same exponent is used, for moduli that fill their top byte. *)
Theorem C63_pss : forall hash hlen n e salt_len digest sig, hash_ok hash hlen -> modulus_fit n -> full_top_byte n -> odd_exponent e -> all_bytes sig -> all_bytes digest ->
  let slen := match salt_len with Some s => s | None => Z.of_nat hlen end in
  0 <= slen -> Z.of_nat hlen + slen + 10 < 2 ^ 32 ->
  exists b, rsassa_pss_mgf1_verify mod_exp_sw hash hlen n e salt_len digest sig = Ok b /\
  (b = true <-> rsassa_pss_valid hash hlen (Z.to_nat slen) (OS2IP n) (effective (OS2IP e)) (length n) digest sig).
Proof. exact pss_every. Qed.
Print Assumptions C63_pss.
(** C63, PSS: for all moduli the exponentiation is made for, of any bit length, and all salt lengths. *)
Theorem C63_pss_bytes : forall hash hlen, hash_ok hash hlen -> Z.of_nat hlen < 2 ^ 31 -> forall n e salt_len digest sig, modulus_fit n -> odd_exponent e -> all_bytes sig -> all_bytes digest ->
  let slen := match salt_len with Some s => s | None => Z.of_nat hlen end in
  0 <= slen < 2 ^ 32 ->
  let run := rsassa_pss_mgf1_verify mod_exp_sw hash hlen n e salt_len digest sig in
  (run = Ok true <-> pss_valid_bytes hash hlen (Z.to_nat slen) (OS2IP n) (effective (OS2IP e)) (length n) digest sig) /\
  (run = Ok true \/ run = Ok false \/ run = UB) /\ (Z.of_nat hlen + slen + 2 < 2 ^ 32 -> run <> UB).
Proof. exact pss_every_bytes. Qed.
Print Assumptions C63_pss_bytes.
(** C63, PSS: the outcome for the other exponents, for all moduli the exponentiation is made for. *)
Theorem C63_pss_other : forall hash hlen n e salt_len digest sig, modulus_fit n -> all_bytes e -> all_bytes sig ->
  let slen := match salt_len with Some s => s | None => Z.of_nat hlen end in
  0 <= slen -> Z.of_nat hlen + slen + 10 < 2 ^ 32 ->
  let v := rsassa_pss_mgf1_verify mod_exp_sw hash hlen n e salt_len digest sig in
  (length sig <> length n \/ OS2IP n <= OS2IP sig -> v = Ok false) /\
  (length sig = length n -> OS2IP sig < OS2IP n ->
    (e = [] \/ 2 ^ 64 <= OS2IP e -> v = Abort) /\
    ((8 < length e)%nat -> OS2IP e < 2 ^ 64 -> v = UB) /\
    ((0 < length e <= 8)%nat -> Z.even (OS2IP e) = true \/ OS2IP e < 3 -> v = Ok false)).
Proof. exact pss_table. Qed.
Print Assumptions C63_pss_other.
(** C63: the one accepted signature is that of the private key belonging to [effective e]. *)
Theorem C63_key : forall n e d k digest sig, modulus_fit n -> odd_exponent e -> rsa_key (OS2IP n) (effective (OS2IP e)) d -> all_bytes digest -> length digest = hash_size k -> all_bytes sig ->
  let T := digest_info (action_oid k) digest in
  exists b, verify_rsa mod_exp_sw k n e digest sig = Ok b /\ (b = true <-> (length T + 11 <= length n)%nat /\ sig = rsassa_pkcs1_sign (OS2IP n) d (length n) T).
Proof. exact key_every. Qed.
Print Assumptions C63_key.
(** C63: exponents with the same effective exponent are the same public key. *)
Theorem C63_same : forall e e', odd_exponent e -> odd_exponent e' -> effective (OS2IP e) = effective (OS2IP e') ->
  forall n sig t, modulus_fit n -> all_bytes sig -> rsassa_pkcs1_v1_5_verify mod_exp_sw n e sig t = rsassa_pkcs1_v1_5_verify mod_exp_sw n e' sig t.
Proof. exact same_effective. Qed.
Print Assumptions C63_same.
(** C63, finding: there is a key pair with an exponent above 2^33 whose own signature is answered with false. *)
Theorem C63_own_signature_refuted : exists n e d digest, modulus_fit n /\ odd_exponent e /\ rsa_key (OS2IP n) (OS2IP e) d /\ length digest = 20%nat /\
  verify_rsa mod_exp_sw SHA1 n e digest (rsassa_pkcs1_sign (OS2IP n) d (length n) (digest_info oid_sha1 digest)) = Ok false.
Proof. exact own_rejected. Qed.
Print Assumptions C63_own_signature_refuted.
(** C63, finding: with the same key a byte string is accepted that is not a valid signature. *)
Theorem C63_foreign_signature_refuted : exists n e d digest sig, modulus_fit n /\ odd_exponent e /\ rsa_key (OS2IP n) (OS2IP e) d /\ length digest = 20%nat /\
  verify_rsa mod_exp_sw SHA1 n e digest sig = Ok true /\ ~ rsassa_pkcs1_valid (OS2IP n) (OS2IP e) (length n) (digest_info oid_sha1 digest) sig.
Proof. exact other_accepted. Qed.
Print Assumptions C63_foreign_signature_refuted.

Example C63_ex : effective (OS2IP [3; 0; 0; 0; 5]) = effective (OS2IP [2; 0; 0; 0; 5]) /\ OS2IP [3; 0; 0; 0; 5] <> OS2IP [2; 0; 0; 0; 5] /\ odd_exponent lx_e /\ modulus_fit lx_n /\
  verify_rsa mod_exp_sw SHA1 lx_n lx_e lx_digest lx_other = Ok true /\ verify_rsa mod_exp_sw SHA1 lx_n [2; 0; 0; 0; 5] lx_digest lx_other = Ok true /\
  verify_rsa mod_exp_sw SHA1 lx_n [4] lx_digest lx_other = Ok false /\ verify_rsa mod_exp_sw SHA1 lx_n [0; 0; 0; 0; 0; 0; 0; 0; 3] lx_digest lx_other = UB /\
  verify_rsa mod_exp_sw SHA1 lx_n [1; 0; 0; 0; 0; 0; 0; 0; 3] lx_digest lx_other = Abort.
Proof.
  assert (Q : effective (OS2IP [3; 0; 0; 0; 5]) = effective (OS2IP [2; 0; 0; 0; 5])) by reflexivity.
  assert (O2 : odd_exponent [2; 0; 0; 0; 5]). { split; [bytes|]. split; [cbn; lia|]. split; [reflexivity|]. vm_compute. discriminate. }
  assert (A : verify_rsa mod_exp_sw SHA1 lx_n lx_e lx_digest lx_other = Ok true).
  { destruct (C63_pkcs1 lx_n lx_e SHA1 lx_digest lx_other lx_n_fit (proj1 lx_e_odd) (I2OSP_bytes _ _) eq_refl) as (_ & T). destruct (T eq_refl ltac:(vm_compute; reflexivity)) as (_ & _ & _ & T').
    destruct (T' lx_e_odd) as (b & E & Hb). rewrite E. f_equal. apply Hb. exact lx_other_valid. }
  assert (X : forall e, all_bytes e -> (length lx_other = length lx_n -> OS2IP lx_other < OS2IP lx_n -> (e = [] \/ 2 ^ 64 <= OS2IP e -> verify_rsa mod_exp_sw SHA1 lx_n e lx_digest lx_other = Abort) /\
    ((8 < length e)%nat -> OS2IP e < 2 ^ 64 -> verify_rsa mod_exp_sw SHA1 lx_n e lx_digest lx_other = UB) /\
    ((0 < length e <= 8)%nat -> Z.even (OS2IP e) = true \/ OS2IP e < 3 -> verify_rsa mod_exp_sw SHA1 lx_n e lx_digest lx_other = Ok false))).
  { intros e Fe L S. destruct (C63_pkcs1 lx_n e SHA1 lx_digest lx_other lx_n_fit Fe (I2OSP_bytes _ _) eq_refl) as (_ & T). destruct (T L S) as (T1 & T2 & T3 & _). split; [exact T1|]. split; [exact T2|exact T3]. }
  assert (L : length lx_other = length lx_n) by reflexivity. assert (S : OS2IP lx_other < OS2IP lx_n) by (vm_compute; reflexivity).
  split; [exact Q|]. split; [vm_compute; discriminate|]. split; [exact lx_e_odd|]. split; [exact lx_n_fit|]. split; [exact A|].
  split. { rewrite <- A. symmetry. exact (C63_same lx_e [2; 0; 0; 0; 5] lx_e_odd O2 Q lx_n lx_other (sha1_prefix ++ lx_digest) lx_n_fit (I2OSP_bytes _ _)). }
  split; [apply X; [bytes|exact L|exact S|cbn; lia|left; reflexivity]|]. split; [apply X; [bytes|exact L|exact S|cbn; lia|reflexivity]|]. apply X; [bytes|exact L|exact S|right; vm_compute; discriminate].
Qed.
Example C63_pss_ex : (exists b, rsassa_pss_mgf1_verify mod_exp_sw rx_hash 2 (200 :: repeat 1 63) lx_e (Some 3) [5; 6] (repeat 3 64) = Ok b /\
  (b = true <-> rsassa_pss_valid rx_hash 2 3 (OS2IP (200 :: repeat 1 63)) (2 ^ 33 + 5) 64 [5; 6] (repeat 3 64))) /\
  rsassa_pss_mgf1_verify mod_exp_sw rx_hash 2 (200 :: repeat 1 63) [8] (Some 3) [5; 6] (repeat 3 64) = Ok false.
Proof.
  assert (Fn : modulus_fit (200 :: repeat 1 63)). { split; [cbn [repeat]; bytes|]. split; [reflexivity|]. split; [vm_compute; reflexivity|]. split; reflexivity. }
  assert (Fs : all_bytes (repeat 3 64)) by (cbn [repeat]; bytes). split.
  - apply (C63_pss rx_hash 2 (200 :: repeat 1 63) lx_e (Some 3) [5; 6] (repeat 3 64) rx_hash_ok Fn); [cbn; lia|exact lx_e_odd|exact Fs|bytes|lia|reflexivity].
  - destruct (C63_pss_other rx_hash 2 (200 :: repeat 1 63) [8] (Some 3) [5; 6] (repeat 3 64) Fn ltac:(bytes) Fs ltac:(lia) ltac:(reflexivity)) as (_ & T). apply T; [reflexivity|vm_compute; reflexivity|cbn; lia|left; reflexivity].
Qed.
Example C63_pss_bytes_ex : rsassa_pss_mgf1_verify mod_exp_sw rx_hash 2 (100 :: repeat 1 63) lx_e (Some 3) [5; 6] (repeat 3 64) = Ok true <->
  pss_valid_bytes rx_hash 2 3 (OS2IP (100 :: repeat 1 63)) (2 ^ 33 + 5) 64 [5; 6] (repeat 3 64).
Proof.
  assert (Fn : modulus_fit (100 :: repeat 1 63)). { split; [cbn [repeat]; bytes|]. split; [reflexivity|]. split; [vm_compute; reflexivity|]. split; reflexivity. }
  assert (Fs : all_bytes (repeat 3 64)) by (cbn [repeat]; bytes).
  apply (C63_pss_bytes rx_hash 2 rx_hash_ok ltac:(cbn; lia) (100 :: repeat 1 63) lx_e (Some 3) [5; 6] (repeat 3 64) Fn lx_e_odd Fs); [bytes|lia].
Qed.
