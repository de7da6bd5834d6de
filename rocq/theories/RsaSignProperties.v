(** C59: with a key pair, exactly the signatures made with the private key are accepted. *)
From Coq Require Import List ZArith Znumtheory Bool Lia.
From Verif Require Import Outcome UtilsModel UtilsSpec UtilsProofs RsaModel RsaSpec RsaProofs RsaClaims RsaPssSpec RsaProperties PowmModel PowmMain PowmClaims ShaModel ShaSpec ContractModel ContractSpec PrimeCert RsaSignSpec RsaSignProofs RsaSignClaims.
Import ListNotations.
Open Scope Z_scope.

(** C59: the public and the private operation are inverse to each other on the residues. *)
Theorem C59_inverse : forall n e d m, rsa_key n e d -> 0 <= m < n -> (m ^ d mod n) ^ e mod n = m /\ (m ^ e mod n) ^ d mod n = m.
Proof. exact inverse_claim. Qed.
Print Assumptions C59_inverse.
(** C59, PKCS#1 v1.5: for a key pair, verification with each hash accepts one byte string, the signature that RFC 8017 8.2.1 makes of the digest, and answers false to every other. *)
Theorem C59_pkcs1 : forall mod_exp n e d, exponent_ok e -> all_bytes n -> no_leading_zero n -> exact_for mod_exp n e -> rsa_key (OS2IP n) (OS2IP e) d ->
  forall k digest sig, all_bytes digest -> length digest = hash_size k -> all_bytes sig ->
  let T := digest_info (action_oid k) digest in
  exists b, verify_rsa mod_exp k n e digest sig = Ok b /\ (b = true <-> (length T + 11 <= length n)%nat /\ sig = rsassa_pkcs1_sign (OS2IP n) d (length n) T).
Proof. exact pkcs1_key. Qed.
Print Assumptions C59_pkcs1.
(** C59: whatever the modulus and the primitive, no signature is accepted for two digests, nor under two hash functions. *)
Theorem C59_one_digest : forall mod_exp n e sig k k' digest digest', length digest = hash_size k -> length digest' = hash_size k' ->
  verify_rsa mod_exp k n e digest sig = Ok true -> verify_rsa mod_exp k' n e digest' sig = Ok true -> k = k' /\ digest = digest'.
Proof. exact one_digest. Qed.
Print Assumptions C59_one_digest.
(** C59, PSS: for moduli that fill their top byte, the accepted signatures are those that RFC 8017 8.1.1 makes of the digest with some salt of the given length. *)
Theorem C59_pss : forall mod_exp n e d, exponent_ok e -> all_bytes n -> no_leading_zero n -> exact_for mod_exp n e -> rsa_key (OS2IP n) (OS2IP e) d ->
  forall hash hlen, hash_ok hash hlen -> Z.of_nat hlen < 2 ^ 31 -> forall salt_len digest sig, all_bytes sig -> all_bytes digest -> full_top_byte n ->
  let slen := match salt_len with Some s => s | None => Z.of_nat hlen end in
  0 <= slen < 2 ^ 32 -> 8 * zlen n < 2 ^ 32 ->
  (rsassa_pss_mgf1_verify mod_exp hash hlen n e salt_len digest sig = Ok true <->
   Z.of_nat hlen + slen + 2 <= zlen n /\ exists salt, all_bytes salt /\ zlen salt = slen /\ sig = rsassa_pss_sign hash hlen (OS2IP n) d (length n) digest salt).
Proof. exact pss_key. Qed.
Print Assumptions C59_pss.
(** C59, PSS, all moduli: the accepted signatures are the private operation on an encoding of 8k - 1 bits, where it is below the modulus. *)
Theorem C59_pss_bytes : forall mod_exp n e d, exponent_ok e -> all_bytes n -> no_leading_zero n -> exact_for mod_exp n e -> rsa_key (OS2IP n) (OS2IP e) d ->
  forall hash hlen, hash_ok hash hlen -> Z.of_nat hlen < 2 ^ 31 -> forall salt_len digest sig, all_bytes sig -> all_bytes digest ->
  let slen := match salt_len with Some s => s | None => Z.of_nat hlen end in
  0 <= slen < 2 ^ 32 -> 8 * zlen n < 2 ^ 32 ->
  (rsassa_pss_mgf1_verify mod_exp hash hlen n e salt_len digest sig = Ok true <->
   Z.of_nat hlen + slen + 2 <= zlen n /\ exists salt, all_bytes salt /\ zlen salt = slen /\
     let em := emsa_pss_encode hash hlen digest salt (length n) (8 * zlen n - 1) in OS2IP em < OS2IP n /\ sig = rsa_sign (OS2IP n) d (length n) em).
Proof. exact pss_key_bytes. Qed.
Print Assumptions C59_pss_bytes.
(** C59, PSS: a signature accepted for two digests exhibits a collision of the hash (no key needed). *)
Theorem C59_pss_collision : forall mod_exp n e, exponent_ok e -> all_bytes n -> no_leading_zero n -> exact_for mod_exp n e ->
  forall hash hlen, hash_ok hash hlen -> Z.of_nat hlen < 2 ^ 31 -> forall salt_len digest digest' sig, all_bytes sig -> all_bytes digest -> all_bytes digest' ->
  let slen := match salt_len with Some s => s | None => Z.of_nat hlen end in
  0 <= slen < 2 ^ 32 -> 8 * zlen n < 2 ^ 32 ->
  rsassa_pss_mgf1_verify mod_exp hash hlen n e salt_len digest sig = Ok true -> rsassa_pss_mgf1_verify mod_exp hash hlen n e salt_len digest' sig = Ok true ->
  exists salt, zlen salt = slen /\ hash (repeat 0 8 ++ digest ++ salt) = hash (repeat 0 8 ++ digest' ++ salt).
Proof. exact pss_two_digests. Qed.
Print Assumptions C59_pss_collision.
(** C59: PKCS#1 v1.5 over the exponentiation of powm.h. *)
Theorem C59_pkcs1_software : forall n e d k digest sig, modulus_fit n -> exponent_fit e -> rsa_key (OS2IP n) (OS2IP e) d -> all_bytes digest -> length digest = hash_size k -> all_bytes sig ->
  let T := digest_info (action_oid k) digest in
  exists b, verify_rsa mod_exp_sw k n e digest sig = Ok b /\ (b = true <-> (length T + 11 <= length n)%nat /\ sig = rsassa_pkcs1_sign (OS2IP n) d (length n) T).
Proof. exact key_sw. Qed.
Print Assumptions C59_pkcs1_software.
(** C59: PSS over the exponentiation of powm.h. *)
Theorem C59_pss_software : forall hash hlen n e d salt_len digest sig, hash_ok hash hlen -> Z.of_nat hlen < 2 ^ 31 -> modulus_fit n -> exponent_fit e -> rsa_key (OS2IP n) (OS2IP e) d -> all_bytes sig -> all_bytes digest -> full_top_byte n ->
  let slen := match salt_len with Some s => s | None => Z.of_nat hlen end in 0 <= slen < 2 ^ 32 ->
  (rsassa_pss_mgf1_verify mod_exp_sw hash hlen n e salt_len digest sig = Ok true <->
   Z.of_nat hlen + slen + 2 <= zlen n /\ exists salt, all_bytes salt /\ zlen salt = slen /\ sig = rsassa_pss_sign hash hlen (OS2IP n) d (length n) digest salt).
Proof. exact pss_key_sw. Qed.
Print Assumptions C59_pss_software.
(** C59: the PKCS#1 actions of the example contract succeed on one byte string per message, the signature of its hash. *)
Theorem C59_action : forall sha1 sha256 sha512 junk K H0 k n e d msg sig, host_ok sha1 sha256 sha512 -> length junk = 128%nat -> all_bytes junk -> round_constants K -> initial_value H0 ->
  all_bytes msg -> all_bytes sig -> Z.of_nat (length msg) < 2 ^ 64 -> modulus_fit n -> exponent_fit e -> rsa_key (OS2IP n) (OS2IP e) d ->
  let hash := action_hash sha1 sha256 sha512 K H0 k in
  let T := digest_info (action_oid k) (hash msg) in
  rsa_action sha1 sha256 sha512 junk mod_exp_sw k n e msg sig = Ok tt <-> (length T + 11 <= length n)%nat /\ sig = rsassa_pkcs1_sign (OS2IP n) d (length n) T.
Proof. exact action_key. Qed.
Print Assumptions C59_action.

(** a key of 512 bits, the product of small primes, with exponent 3; a PKCS#1 signature and a PSS signature with salt 9, 8, 7 *)
Definition kx_primes : list Z := [5; 17; 23; 29; 41; 47; 53; 71; 83; 89; 101; 107; 113; 131; 149; 167; 179; 191; 197; 227; 239; 251; 257; 263; 293; 311; 347; 353; 359; 383; 389; 401; 419; 431; 443; 449; 461; 467; 479; 503; 509; 557; 563; 569; 587; 593; 599; 617; 641; 647; 659; 677; 683; 701; 719; 761; 773; 821; 881; 911; 929; 977; 1019].
Definition kx_d : Z := 14984583283768282262879523895250890435408552889546583770974171014538667.
Definition kx_n : list Z := I2OSP 8918584442981662466450261959663630333879507073624576045800540061969057838678793234423373514390320693075784534323036724105172554050448082509321899898656465 64.
Definition kx_sig1 : list Z := I2OSP 6827230194138887576478078693157608883757039265203401132037703212884449529240251941098687644025784220634071948767726946597062105538641675666762511828648072 64.
Definition kx_sig2 : list Z := I2OSP 7000840396651117840668065801992709514788356485870584315544467238807566609247818666808796629406698167987596724285868865470268179392750595611093031787443965 64.
Lemma kx_fit : modulus_fit kx_n /\ exponent_fit [3].
Proof.
  split; [split; [apply I2OSP_bytes|]; split; [vm_compute; reflexivity|]; split; [vm_compute; reflexivity|]; split; vm_compute; reflexivity|].
  split; [bytes|]. split; [cbn; lia|]. split; [reflexivity|]. vm_compute. split; [discriminate|reflexivity].
Qed.
Lemma kx_key : rsa_key (OS2IP kx_n) (OS2IP [3]) kx_d.
Proof.
  split; [reflexivity|]. split; [reflexivity|]. exists kx_primes. split; [|split; [apply distinct_ok; vm_compute; reflexivity|split; [vm_compute; reflexivity|]]].
  - apply Forall_forall. intros r Hr. apply small_prime_ok. assert (A : forallb small_prime kx_primes = true) by (vm_compute; reflexivity). rewrite forallb_forall in A. apply A. exact Hr.
  - apply Forall_forall. intros r Hr. assert (A : forallb (fun r => (1 <? r) && ((OS2IP [3] * kx_d - 1) mod (r - 1) =? 0)) kx_primes = true) by (vm_compute; reflexivity).
    rewrite forallb_forall in A. specialize (A r Hr). apply andb_prop in A. destruct A as [A1 A2]. apply Z.ltb_lt in A1. apply Z.eqb_eq in A2. apply Z.mod_divide; [lia|exact A2].
Qed.
Example C59_ex : rsa_key (OS2IP kx_n) (OS2IP [3]) kx_d /\ modulus_fit kx_n /\ exponent_fit [3] /\ full_top_byte kx_n /\
  verify_rsa ideal_exp SHA256 kx_n [3] rx_digest kx_sig1 = Ok true /\ kx_sig1 = rsassa_pkcs1_sign (OS2IP kx_n) kx_d 64 (digest_info oid_sha256 rx_digest) /\
  rsassa_pss_mgf1_verify ideal_exp rx_hash 2 kx_n [3] (Some 3) [5; 6] kx_sig2 = Ok true /\
  (exists salt, length salt = 3%nat /\ kx_sig2 = rsassa_pss_sign rx_hash 2 (OS2IP kx_n) kx_d 64 [5; 6] salt).
Proof.
  pose proof kx_fit as (Fn & Fe). pose proof kx_key as K. pose proof Fn as (An & Nn & _). assert (X : exponent_ok [3]) by (split; [discriminate|]; split; [bytes|]; reflexivity).
  assert (Ft : full_top_byte kx_n) by (vm_compute; discriminate).
  split; [exact K|]. split; [exact Fn|]. split; [exact Fe|]. split; [exact Ft|].
  assert (V1 : verify_rsa ideal_exp SHA256 kx_n [3] rx_digest kx_sig1 = Ok true) by (vm_compute; reflexivity).
  assert (V2 : rsassa_pss_mgf1_verify ideal_exp rx_hash 2 kx_n [3] (Some 3) [5; 6] kx_sig2 = Ok true) by (vm_compute; reflexivity).
  split; [exact V1|]. split; [|split; [exact V2|]].
  - destruct (C59_pkcs1 ideal_exp kx_n [3] kx_d X An Nn (ideal_exact _ _) K SHA256 rx_digest kx_sig1 ltac:(unfold rx_digest; cbn [repeat]; bytes) eq_refl (I2OSP_bytes _ _)) as (b & E & Hb).
    rewrite V1 in E. injection E as <-. apply Hb. reflexivity.
  - apply (C59_pss ideal_exp kx_n [3] kx_d X An Nn (ideal_exact _ _) K rx_hash 2 rx_hash_ok ltac:(reflexivity) (Some 3) [5; 6] kx_sig2 (I2OSP_bytes _ _) ltac:(bytes) Ft ltac:(lia) ltac:(reflexivity)) in V2.
    destruct V2 as (_ & salt & _ & L & E). exists salt. split; [unfold zlen in L; lia|exact E].
Qed.
