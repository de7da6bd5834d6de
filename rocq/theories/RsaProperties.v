(** Property theorems C07 (MGF1), C08 (PKCS#1 v1.5), C09 (PSS), C10 (range check), C12 (malformed sizes). *)
From Coq Require Import List ZArith Bool Lia.
From Verif Require Import Outcome UtilsModel UtilsSpec UtilsProofs MgfModel RsaModel RsaSpec RsaProofs RsaClaims.
Import ListNotations.
Open Scope Z_scope.

(** C07: for any hash with hlen-byte digests, both instantiations of the mask generator produce (resp. XOR in) the MGF1 mask of RFC 8017 B.2.1, of exactly the requested length. *)
Theorem C07_mgf1 : forall hash hlen seed mask,
  hash_ok hash hlen -> all_bytes mask -> Z.of_nat (length mask) <= 2 ^ 32 * Z.of_nat hlen ->
  mgf1 hash copy_mem seed mask = Ok (MGF1 hash hlen seed (length mask)) /\
  mgf1 hash copy_xor seed mask = Ok (xor_bytes mask (MGF1 hash hlen seed (length mask))) /\
  length (MGF1 hash hlen seed (length mask)) = length mask.
Proof. exact mgf1_claim. Qed.
Print Assumptions C07_mgf1.
Definition rx_hash (m : list Z) : list Z := [fold_left (fun a b => (a * 3 + b) mod 256) m 7; Z.of_nat (length m) mod 256].
Lemma rx_hash_ok : hash_ok rx_hash 2.
Proof.
  split; [lia|]. split; [reflexivity|]. intros m. constructor; [|constructor; [|constructor]].
  - assert (F : forall l a, is_byte a -> is_byte (fold_left (fun a b => (a * 3 + b) mod 256) l a)).
    { induction l as [|x l IH]; intros a Ha; [exact Ha|]. apply IH. unfold is_byte. apply Z.mod_pos_bound. lia. }
    apply F. unfold is_byte. lia.
  - unfold is_byte. apply Z.mod_pos_bound. lia.
Qed.
Lemma bytes_check l : forallb (fun b => (0 <=? b) && (b <? 256)) l = true -> all_bytes l.
Proof. intros H. apply Forall_forall. intros x Hx. rewrite forallb_forall in H. specialize (H x Hx). apply andb_true_iff in H. unfold is_byte. lia. Qed.
Example C07_ex : mgf1 rx_hash copy_xor [1; 2] [0; 0; 0; 0; 255] = Ok [132; 6; 133; 6; 121] /\
  MGF1 rx_hash 2 [1; 2] 5 = [132; 6; 133; 6; 134].
Proof.
  assert (M : MGF1 rx_hash 2 [1; 2] 5 = [132; 6; 133; 6; 134]) by (vm_compute; reflexivity). split; [|exact M].
  rewrite (proj1 (proj2 (C07_mgf1 rx_hash 2 [1; 2] [0; 0; 0; 0; 255] rx_hash_ok ltac:(bytes) ltac:(cbn; lia)))). cbn [length]. rewrite M. reflexivity.
Qed.
(** C08: with an exact exponentiation primitive, verification with each hash accepts exactly the signatures that RFC 8017 8.2.2 accepts. *)
Theorem C08_pkcs1_v1_5 : forall mod_exp n e sig digest,
  exponent_ok e -> all_bytes sig -> all_bytes n -> no_leading_zero n -> exact_for mod_exp n e ->
  (length digest = 20%nat -> exists b, verify_rsa_sha1 mod_exp n e digest sig = Ok b /\
     (b = true <-> rsassa_pkcs1_valid (OS2IP n) (OS2IP e) (length n) (digest_info oid_sha1 digest) sig)) /\
  (length digest = 32%nat -> exists b, verify_rsa_sha256 mod_exp n e digest sig = Ok b /\
     (b = true <-> rsassa_pkcs1_valid (OS2IP n) (OS2IP e) (length n) (digest_info oid_sha256 digest) sig)) /\
  (length digest = 48%nat -> exists b, verify_rsa_sha384 mod_exp n e digest sig = Ok b /\
     (b = true <-> rsassa_pkcs1_valid (OS2IP n) (OS2IP e) (length n) (digest_info oid_sha384 digest) sig)) /\
  (length digest = 64%nat -> exists b, verify_rsa_sha512 mod_exp n e digest sig = Ok b /\
     (b = true <-> rsassa_pkcs1_valid (OS2IP n) (OS2IP e) (length n) (digest_info oid_sha512 digest) sig)).
Proof. exact pkcs1_types. Qed.
Print Assumptions C08_pkcs1_v1_5.
Definition rx_n : list Z := repeat 255 62.
Definition rx_digest : list Z := repeat 17 32.
Definition rx_sig : list Z := [0; 1] ++ repeat 255 8 ++ [0] ++ digest_info oid_sha256 rx_digest.
Example C08_ex : verify_rsa_sha256 ideal_exp rx_n [1] rx_digest rx_sig = Ok true /\
  rsassa_pkcs1_valid (OS2IP rx_n) (OS2IP [1]) 62 (digest_info oid_sha256 rx_digest) rx_sig /\
  verify_rsa_sha256 ideal_exp rx_n [1] (repeat 18 32) rx_sig = Ok false.
Proof.
  assert (E : verify_rsa_sha256 ideal_exp rx_n [1] rx_digest rx_sig = Ok true) by (vm_compute; reflexivity).
  split; [exact E|]. split; [|vm_compute; reflexivity].
  assert (X : exponent_ok [1]) by (split; [discriminate|]; split; [bytes|]; reflexivity).
  assert (Fs : all_bytes rx_sig) by (apply bytes_check; vm_compute; reflexivity).
  assert (Fn : all_bytes rx_n) by (unfold rx_n; cbn [repeat]; bytes).
  destruct (proj1 (proj2 (C08_pkcs1_v1_5 ideal_exp rx_n [1] rx_sig rx_digest X Fs Fn eq_refl (ideal_exact _ _))) eq_refl) as (b & Eb & Hb).
  apply Hb. congruence.
Qed.
(** C09: with an exact primitive, PSS verification accepts exactly the signatures that RFC 8017 8.1.2 accepts, for moduli whose bit length is a multiple of 8 and salt lengths that do not overflow. *)
Theorem C09_pss_partial : forall mod_exp hash hlen n e salt_len digest sig,
  hash_ok hash hlen -> exponent_ok e -> all_bytes sig -> all_bytes digest -> all_bytes n ->
  full_top_byte n -> exact_for mod_exp n e ->
  let slen := match salt_len with Some s => s | None => Z.of_nat hlen end in
  0 <= slen -> Z.of_nat hlen + slen + 10 < 2 ^ 32 -> 8 * zlen n < 2 ^ 32 ->
  exists b, rsassa_pss_mgf1_verify mod_exp hash hlen n e salt_len digest sig = Ok b /\
  (b = true <-> rsassa_pss_valid hash hlen (Z.to_nat slen) (OS2IP n) (OS2IP e) (length n) digest sig).
Proof. exact pss_claim. Qed.
Print Assumptions C09_pss_partial.
Definition px_em : list Z :=
  let salt := [9; 9; 9] in let h := rx_hash (repeat 0 8 ++ [5; 6] ++ salt) in
  clear_top 1 (xor_bytes (repeat 0 3 ++ [1] ++ salt) (MGF1 rx_hash 2 h 7)) ++ h ++ [188].
Definition px_n : list Z := 128 :: repeat 1 9.
Example C09_ex : rsassa_pss_mgf1_verify ideal_exp rx_hash 2 px_n [1] (Some 3) [5; 6] px_em = Ok true /\
  rsassa_pss_valid rx_hash 2 3 (OS2IP px_n) (OS2IP [1]) 10 [5; 6] px_em /\
  rsassa_pss_mgf1_verify ideal_exp rx_hash 2 px_n [1] None [5; 6] px_em = Ok false.
Proof.
  assert (E : rsassa_pss_mgf1_verify ideal_exp rx_hash 2 px_n [1] (Some 3) [5; 6] px_em = Ok true) by (vm_compute; reflexivity).
  split; [exact E|]. split; [|vm_compute; reflexivity].
  assert (X : exponent_ok [1]) by (split; [discriminate|]; split; [bytes|]; reflexivity).
  assert (Fs : all_bytes px_em) by (apply bytes_check; vm_compute; reflexivity).
  assert (Fn : all_bytes px_n) by (unfold px_n; cbn [repeat]; bytes).
  destruct (C09_pss_partial ideal_exp rx_hash 2 px_n [1] (Some 3) [5; 6] px_em rx_hash_ok X Fs ltac:(bytes) Fn ltac:(cbn; lia) (ideal_exact _ _) ltac:(lia) ltac:(lia) ltac:(cbn; lia)) as (b & Eb & Hb).
  apply Hb. congruence.
Qed.
(** For a modulus of 23 bits the code accepts an encoding that RFC 8017 rejects: the number of unused bits is computed as if the modulus filled its top byte (rsa.hpp:285). *)
Theorem C09_bit_length_accepts_refuted : exists hash hlen n e digest sig, hash_ok hash hlen /\ all_bytes sig /\ all_bytes n /\ no_leading_zero n /\
  rsassa_pss_mgf1_verify ideal_exp hash hlen n e (Some 0) digest sig = Ok true /\
  ~ rsassa_pss_valid hash hlen 0 (OS2IP n) (OS2IP e) (length n) digest sig.
Proof. exact pss_bits_accept_refute. Qed.
Print Assumptions C09_bit_length_accepts_refuted.
(** For a modulus of 25 bits the code rejects a signature that RFC 8017 accepts. *)
Theorem C09_bit_length_rejects_refuted : exists hash hlen n e digest sig, hash_ok hash hlen /\ all_bytes sig /\ all_bytes n /\ no_leading_zero n /\
  rsassa_pss_mgf1_verify ideal_exp hash hlen n e (Some 0) digest sig = Ok false /\
  rsassa_pss_valid hash hlen 0 (OS2IP n) (OS2IP e) (length n) digest sig.
Proof. exact pss_bits_reject_refute. Qed.
Print Assumptions C09_bit_length_rejects_refuted.
(** A salt length near 2^32 wraps the length check and the check of the padding reads out of bounds. *)
Theorem C09_salt_length_wrap_refuted : exists hash hlen n e digest sig slen, hash_ok hash hlen /\ all_bytes sig /\ all_bytes n /\ full_top_byte n /\ 0 <= slen < 2 ^ 32 /\
  rsassa_pss_mgf1_verify ideal_exp hash hlen n e (Some slen) digest sig = UB.
Proof. exact pss_wrap_refute. Qed.
Print Assumptions C09_salt_length_wrap_refuted.
(** C10: the byte-string range check is the integer comparison, for a modulus without leading zero bytes. *)
Theorem C10_is_s_valid : forall s n,
  all_bytes s -> all_bytes n -> no_leading_zero n -> is_s_valid s n = (OS2IP s <? OS2IP n).
Proof. exact is_s_valid_spec. Qed.
Print Assumptions C10_is_s_valid.
Example C10_ex : is_s_valid [0; 255] [1; 0] = true /\ is_s_valid [1; 0] [1; 0] = false /\ is_s_valid [] [7] = true /\ (OS2IP [0; 0; 7] <? OS2IP [1; 0]) = is_s_valid [0; 0; 7] [1; 0].
Proof. split; [reflexivity|]. split; [reflexivity|]. split; [reflexivity|]. symmetry. apply C10_is_s_valid; [bytes|bytes|reflexivity]. Qed.
(** With leading zero bytes in the modulus a representative larger than the modulus passes the range check. *)
Theorem C10_leading_zero_refuted : exists s n, all_bytes s /\ all_bytes n /\ length s = length n /\ is_s_valid s n = true /\ OS2IP n <= OS2IP s.
Proof. exact is_s_valid_refute. Qed.
Print Assumptions C10_leading_zero_refuted.
(** C12: whatever the lengths of modulus, exponent, signature and digest, and whatever the primitive writes, PKCS#1 verification never leaves its buffers, and acceptance implies matching lengths and room for the padding. *)
Theorem C12_pkcs1_sizes : forall mod_exp n e sig t,
  primitive mod_exp ->
  (exists b, rsassa_pkcs1_v1_5_verify mod_exp n e sig t = Ok b /\
     (b = true -> length sig = length n /\ (length t + 11 <= length n)%nat)) \/
  rsassa_pkcs1_v1_5_verify mod_exp n e sig t = Abort.
Proof. exact pkcs1_malformed. Qed.
Print Assumptions C12_pkcs1_sizes.
(** C12 for PSS, for salt lengths that do not overflow (C09_salt_length_wrap_refuted shows the rest). *)
Theorem C12_pss_sizes_partial : forall mod_exp hash hlen n e salt_len digest sig,
  primitive mod_exp -> hash_ok hash hlen -> all_bytes digest ->
  let slen := match salt_len with Some s => s | None => Z.of_nat hlen end in
  0 <= slen -> Z.of_nat hlen + slen + 10 < 2 ^ 32 -> 8 * zlen n < 2 ^ 32 ->
  (exists b, rsassa_pss_mgf1_verify mod_exp hash hlen n e salt_len digest sig = Ok b /\
     (b = true -> length sig = length n /\ Z.of_nat hlen + slen + 2 <= zlen n)) \/
  rsassa_pss_mgf1_verify mod_exp hash hlen n e salt_len digest sig = Abort.
Proof. exact pss_malformed. Qed.
Print Assumptions C12_pss_sizes_partial.
(** C12: if the exponentiation primitive reports an error (which the code ignores), PKCS#1 verification never accepts. *)
Theorem C12_failed_exponentiation : forall mod_exp n e sig t,
  (forall b e' n', mod_exp b e' n' = Ok None) ->
  rsassa_pkcs1_v1_5_verify mod_exp n e sig t <> Ok true.
Proof. exact failed_exp_rejected. Qed.
Print Assumptions C12_failed_exponentiation.
(** C12: the same for PSS. *)
Theorem C12_failed_exponentiation_pss : forall mod_exp hash hlen n e salt digest sig,
  (forall b e' n', mod_exp b e' n' = Ok None) ->
  rsassa_pss_mgf1_verify mod_exp hash hlen n e salt digest sig <> Ok true.
Proof. exact failed_exp_rejected_pss. Qed.
Print Assumptions C12_failed_exponentiation_pss.
Definition fail_exp : list Z -> list Z -> list Z -> outcome (option (list Z)) := fun _ _ _ => Ok None.
Example C12_ex : primitive ideal_exp /\ primitive fail_exp /\
  rsassa_pkcs1_v1_5_verify ideal_exp [5] [3] [1; 2] [7] = Ok false /\ rsassa_pkcs1_v1_5_verify ideal_exp [200; 1] [3] [1; 2] [7] = Ok false /\
  rsassa_pss_mgf1_verify ideal_exp rx_hash 2 [200; 1] [3] None [7] [1; 2] = Ok false /\
  rsassa_pss_mgf1_verify fail_exp rx_hash 2 px_n [1] (Some 3) [5; 6] px_em = Ok false.
Proof.
  split; [intros b e n; cbn; split; [apply I2OSP_bytes|apply I2OSP_length]|]. split; [intros b e n; exact I|]. repeat split.
Qed.
