(** The statements for C59. *)
From Coq Require Import List Arith ZArith Znumtheory Bool Lia.
From Verif Require Import Outcome UtilsModel UtilsSpec UtilsProofs RsaModel RsaSpec RsaProofs RsaClaims RsaPssSpec RsaPss PowmModel PowmMain PowmClaims ShaModel ShaSpec ContractModel ContractSpec ContractRsa ContractNamed RsaSignSpec RsaSignProofs.
Import ListNotations.
Open Scope Z_scope.

(** the DER encoding with which each hash is verified *)
Definition prefix_of (k : hash_kind) : list Z := match k with SHA1 => sha1_prefix | SHA256 => sha256_prefix | SHA384 => sha384_prefix | SHA512 => sha512_prefix end.
Lemma verify_prefix mod_exp k n e digest sig : verify_rsa mod_exp k n e digest sig = rsassa_pkcs1_v1_5_verify mod_exp n e sig (prefix_of k ++ digest).
Proof. destruct k; reflexivity. Qed.
Lemma prefix_info k digest : length digest = hash_size k -> digest_info (action_oid k) digest = prefix_of k ++ digest.
Proof. intros L. destruct k; cbn [hash_size] in L; unfold digest_info, der; rewrite app_length; cbn [length]; rewrite L; reflexivity. Qed.
Lemma prefix_bytes k : all_bytes (prefix_of k).
Proof. destruct k; unfold prefix_of, sha1_prefix, sha256_prefix, sha384_prefix, sha512_prefix; bytes. Qed.

Lemma inverse_claim n e d m : rsa_key n e d -> 0 <= m < n -> (m ^ d mod n) ^ e mod n = m /\ (m ^ e mod n) ^ d mod n = m.
Proof. intros K M. split; [apply key_inverse|apply (key_inverse n d e); [apply key_sym|]]; assumption. Qed.

Section KEY.
Variable mod_exp : list Z -> list Z -> list Z -> outcome (option (list Z)).
Variables (n e : list Z) (d : Z).
Hypothesis He : exponent_ok e.
Hypothesis Fn : all_bytes n.
Hypothesis Hn : no_leading_zero n.
Hypothesis Ex : exact_for mod_exp n e.
Hypothesis K : rsa_key (OS2IP n) (OS2IP e) d.

Lemma pkcs1_key k digest sig : all_bytes digest -> length digest = hash_size k -> all_bytes sig ->
  let T := digest_info (action_oid k) digest in
  exists b, verify_rsa mod_exp k n e digest sig = Ok b /\ (b = true <-> (length T + 11 <= length n)%nat /\ sig = rsassa_pkcs1_sign (OS2IP n) d (length n) T).
Proof.
  intros Fd Ld Fs. cbv zeta. rewrite verify_prefix, (prefix_info k digest Ld). destruct (pkcs1_spec mod_exp n e (prefix_of k ++ digest) sig He Fs Fn Hn Ex) as (b & E & Hb).
  exists b. split; [exact E|]. rewrite Hb. apply pkcs1_sign_iff; try assumption. apply Forall_app. split; [apply prefix_bytes|exact Fd].
Qed.

Section HASH.
Variable hash : list Z -> list Z.
Variable hlen : nat.
Hypothesis OK : hash_ok hash hlen.
Hypothesis SH : Z.of_nat hlen < 2 ^ 31.
Lemma pss_key_bytes salt_len digest sig : all_bytes sig -> all_bytes digest ->
  let slen := match salt_len with Some s => s | None => Z.of_nat hlen end in
  0 <= slen < 2 ^ 32 -> 8 * zlen n < 2 ^ 32 ->
  (rsassa_pss_mgf1_verify mod_exp hash hlen n e salt_len digest sig = Ok true <->
   Z.of_nat hlen + slen + 2 <= zlen n /\ exists salt, all_bytes salt /\ zlen salt = slen /\
     let em := emsa_pss_encode hash hlen digest salt (length n) (8 * zlen n - 1) in OS2IP em < OS2IP n /\ sig = rsa_sign (OS2IP n) d (length n) em).
Proof.
  intros Fs Fd slen S32 N32. destruct (pss_bytes_claim hash hlen OK SH mod_exp n e salt_len digest sig He Fs Fd Fn Hn Ex S32 N32) as (V & _). fold slen in V. rewrite V.
  rewrite (pss_bytes_sign_iff hash hlen OK n (OS2IP e) d (Z.to_nat slen) digest sig Fn Hn K Fs). unfold zlen. split.
  - intros (L & salt & F & Ls & Q). split; [lia|]. exists salt. split; [exact F|]. split; [lia|exact Q].
  - intros (L & salt & F & Ls & Q). split; [lia|]. exists salt. split; [exact F|]. split; [lia|exact Q].
Qed.
Lemma pss_key salt_len digest sig : all_bytes sig -> all_bytes digest -> full_top_byte n ->
  let slen := match salt_len with Some s => s | None => Z.of_nat hlen end in
  0 <= slen < 2 ^ 32 -> 8 * zlen n < 2 ^ 32 ->
  (rsassa_pss_mgf1_verify mod_exp hash hlen n e salt_len digest sig = Ok true <->
   Z.of_nat hlen + slen + 2 <= zlen n /\ exists salt, all_bytes salt /\ zlen salt = slen /\ sig = rsassa_pss_sign hash hlen (OS2IP n) d (length n) digest salt).
Proof.
  intros Fs Fd Ht slen S32 N32. rewrite (pss_all_salts hash hlen OK SH mod_exp n e salt_len digest sig He Fs Fd Fn Ht Ex S32 N32). fold slen.
  rewrite (pss_sign_iff hash hlen OK n (OS2IP e) d (Z.to_nat slen) digest sig Fn Hn K Fs).
  assert (E : Z.to_nat ((Z.log2 (OS2IP n) + 7) / 8) = length n).
  { rewrite full_log2 by assumption. unfold zlen. replace (8 * Z.of_nat (length n) - 1 + 7) with (6 + Z.of_nat (length n) * 8) by lia. rewrite Z.div_add by lia. change (6 / 8) with 0. lia. }
  rewrite E. unfold zlen. split; intros (L & salt & F & Ls & Q); (split; [lia|]; exists salt; split; [exact F|]; split; [lia|exact Q]).
Qed.
(** accepted for two digests: a collision of the hash *)
Lemma pss_two_digests salt_len digest digest' sig : all_bytes sig -> all_bytes digest -> all_bytes digest' ->
  let slen := match salt_len with Some s => s | None => Z.of_nat hlen end in
  0 <= slen < 2 ^ 32 -> 8 * zlen n < 2 ^ 32 ->
  rsassa_pss_mgf1_verify mod_exp hash hlen n e salt_len digest sig = Ok true -> rsassa_pss_mgf1_verify mod_exp hash hlen n e salt_len digest' sig = Ok true ->
  exists salt, zlen salt = slen /\ hash (repeat 0 8 ++ digest ++ salt) = hash (repeat 0 8 ++ digest' ++ salt).
Proof.
  intros Fs Fd Fd' slen S32 N32 V V'.
  apply (pss_bytes_claim hash hlen OK SH mod_exp n e salt_len digest sig He Fs Fd Fn Hn Ex S32 N32) in V.
  apply (pss_bytes_claim hash hlen OK SH mod_exp n e salt_len digest' sig He Fs Fd' Fn Hn Ex S32 N32) in V'. fold slen in V, V'.
  unfold pss_valid_bytes, emsa_pss_consistent in V, V'. cbv zeta in V, V'. rewrite I2OSP_length in V, V'.
  destruct V as (_ & _ & _ & mdb & H & E & LH & _ & salt & Ls & D & HH). destruct V' as (_ & _ & _ & mdb' & H' & E' & LH' & _ & salt' & Ls' & D' & HH').
  rewrite E in E'. assert (Q : mdb = mdb' /\ H ++ [188] = H' ++ [188]).
  { apply (app_inv_len hlen (proj1 OK)); [|exact E']. apply (f_equal (@length Z)) in E'. rewrite !app_length in E'. lia. }
  destruct Q as [Q1 Q2]. assert (Q3 : H = H') by (apply app_inj_tail in Q2; tauto). rewrite <- Q1, <- Q3, D in D'. apply app_inv_head in D'. apply app_inv_head in D'. subst salt'.
  exists salt. split; [unfold zlen; lia|]. congruence.
Qed.
End HASH.
End KEY.

(** one signature, one digest: for any primitive and any modulus *)
Lemma one_digest mod_exp n e sig k k' digest digest' : length digest = hash_size k -> length digest' = hash_size k' ->
  verify_rsa mod_exp k n e digest sig = Ok true -> verify_rsa mod_exp k' n e digest' sig = Ok true -> k = k' /\ digest = digest'.
Proof.
  intros L L'. rewrite !verify_prefix. unfold rsassa_pkcs1_v1_5_verify. destruct (negb _); [discriminate|]. destruct (rsavp1 mod_exp n e sig) as [em| | |]; try discriminate. cbn [bind].
  destruct (pkcs1_check_spec em (prefix_of k ++ digest)) as (b & -> & Hb). destruct (pkcs1_check_spec em (prefix_of k' ++ digest')) as (b' & -> & Hb').
  intros E E'. injection E as ->. injection E' as ->. destruct (proj1 Hb eq_refl) as (T & Q). destruct (proj1 Hb' eq_refl) as (T' & Q'). rewrite Q in Q' at 1.
  apply emsa_inj in Q'; [|exact T|exact T'].
  destruct k, k'; cbn [prefix_of] in Q'; unfold sha1_prefix, sha256_prefix, sha384_prefix, sha512_prefix in Q'; cbn [app] in Q'; try discriminate Q'; (split; [reflexivity|congruence]).
Qed.

(** over the software exponentiation *)
Lemma key_sw n e d k digest sig : modulus_fit n -> exponent_fit e -> rsa_key (OS2IP n) (OS2IP e) d -> all_bytes digest -> length digest = hash_size k -> all_bytes sig ->
  let T := digest_info (action_oid k) digest in
  exists b, verify_rsa mod_exp_sw k n e digest sig = Ok b /\ (b = true <-> (length T + 11 <= length n)%nat /\ sig = rsassa_pkcs1_sign (OS2IP n) d (length n) T).
Proof.
  intros Hn He. pose proof (powm_exact_for n e Hn He) as Ex. pose proof (exponent_fit_ok e He) as He'. destruct Hn as (An & Nn & _). intros. apply pkcs1_key; assumption.
Qed.
Lemma pss_key_sw hash hlen n e d salt_len digest sig : hash_ok hash hlen -> Z.of_nat hlen < 2 ^ 31 -> modulus_fit n -> exponent_fit e -> rsa_key (OS2IP n) (OS2IP e) d -> all_bytes sig -> all_bytes digest -> full_top_byte n ->
  let slen := match salt_len with Some s => s | None => Z.of_nat hlen end in 0 <= slen < 2 ^ 32 ->
  (rsassa_pss_mgf1_verify mod_exp_sw hash hlen n e salt_len digest sig = Ok true <->
   Z.of_nat hlen + slen + 2 <= zlen n /\ exists salt, all_bytes salt /\ zlen salt = slen /\ sig = rsassa_pss_sign hash hlen (OS2IP n) d (length n) digest salt).
Proof.
  intros OK SH Hn He. pose proof (powm_exact_for n e Hn He) as Ex. pose proof (exponent_fit_ok e He) as He'. destruct Hn as (An & Nn & _ & _ & L). intros K Fs Fd Ht slen S32.
  apply pss_key; try assumption. unfold zlen. change (2 ^ 27) with 134217728 in L. change (2 ^ 32) with 4294967296. lia.
Qed.

(** the actions of the example contract, with the software exponentiation: the signatures made by the holder of the key for the message *)
Lemma action_key sha1 sha256 sha512 junk K H0 k n e d msg sig : host_ok sha1 sha256 sha512 -> length junk = 128%nat -> all_bytes junk -> round_constants K -> initial_value H0 ->
  all_bytes msg -> all_bytes sig -> Z.of_nat (length msg) < 2 ^ 64 -> modulus_fit n -> exponent_fit e -> rsa_key (OS2IP n) (OS2IP e) d ->
  let hash := action_hash sha1 sha256 sha512 K H0 k in
  let T := digest_info (action_oid k) (hash msg) in
  rsa_action sha1 sha256 sha512 junk mod_exp_sw k n e msg sig = Ok tt <-> (length T + 11 <= length n)%nat /\ sig = rsassa_pkcs1_sign (OS2IP n) d (length n) T.
Proof.
  intros HH LJ FJ KC HC Fm Fs Lm Hn He Key hash T.
  pose proof (powm_exact_for n e Hn He) as Ex. pose proof (exponent_fit_ok e He) as He'. destruct Hn as (An & Nn & _).
  destruct (pkcs1_action_std sha1 sha256 sha512 junk K H0 k n e msg sig HH LJ FJ KC HC Fm Fs Lm mod_exp_sw He' An Nn Ex) as (P1 & P2). fold hash T in P1, P2.
  assert (FT : all_bytes T /\ length (hash msg) = hash_size k).
  { destruct (constants_unique K H0 KC HC) as (-> & ->). destruct HH as ((_ & l1 & b1) & (_ & l2 & b2) & (_ & l3 & b3)).
    assert (Q : all_bytes (hash msg) /\ length (hash msg) = hash_size k).
    { unfold hash, action_hash. destruct k; cbn [hash_size]; auto. destruct (sha384_ok K_512 sha384_initial eq_refl) as (_ & l4 & b4). auto. }
    split; [|tauto]. unfold T. rewrite prefix_info by tauto. apply Forall_app. split; [apply prefix_bytes|tauto]. }
  pose proof (pkcs1_sign_iff n (OS2IP e) d T sig An Nn Key (proj1 FT) Fs) as S.
  destruct (le_dec (length T + 11) (length n)) as [T11|T11]; [destruct (list_eq_dec Z.eq_dec sig (rsassa_pkcs1_sign (OS2IP n) d (length n) T)) as [Q|Q]|].
  - rewrite P1 by tauto. tauto.
  - rewrite P2 by tauto. split; [discriminate|tauto].
  - rewrite P2 by tauto. split; [discriminate|tauto].
Qed.
