(** C09, C53: PSS verification for every modulus without leading zero byte and every 32-bit salt length. *)
From Coq Require Import List ZArith Bool Lia.
From Verif Require Import Outcome UtilsModel UtilsSpec UtilsProofs MgfModel RsaModel RsaSpec RsaProofs RsaClaims RsaPssSpec ShaModel ShaSpec ContractModel ContractSpec RsaPss ContractNamed.
Import ListNotations.
Open Scope Z_scope.

(** C09: what is accepted, for every modulus without leading zero byte and every salt length: RFC 8017 with the bit length of the byte string in place of that of the modulus. A salt length that wraps the length check is never accepted; any other gives no undefined behaviour. *)
Theorem C09_pss_bytes : forall hash hlen, hash_ok hash hlen -> Z.of_nat hlen < 2 ^ 31 -> forall mod_exp n e salt_len digest sig,
  exponent_ok e -> all_bytes sig -> all_bytes digest -> all_bytes n -> no_leading_zero n -> exact_for mod_exp n e ->
  let slen := match salt_len with Some s => s | None => Z.of_nat hlen end in
  0 <= slen < 2 ^ 32 -> 8 * zlen n < 2 ^ 32 ->
  let run := rsassa_pss_mgf1_verify mod_exp hash hlen n e salt_len digest sig in
  (run = Ok true <-> pss_valid_bytes hash hlen (Z.to_nat slen) (OS2IP n) (OS2IP e) (length n) digest sig) /\
  (run = Ok true \/ run = Ok false \/ run = UB) /\ (Z.of_nat hlen + slen + 2 < 2 ^ 32 -> run <> UB).
Proof. exact pss_bytes_claim. Qed.
Print Assumptions C09_pss_bytes.
(** C09: for moduli that fill their top byte this is RFC 8017 8.1.2, whatever the salt length. *)
Theorem C09_all_salts : forall hash hlen, hash_ok hash hlen -> Z.of_nat hlen < 2 ^ 31 -> forall mod_exp n e salt_len digest sig,
  exponent_ok e -> all_bytes sig -> all_bytes digest -> all_bytes n -> full_top_byte n -> exact_for mod_exp n e ->
  let slen := match salt_len with Some s => s | None => Z.of_nat hlen end in
  0 <= slen < 2 ^ 32 -> 8 * zlen n < 2 ^ 32 ->
  rsassa_pss_mgf1_verify mod_exp hash hlen n e salt_len digest sig = Ok true <-> rsassa_pss_valid hash hlen (Z.to_nat slen) (OS2IP n) (OS2IP e) (length n) digest sig.
Proof. exact pss_all_salts. Qed.
Print Assumptions C09_all_salts.
(** a modulus of 23 bits, and a salt length that wraps *)
Example C09_bytes_ex : pss_valid_bytes (const_hash 64) 1 0 (OS2IP [66; 0; 1]) (OS2IP [1]) 3 [5] [65; 64; 188] /\
  rsassa_pss_mgf1_verify ideal_exp (const_hash 1) 1 [200; 0; 1] [1] (Some (2 ^ 32 - 1)) [5] [1; 1; 188] <> Ok true /\
  ~ rsassa_pss_valid (const_hash 1) 1 (Z.to_nat (2 ^ 32 - 1)) (OS2IP [200; 0; 1]) (OS2IP [1]) 3 [5] [1; 1; 188].
Proof.
  assert (X : exponent_ok [1]) by (split; [discriminate|]; split; [bytes|]; reflexivity).
  assert (N : rsassa_pss_mgf1_verify ideal_exp (const_hash 1) 1 [200; 0; 1] [1] (Some (2 ^ 32 - 1)) [5] [1; 1; 188] <> Ok true) by (vm_compute; discriminate).
  split; [|split; [exact N|]].
  - refine (proj1 (proj1 (C09_pss_bytes (const_hash 64) 1 _ _ ideal_exp [66; 0; 1] [1] (Some 0) [5] [65; 64; 188] X _ _ _ _ (ideal_exact _ _) _ _)) _);
      [apply const_hash_ok; red; lia|lia|bytes|bytes|bytes|reflexivity|lia|reflexivity|vm_compute; reflexivity].
  - intros Q. apply N. refine (proj2 (C09_all_salts (const_hash 1) 1 _ _ ideal_exp [200; 0; 1] [1] (Some (2 ^ 32 - 1)) [5] [1; 1; 188] X _ _ _ _ (ideal_exact _ _) _ _) Q);
      [apply const_hash_ok; red; lia|lia|bytes|bytes|bytes|cbn; lia|lia|reflexivity].
Qed.
(** C53: the PSS actions succeed exactly on these signatures. *)
Theorem C53_pss_bytes : forall sha1 sha256 sha512 junk K H0 k n e msg sig, host_ok sha1 sha256 sha512 -> length junk = 128%nat -> all_bytes junk -> round_constants K -> initial_value H0 ->
  all_bytes msg -> all_bytes sig -> Z.of_nat (length msg) < 2 ^ 64 -> forall mod_exp salt_len, exponent_ok e -> all_bytes n -> no_leading_zero n -> exact_for mod_exp n e ->
  let slen := match salt_len with Some s => s | None => Z.of_nat (hash_size k) end in
  0 <= slen < 2 ^ 32 -> 8 * zlen n < 2 ^ 32 ->
  let hash := action_hash sha1 sha256 sha512 K H0 k in
  let valid := pss_valid_bytes hash (hash_size k) (Z.to_nat slen) (OS2IP n) (OS2IP e) (length n) (hash msg) sig in
  let act := pss_action sha1 sha256 sha512 junk mod_exp k n e salt_len msg sig in
  (act = Ok tt <-> valid) /\ (act = Ok tt \/ act = Abort \/ act = UB) /\ (Z.of_nat (hash_size k) + slen + 2 < 2 ^ 32 -> act <> UB).
Proof. exact pss_action_bytes_std. Qed.
Print Assumptions C53_pss_bytes.
