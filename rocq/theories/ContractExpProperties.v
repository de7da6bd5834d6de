(** C53: the RSA actions over the exponentiation of powm.h, for every public exponent. *)
From Coq Require Import List ZArith Bool Lia.
From Verif Require Import Outcome UtilsModel UtilsSpec UtilsProofs RsaModel RsaSpec RsaProofs RsaClaims RsaPssSpec PowmModel PowmSpec PowmMain PowmClaims ShaModel ShaSpec ShaProofs ContractModel ContractSpec ContractClaims ContractProperties PowmExp ContractExp.
Import ListNotations.
Open Scope Z_scope.

(** C53, PKCS#1 v1.5: the outcome of the actions for every exponent of a transaction. *)
Theorem C53_pkcs1_every : forall sha1 sha256 sha512 junk K H0 k n e msg sig, host_ok sha1 sha256 sha512 -> length junk = 128%nat -> all_bytes junk -> round_constants K -> initial_value H0 ->
  all_bytes msg -> all_bytes sig -> Z.of_nat (length msg) < 2 ^ 64 -> modulus_fit n ->
  let hash := action_hash sha1 sha256 sha512 K H0 k in
  let act := rsa_action sha1 sha256 sha512 junk mod_exp_sw k n e msg sig in
  let valid := rsassa_pkcs1_valid (OS2IP n) (effective (OS2IP e)) (length n) (digest_info (action_oid k) (hash msg)) sig in
  all_bytes e ->
  (length sig <> length n \/ OS2IP n <= OS2IP sig -> act = Abort) /\
  (length sig = length n -> OS2IP sig < OS2IP n ->
    (e = [] \/ 2 ^ 64 <= OS2IP e -> act = Abort) /\
    ((8 < length e)%nat -> OS2IP e < 2 ^ 64 -> act = UB) /\
    ((0 < length e <= 8)%nat -> Z.even (OS2IP e) = true \/ OS2IP e < 3 -> act = Abort)) /\
  (odd_exponent e -> (valid -> act = Ok tt) /\ (~ valid -> act = Abort)).
Proof. exact rsa_action_table. Qed.
Print Assumptions C53_pkcs1_every.
(** C53, PSS: the same; the signatures accepted are those of [pss_valid_bytes], which are those of the RFC for moduli that fill their top byte. *)
Theorem C53_pss_every : forall sha1 sha256 sha512 junk K H0 k n e msg sig, host_ok sha1 sha256 sha512 -> length junk = 128%nat -> all_bytes junk -> round_constants K -> initial_value H0 ->
  all_bytes msg -> all_bytes sig -> Z.of_nat (length msg) < 2 ^ 64 -> modulus_fit n -> forall s,
  let hash := action_hash sha1 sha256 sha512 K H0 k in
  let slen := match s with Some x => x | None => Z.of_nat (hash_size k) end in
  let act := pss_action sha1 sha256 sha512 junk mod_exp_sw k n e s msg sig in
  let valid := pss_valid_bytes hash (hash_size k) (Z.to_nat slen) (OS2IP n) (effective (OS2IP e)) (length n) (hash msg) sig in
  all_bytes e -> 0 <= slen -> Z.of_nat (hash_size k) + slen + 10 < 2 ^ 32 ->
  (length sig <> length n \/ OS2IP n <= OS2IP sig -> act = Abort) /\
  (length sig = length n -> OS2IP sig < OS2IP n ->
    (e = [] \/ 2 ^ 64 <= OS2IP e -> act = Abort) /\
    ((8 < length e)%nat -> OS2IP e < 2 ^ 64 -> act = UB) /\
    ((0 < length e <= 8)%nat -> Z.even (OS2IP e) = true \/ OS2IP e < 3 -> act = Abort)) /\
  (odd_exponent e -> (valid -> act = Ok tt) /\ (~ valid -> act = Abort)) /\
  (odd_exponent e -> full_top_byte n -> (valid <-> rsassa_pss_valid hash (hash_size k) (Z.to_nat slen) (OS2IP n) (effective (OS2IP e)) (length n) (hash msg) sig)).
Proof. exact pss_action_table. Qed.
Print Assumptions C53_pss_every.
(** C53, finding: a transaction can drive every RSA action into undefined behaviour. For every modulus the exponentiation is made for, an exponent with leading zeros that is longer than 8 bytes and any signature of the right size below the modulus make powm.h write outside the 8 bytes it keeps the exponent in. *)
Theorem C53_exponent_ub : forall sha1 sha256 sha512 junk k n e msg sig s, host_ok sha1 sha256 sha512 -> length junk = 128%nat -> all_bytes junk ->
  all_bytes msg -> all_bytes sig -> Z.of_nat (length msg) < 2 ^ 64 -> modulus_fit n -> all_bytes e -> (8 < length e)%nat -> OS2IP e < 2 ^ 64 -> length sig = length n -> OS2IP sig < OS2IP n ->
  0 <= match s with Some x => x | None => Z.of_nat (hash_size k) end < 2 ^ 32 - 100 ->
  rsa_action sha1 sha256 sha512 junk mod_exp_sw k n e msg sig = UB /\ pss_action sha1 sha256 sha512 junk mod_exp_sw k n e s msg sig = UB.
Proof. exact exponent_dead. Qed.
Print Assumptions C53_exponent_ub.

Definition ex_e : list Z := repeat 0 6 ++ [1; 0; 1].
Example C53_every_ex : host_ok (toy 20) (toy 32) (toy 64) /\ modulus_fit ex_n /\ odd_exponent [1; 0; 1] /\ odd_exponent lx_e /\ effective (OS2IP lx_e) <> OS2IP lx_e /\ (8 < length ex_e)%nat /\ OS2IP ex_e = 65537 /\
  rsa_action (toy 20) (toy 32) (toy 64) (repeat 0 128) mod_exp_sw SHA256 ex_n ex_e ack ex_sig1 = UB /\ pss_action (toy 20) (toy 32) (toy 64) (repeat 0 128) mod_exp_sw SHA256 ex_n ex_e (Some 5) ack ex_sig2 = UB /\
  rsa_action (toy 20) (toy 32) (toy 64) (repeat 0 128) mod_exp_sw SHA256 ex_n [3] ack ex_sig1 = Ok tt /\ rsa_action (toy 20) (toy 32) (toy 64) (repeat 0 128) mod_exp_sw SHA256 ex_n [4] ack ex_sig1 = Abort.
Proof.
  destruct C53_ex as (Hn & Hf & He & F1 & F2 & _).
  assert (J : length (repeat 0 128) = 128%nat) by apply repeat_length. assert (FJ : all_bytes (repeat 0 128)) by (apply Forall_forall; intros x Hx; apply repeat_spec in Hx; subst x; unfold is_byte; lia).
  assert (FA : all_bytes ack) by (unfold ack; bytes). assert (FE : all_bytes ex_e) by (unfold ex_e; cbn [repeat app]; bytes).
  assert (L1 : length ex_sig1 = length ex_n) by reflexivity. assert (L2 : length ex_sig2 = length ex_n) by reflexivity.
  assert (S1 : OS2IP ex_sig1 < OS2IP ex_n) by (vm_compute; reflexivity). assert (S2 : OS2IP ex_sig2 < OS2IP ex_n) by (vm_compute; reflexivity).
  assert (O3 : odd_exponent [3]). { split; [bytes|]. split; [cbn; lia|]. split; [reflexivity|]. vm_compute. discriminate. }
  split; [exact toy_host|]. split; [exact Hn|]. split. { split; [bytes|]. split; [cbn; lia|]. split; [reflexivity|]. vm_compute. discriminate. }
  split; [exact lx_e_odd|]. split; [vm_compute; discriminate|]. split; [cbn; lia|]. split; [vm_compute; reflexivity|].
  split. { refine (proj1 (C53_exponent_ub _ _ _ _ SHA256 ex_n ex_e ack ex_sig1 (Some 5) toy_host J FJ FA F1 _ Hn FE _ _ L1 S1 _)); [vm_compute; reflexivity|cbn; lia|vm_compute; reflexivity|split; [lia|vm_compute; reflexivity]]. }
  split. { refine (proj2 (C53_exponent_ub _ _ _ _ SHA256 ex_n ex_e ack ex_sig2 (Some 5) toy_host J FJ FA F2 _ Hn FE _ _ L2 S2 _)); [vm_compute; reflexivity|cbn; lia|vm_compute; reflexivity|split; [lia|vm_compute; reflexivity]]. }
  split.
  - refine (proj1 (proj2 (proj2 (C53_pkcs1_every (toy 20) (toy 32) (toy 64) (repeat 0 128) K_512 sha384_initial SHA256 ex_n [3] ack ex_sig1 toy_host J FJ _ _ FA F1 _ Hn (proj1 O3))) O3) _);
      [apply sha384_constants|apply sha384_constants|vm_compute; reflexivity|].
    split; [reflexivity|]. split; [exact S1|]. split; [apply Nat.leb_le; vm_compute; reflexivity|]. vm_compute. reflexivity.
  - refine (proj2 (proj2 (proj1 (proj2 (C53_pkcs1_every (toy 20) (toy 32) (toy 64) (repeat 0 128) K_512 sha384_initial SHA256 ex_n [4] ack ex_sig1 toy_host J FJ _ _ FA F1 _ Hn _)) L1 S1)) _ _);
      [apply sha384_constants|apply sha384_constants|vm_compute; reflexivity|bytes|cbn; lia|left; reflexivity].
Qed.
