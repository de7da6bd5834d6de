(** Property C79: the software exponentiation and RSA verification with an even modulus.  powm.h and rsa.hpp nowhere
    check that the modulus is odd. *)
From Coq Require Import List ZArith Bool Lia.
From Verif Require Import Outcome UtilsSpec RsaModel RsaSpec RsaProofs RsaClaims ContractModel ContractSpec RsaSignSpec PowmModel PowmSpec PowmClaims RawModel RawSpec WholeModel RsaMemModel EvenSpec EvenPowm EvenMem EvenClaims.
Import ListNotations.
Open Scope Z_scope.

(** For an even modulus the inverse of its lowest word is taken to be 0, so that a Montgomery product is the upper half
    of the product, and the result is a power made of such products instead of one modulo n: for every base of the
    length of the modulus, and every odd exponent from 3 up of at most eight bytes. *)
Theorem C79_power : forall base exp m, even_modulus m -> all_bytes exp -> (length exp <= 8)%nat -> Z.odd (OS2IP exp) = true -> 3 <= OS2IP exp -> all_bytes base -> length base = length m ->
  mod_exp_sw base exp m = Ok (Some (I2OSP (truncated_power (range_of m) (OS2IP m) (OS2IP base) (effective (OS2IP exp))) (length m))).
Proof. exact even_power. Qed.
Print Assumptions C79_power.
(** The other exponents of at most eight bytes are refused, as with an odd modulus. *)
Theorem C79_refuses : forall base exp m, even_modulus m -> all_bytes exp -> (length exp <= 8)%nat -> Z.even (OS2IP exp) = true \/ OS2IP exp < 3 -> all_bytes base -> length base = length m -> mod_exp_sw base exp m = Ok None.
Proof. exact even_refuses. Qed.
Print Assumptions C79_refuses.

(** The same over memory: every access of powm.h is in bounds with an even modulus as well, the output is written and
    nothing else.  The leading bytes of the base, as many as the modulus has without its leading zeros, are raised;
    the bytes after them are copied. *)
Theorem C79_memory : forall junk m base exp mod_ out hi lo es z n t, all_bytes (hi ++ lo) -> all_bytes es -> all_bytes (n :: t) -> reads m base (hi ++ lo) -> reads m exp es -> reads m mod_ (repeat 0 z ++ n :: t) -> room m out (length (hi ++ lo)) ->
  n <> 0 -> length (n :: t) = length hi -> (length hi mod 4 = 0)%nat -> (length lo mod 4 = 0)%nat -> Z.of_nat (length hi) < 2 ^ 27 -> (length es <= 8)%nat -> Z.even (OS2IP (n :: t)) = true -> Z.odd (OS2IP es) = true -> 3 <= OS2IP es ->
  exists m', powm_w junk m base (length (hi ++ lo)) exp (length es) mod_ (z + length (n :: t)) out = Ok (true, m') /\ only m m' [(out, length (hi ++ lo))] /\
    reads m' out (I2OSP (truncated_power (256 ^ Z.of_nat (length hi)) (OS2IP (n :: t)) (OS2IP hi) (effective (OS2IP es))) (length hi) ++ lo).
Proof. exact high_claim. Qed.
Print Assumptions C79_memory.
(** powm of rsa.hpp over memory against the function on byte lists, for every base and exponent. *)
Theorem C79_powm : forall junk m base exp mod_ bs es ms, even_modulus ms -> all_bytes bs -> all_bytes es -> reads m base bs -> reads m exp es -> reads m mod_ ms ->
  powm_view_w junk m base (length bs) exp (length es) mod_ (length ms) = (let* r := RsaModel.powm mod_exp_sw bs es ms in Ok (r, m)).
Proof. exact view_even. Qed.
Print Assumptions C79_powm.
(** RSA verification over memory against the functions on byte lists. *)
Theorem C79_pkcs1_agrees : forall junk jt m sig exp mod_ bs es ms prefix digest, even_modulus ms -> all_bytes bs -> all_bytes es -> reads m sig bs -> reads m exp es -> reads m mod_ ms ->
  pkcs1_w junk jt m sig (length bs) exp (length es) mod_ (length ms) prefix digest = (let* b := rsassa_pkcs1_v1_5_verify mod_exp_sw ms es bs (prefix ++ digest) in Ok (b, m)).
Proof. exact pkcs1_even_agrees. Qed.
Print Assumptions C79_pkcs1_agrees.
Theorem C79_pss_agrees : forall hash hlen junk jb m sig exp mod_ bs es ms salt digest, hash_ok hash hlen -> length digest = hlen -> 0 <= match salt with Some s => s | None => Z.of_nat hlen end ->
  even_modulus ms -> all_bytes bs -> all_bytes es -> reads m sig bs -> reads m exp es -> reads m mod_ ms ->
  pss_w hash hlen junk jb m sig (length bs) exp (length es) mod_ (length ms) salt digest = (let* b := rsassa_pss_mgf1_verify mod_exp_sw hash hlen ms es salt digest bs in Ok (b, m)).
Proof. exact pss_even_agrees. Qed.
Print Assumptions C79_pss_agrees.

(** PKCS#1 v1.5 with an even modulus: the signatures accepted are those whose truncated power is the encoded message. *)
Theorem C79_accepted : forall junk jt k m sig exp mod_ bs es ms digest, even_modulus ms -> all_bytes bs -> all_bytes es -> (length es <= 8)%nat -> Z.odd (OS2IP es) = true -> 3 <= OS2IP es -> reads m sig bs -> reads m exp es -> reads m mod_ ms -> length digest = hash_size k ->
  let T := digest_info (action_oid k) digest in
  exists b, verify_rsa_w junk jt k m sig (length bs) exp (length es) mod_ (length ms) digest = Ok (b, m) /\
  (b = true <-> length bs = length ms /\ OS2IP bs < OS2IP ms /\ (length T + 11 <= length ms)%nat /\ I2OSP (truncated_power (range_of ms) (OS2IP ms) (OS2IP bs) (effective (OS2IP es))) (length ms) = emsa_pkcs1 T (length ms)).
Proof. exact accepted. Qed.
Print Assumptions C79_accepted.
(** With exponent 3, an even modulus whose top bit is set and whose r^2 mod n is not below r/32 has a signature for
    every digest.  The truncated cube climbs by at most one from one number to the next, so the signature can be
    found by halving. *)
Theorem C79_forgeable : forall n k digest, even_modulus n -> range_of n <= 2 * OS2IP n -> range_of n <= 32 * (range_of n * range_of n mod OS2IP n) -> all_bytes digest -> length digest = hash_size k -> (length (digest_info (action_oid k) digest) + 11 <= length n)%nat ->
  exists sig, all_bytes sig /\ length sig = length n /\ verify_rsa mod_exp_sw k n [3] digest sig = Ok true.
Proof. exact forge_kind. Qed.
Print Assumptions C79_forgeable.
(** RSASSA-PKCS1-v1_5 of RFC 8017 does not hold for an even modulus: a signature it rejects is accepted. *)
Theorem C79_accepted_refuted : exists n digest sig, even_modulus n /\ all_bytes digest /\ length digest = 32%nat /\ all_bytes sig /\ verify_rsa mod_exp_sw SHA256 n [3] digest sig = Ok true /\
  ~ rsassa_pkcs1_valid (OS2IP n) 3 (length n) (digest_info (action_oid SHA256) digest) sig.
Proof. exact accept_refute. Qed.
Print Assumptions C79_accepted_refuted.

(** ** Examples *)
Ltac bts := repeat constructor; unfold is_byte; lia.
Ltac rds := intros [|[|[|[|[|[|[|[|[|?]]]]]]]]] ?; cbn in *; (reflexivity || lia).
Definition hx_n : list Z := [200; 2; 2; 2].
Lemma hx_fit : even_modulus hx_n.
Proof. split; [bts|]. split; [reflexivity|]. split; [reflexivity|]. split; reflexivity. Qed.
(** the cube of 100 * 2^24 modulo n is another number *)
Example C79_power_ex : mod_exp_sw [100; 0; 0; 0] [3] hx_n = Ok (Some (I2OSP (truncated_power (2 ^ 32) (OS2IP hx_n) (OS2IP [100; 0; 0; 0]) 3) 4)).
Proof. apply (C79_power [100; 0; 0; 0] [3] hx_n hx_fit); [bts|cbn; lia|reflexivity|cbn; lia|bts|reflexivity]. Qed.
Example C79_power_value_ex : truncated_power (2 ^ 32) (OS2IP hx_n) (OS2IP [100; 0; 0; 0]) 3 = 108115826 /\ OS2IP [100; 0; 0; 0] ^ 3 mod OS2IP hx_n <> 108115826.
Proof. split; [reflexivity|vm_compute; discriminate]. Qed.
Example C79_refuses_ex : mod_exp_sw [100; 0; 0; 0] [6] hx_n = Ok None.
Proof. apply (C79_refuses [100; 0; 0; 0] [6] hx_n hx_fit); [bts|cbn; lia|left; reflexivity|bts|reflexivity]. Qed.
(** the modulus with one leading zero, at an offset; the output where the base is *)
Definition ex_e : memory := [[100; 0; 0; 0; 9]; [3; 5]; [7; 0; 200; 2; 2; 2]].
Example C79_memory_ex : exists m', powm_w (fun _ _ => 77) ex_e (0, 0)%nat 4 (1, 0)%nat 1 (2, 1)%nat 5 (0, 0)%nat = Ok (true, m') /\ only ex_e m' [((0, 0)%nat, 4%nat)] /\ reads m' (0, 0)%nat (I2OSP 108115826 4).
Proof.
  destruct (C79_memory (fun _ _ => 77) ex_e (0, 0)%nat (1, 0)%nat (2, 1)%nat (0, 0)%nat [100; 0; 0; 0] [] [3] 1 200 [2; 2; 2]) as (m' & E & O & R); [bts|bts|bts|rds|rds|rds| |lia|reflexivity|reflexivity|reflexivity|reflexivity|cbn; lia|reflexivity|reflexivity|cbn; lia|].
  - intros [|[|[|[|?]]]] ?; cbn in *; (discriminate || lia).
  - exists m'. split; [exact E|]. split; [exact O|]. rewrite app_nil_r in R. exact R.
Qed.
Definition ex_v : memory := [[100; 0; 0; 0; 9]; [3; 5]; [7; 200; 2; 2; 2]].
Example C79_powm_ex : powm_view_w (fun _ _ => 77) ex_v (0, 0)%nat 4 (1, 0)%nat 1 (2, 1)%nat 4 = Ok (I2OSP 108115826 4, ex_v).
Proof.
  change (powm_view_w (fun _ _ => 77) ex_v (0, 0)%nat 4 (1, 0)%nat 1 (2, 1)%nat 4) with (powm_view_w (fun _ _ => 77) ex_v (0, 0)%nat (length [100; 0; 0; 0]) (1, 0)%nat (length [3]) (2, 1)%nat (length hx_n)).
  rewrite (C79_powm (fun _ _ => 77) ex_v (0, 0)%nat (1, 0)%nat (2, 1)%nat [100; 0; 0; 0] [3] hx_n hx_fit); [|bts|bts|rds|rds|rds]. unfold RsaModel.powm. cbn [length Nat.ltb Nat.leb Nat.eqb negb andb check bind hx_n]. rewrite C79_power_ex. reflexivity.
Qed.
(** a modulus of 64 bytes, the signature and the exponent in one block *)
Definition ex_f : memory := [fx_sig ++ [3]; fx_n].
Lemma ex_f_sig : reads ex_f (0, 0)%nat fx_sig. Proof. intros j Hj. cbn [fst snd Nat.add]. unfold ex_f, rd. cbn [nth_error]. rewrite nth_error_app1 by exact Hj. apply nth_error_nth'. exact Hj. Qed.
Lemma ex_f_exp : reads ex_f (0, 64)%nat [3]. Proof. intros [|j] Hj; [vm_compute; reflexivity|cbn in Hj; lia]. Qed.
Lemma ex_f_mod : reads ex_f (1, 0)%nat fx_n. Proof. intros j Hj. cbn [fst snd Nat.add]. unfold ex_f, rd. cbn [nth_error]. apply nth_error_nth'. exact Hj. Qed.
Example C79_accepted_ex : verify_rsa_w (fun _ _ => 77) (fun _ => 5) SHA256 ex_f (0, 0)%nat 64 (0, 64)%nat 1 (1, 0)%nat 64 (repeat 7 32) = Ok (true, ex_f).
Proof.
  destruct (C79_accepted (fun _ _ => 77) (fun _ => 5) SHA256 ex_f (0, 0)%nat (0, 64)%nat (1, 0)%nat fx_sig [3] fx_n (repeat 7 32) fx_fit) as (b & E & Hb); [apply I2OSP_bytes|bts|cbn; lia|reflexivity|cbn; lia|exact ex_f_sig|exact ex_f_exp|exact ex_f_mod|reflexivity|].
  replace b with true in E; [exact E|]. symmetry. apply Hb. split; [reflexivity|]. split; [vm_compute; reflexivity|]. split; [apply Nat.leb_le; vm_compute; reflexivity|vm_compute; reflexivity].
Qed.
Example C79_pkcs1_agrees_ex : pkcs1_w (fun _ _ => 77) (fun _ => 5) ex_f (0, 0)%nat (length fx_sig) (0, 64)%nat (length [3]) (1, 0)%nat (length fx_n) (RsaMemModel.prefix_of SHA256) (repeat 7 32) =
  (let* b := rsassa_pkcs1_v1_5_verify mod_exp_sw fx_n [3] fx_sig (RsaMemModel.prefix_of SHA256 ++ repeat 7 32) in Ok (b, ex_f)).
Proof. apply (C79_pkcs1_agrees (fun _ _ => 77) (fun _ => 5) ex_f (0, 0)%nat (0, 64)%nat (1, 0)%nat fx_sig [3] fx_n (RsaMemModel.prefix_of SHA256) (repeat 7 32) fx_fit (I2OSP_bytes _ _) ltac:(bts) ex_f_sig ex_f_exp ex_f_mod). Qed.
Example C79_pss_agrees_ex : pss_w (fun m => [Z.of_nat (length m) mod 256]) 1 (fun _ _ => 77) (fun _ => 5) ex_f (1, 0)%nat 64 (0, 64)%nat 1 (1, 0)%nat 64 (Some 3) [5] = Ok (false, ex_f).
Proof.
  change (pss_w (fun m => [Z.of_nat (length m) mod 256]) 1 (fun _ _ => 77) (fun _ => 5) ex_f (1, 0)%nat 64 (0, 64)%nat 1 (1, 0)%nat 64 (Some 3) [5]) with (pss_w (fun m => [Z.of_nat (length m) mod 256]) 1 (fun _ _ => 77) (fun _ => 5) ex_f (1, 0)%nat (length fx_n) (0, 64)%nat (length [3]) (1, 0)%nat (length fx_n) (Some 3) [5]).
  rewrite (C79_pss_agrees (fun m => [Z.of_nat (length m) mod 256]) 1 (fun _ _ => 77) (fun _ => 5) ex_f (1, 0)%nat (0, 64)%nat (1, 0)%nat fx_n [3] fx_n (Some 3) [5]); [| |reflexivity|lia|exact fx_fit|apply fx_fit|bts|exact ex_f_mod|exact ex_f_exp|exact ex_f_mod].
  - unfold rsassa_pss_mgf1_verify. rewrite Nat.eqb_refl. cbn [negb]. unfold rsavp1. rewrite is_s_valid_spec by apply fx_fit. rewrite Z.ltb_irrefl. reflexivity.
  - split; [lia|]. split; [reflexivity|]. intros m. constructor; [apply Z.mod_pos_bound; lia|constructor].
Qed.
Example C79_forgeable_ex : exists sig, all_bytes sig /\ length sig = 64%nat /\ verify_rsa mod_exp_sw SHA256 fx_n [3] (repeat 9 32) sig = Ok true.
Proof. apply (C79_forgeable fx_n SHA256 (repeat 9 32) fx_fit); [vm_compute; discriminate|vm_compute; discriminate|cbn [repeat]; bts|reflexivity|apply Nat.leb_le; vm_compute; reflexivity]. Qed.
