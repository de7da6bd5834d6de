(** Property C80: RSA verification over memory with a modulus that has leading zero bytes.  rsa.hpp does not refuse
    such moduli; powm.h strips the zeros from the modulus but not the bytes they stand for from the base. *)
From Coq Require Import List ZArith Bool Lia.
From Verif Require Import Outcome UtilsSpec RsaModel RsaSpec RsaProofs RsaClaims ContractModel ContractSpec RsaSignSpec PowmModel PowmSpec RawModel RawSpec WholeModel RsaMemModel EvenSpec LeadSpec LeadClaims.
Import ListNotations.
Open Scope Z_scope.

(** The signature is [hi ++ lo], the modulus has [length lo] zero bytes before [n :: t].  A signature with fewer
    leading zeros than the modulus passes the range check whatever its value.  Only [hi] is raised to the power; [lo]
    is compared with the end of the encoded message as it stands in the signature. *)
Theorem C80_accepted : forall hi lo es n t, all_bytes es -> all_bytes (n :: t) -> n <> 0 -> length (n :: t) = length hi -> (length hi mod 4 = 0)%nat -> Z.of_nat (length hi) < 2 ^ 27 -> (length es <= 8)%nat -> Z.odd (OS2IP es) = true -> 3 <= OS2IP es ->
  OS2IP hi < OS2IP (n :: t) \/ 256 ^ Z.of_nat (length hi) <= 2 * OS2IP (n :: t) ->
  forall junk jt k m sig exp mod_ digest, all_bytes (hi ++ lo) -> (length lo mod 4 = 0)%nat -> reads m sig (hi ++ lo) -> reads m exp es -> reads m mod_ (repeat 0 (length lo) ++ n :: t) -> length digest = hash_size k ->
  let T := digest_info (action_oid k) digest in
  exists b, verify_rsa_w junk jt k m sig (length (hi ++ lo)) exp (length es) mod_ (length (repeat 0 (length lo) ++ n :: t)) digest = Ok (b, m) /\
  (b = true <-> ((leading_zeros (hi ++ lo) < length lo)%nat \/ OS2IP (hi ++ lo) < OS2IP (n :: t)) /\ (length T + 11 <= length (hi ++ lo))%nat /\ half_raised (OS2IP (n :: t)) (effective (OS2IP es)) hi lo = emsa_pkcs1 T (length (hi ++ lo))).
Proof. exact lead_accepted. Qed.
Print Assumptions C80_accepted.
(** The range check over memory, with a modulus of any number of leading zeros. *)
Theorem C80_range : forall m s p bs z n t, all_bytes bs -> all_bytes (n :: t) -> n <> 0 -> reads m s bs -> reads m p (repeat 0 z ++ n :: t) ->
  valid_w m s (length bs) p (length (repeat 0 z ++ n :: t)) = Ok (Nat.ltb (leading_zeros bs) z || (OS2IP bs <? OS2IP (n :: t))).
Proof. exact range_all. Qed.
Print Assumptions C80_range.
(** PSS: the same block is decoded.  [pss_check] is the part of rsassa_pss_mgf1_verify after rsavp1. *)
Theorem C80_pss : forall hash hlen hi lo es n t, hash_ok hash hlen -> all_bytes es -> all_bytes (n :: t) -> n <> 0 -> length (n :: t) = length hi -> (length hi mod 4 = 0)%nat -> Z.of_nat (length hi) < 2 ^ 27 -> (length es <= 8)%nat -> Z.odd (OS2IP es) = true -> 3 <= OS2IP es ->
  OS2IP hi < OS2IP (n :: t) \/ 256 ^ Z.of_nat (length hi) <= 2 * OS2IP (n :: t) ->
  forall junk jb m sig exp mod_ salt digest, all_bytes (hi ++ lo) -> (length lo mod 4 = 0)%nat -> reads m sig (hi ++ lo) -> reads m exp es -> reads m mod_ (repeat 0 (length lo) ++ n :: t) -> length digest = hlen -> 0 <= match salt with Some s => s | None => Z.of_nat hlen end ->
  (leading_zeros (hi ++ lo) < length lo)%nat \/ OS2IP (hi ++ lo) < OS2IP (n :: t) ->
  pss_w hash hlen junk jb m sig (length (hi ++ lo)) exp (length es) mod_ (length (repeat 0 (length lo) ++ n :: t)) salt digest =
  (let* b := pss_check hash hlen (length (hi ++ lo)) salt digest (half_raised (OS2IP (n :: t)) (effective (OS2IP es)) hi lo) in Ok (b, m)).
Proof. exact lead_pss. Qed.
Print Assumptions C80_pss.
(** If the modulus has at least as many leading zeros as a digest has bytes, a signature accepted for one digest gives
    one for every other: its last bytes are replaced by the other digest.  The two runs may have different memories,
    places of the views and contents of fresh arrays. *)
Theorem C80_transfer : forall junk jt k m m' sig exp mod_ junk' jt' sig' exp' mod_' hi lo es n t digest digest',
  all_bytes es -> all_bytes (n :: t) -> n <> 0 -> length (n :: t) = length hi -> (length hi mod 4 = 0)%nat -> Z.of_nat (length hi) < 2 ^ 27 -> (length es <= 8)%nat -> Z.odd (OS2IP es) = true -> 3 <= OS2IP es ->
  OS2IP hi < OS2IP (n :: t) \/ 256 ^ Z.of_nat (length hi) <= 2 * OS2IP (n :: t) ->
  all_bytes (hi ++ lo) -> (length lo mod 4 = 0)%nat -> (leading_zeros hi < length hi)%nat -> (leading_zeros hi < length lo)%nat -> (hash_size k <= length lo)%nat ->
  all_bytes digest' -> length digest = hash_size k -> length digest' = hash_size k ->
  let ms := repeat 0 (length lo) ++ n :: t in
  let lo' := firstn (length lo - hash_size k) lo ++ digest' in
  reads m sig (hi ++ lo) -> reads m exp es -> reads m mod_ ms -> reads m' sig' (hi ++ lo') -> reads m' exp' es -> reads m' mod_' ms ->
  verify_rsa_w junk jt k m sig (length (hi ++ lo)) exp (length es) mod_ (length ms) digest = Ok (true, m) ->
  verify_rsa_w junk' jt' k m' sig' (length (hi ++ lo')) exp' (length es) mod_' (length ms) digest' = Ok (true, m').
Proof. exact transfer. Qed.
Print Assumptions C80_transfer.
(** RSASSA-PKCS1-v1_5 of RFC 8017 does not hold for a modulus with leading zero bytes: a signature that is not even below the modulus is accepted. *)
Theorem C80_accepted_refuted : exists m sig exp mod_ bs es ms digest, all_bytes bs /\ all_bytes es /\ all_bytes ms /\ length digest = 32%nat /\ reads m sig bs /\ reads m exp es /\ reads m mod_ ms /\ Z.odd (OS2IP ms) = true /\
  verify_rsa_w (fun _ _ => 77) (fun _ => 5) SHA256 m sig (length bs) exp (length es) mod_ (length ms) digest = Ok (true, m) /\ OS2IP ms <= OS2IP bs /\
  ~ rsassa_pkcs1_valid (OS2IP ms) (OS2IP es) (length ms) (digest_info (action_oid SHA256) digest) bs.
Proof. exact lead_refute. Qed.
Print Assumptions C80_accepted_refuted.
(** A number of leading zeros of the modulus, or of its other bytes, that is no multiple of four: verification of every signature that passes the range check is undefined, for PKCS#1 v1.5 and PSS.  A modulus with the one zero byte of its DER encoding is such a case. *)
Theorem C80_lengths_ub : forall hash hlen junk jt jb k m sig exp mod_ bs es z n t salt digest, all_bytes bs -> all_bytes (n :: t) -> reads m sig bs -> reads m exp es -> reads m mod_ (repeat 0 z ++ n :: t) -> n <> 0 -> (0 < length es <= 8)%nat -> length bs = length (repeat 0 z ++ n :: t) ->
  Z.of_nat (length (n :: t)) < 2 ^ 27 -> (leading_zeros bs < z)%nat \/ OS2IP bs < OS2IP (n :: t) -> (z mod 4 <> 0)%nat \/ (length (n :: t) mod 4 <> 0)%nat ->
  verify_rsa_w junk jt k m sig (length bs) exp (length es) mod_ (length (repeat 0 z ++ n :: t)) digest = UB /\ pss_w hash hlen junk jb m sig (length bs) exp (length es) mod_ (length (repeat 0 z ++ n :: t)) salt digest = UB.
Proof. exact verify_ub. Qed.
Print Assumptions C80_lengths_ub.

(** ** Examples *)
Ltac bts := repeat constructor; unfold is_byte; lia.
(** a digest of 32 times the same byte; the modulus has 56 leading zeros and eight other bytes *)
Example C80_accepted_ex : exists b, verify_rsa_w (fun _ _ => 77) (fun _ => 5) SHA256 (zx_mem 7) (0, 0)%nat 64 (0, 64)%nat 1 (1, 0)%nat 64 (repeat 8 32) = Ok (b, zx_mem 7) /\ b = false.
Proof.
  destruct (C80_accepted zx_hi (zx_lo 7) [3] 200 [0; 0; 0; 0; 0; 0; 99]) with (junk := fun _ _ : nat => 77) (jt := fun _ : nat => 5) (k := SHA256) (m := zx_mem 7) (sig := (0, 0)%nat) (exp := (0, 64)%nat) (mod_ := (1, 0)%nat) (digest := repeat 8 32) as (b & E & Hb);
    [bts|bts|lia|reflexivity|reflexivity|reflexivity|cbn; lia|reflexivity|cbn; lia|left; reflexivity|apply zx_lo_bytes; lia|reflexivity|apply zx_sig|apply zx_exp|apply zx_mod|reflexivity|].
  exists b. split; [exact E|]. destruct b; [|reflexivity]. destruct (proj1 Hb eq_refl) as (_ & _ & H). vm_compute in H. discriminate.
Qed.
(** from the digest 7 ... 7 to 9 ... 9 *)
Example C80_transfer_ex : verify_rsa_w (fun _ _ => 11) (fun _ => 6) SHA256 (zx_mem 9) (0, 0)%nat 64 (0, 64)%nat 1 (1, 0)%nat 64 (repeat 9 32) = Ok (true, zx_mem 9).
Proof.
  apply (C80_transfer (fun _ _ => 77) (fun _ => 5) SHA256 (zx_mem 7) (zx_mem 9) (0, 0)%nat (0, 64)%nat (1, 0)%nat (fun _ _ => 11) (fun _ => 6) (0, 0)%nat (0, 64)%nat (1, 0)%nat zx_hi (zx_lo 7) [3] 200 [0; 0; 0; 0; 0; 0; 99] (repeat 7 32) (repeat 9 32));
    [bts|bts|lia|reflexivity|reflexivity|reflexivity|cbn; lia|reflexivity|cbn; lia|left; reflexivity|apply zx_lo_bytes; lia|reflexivity|cbn; lia|apply Nat.ltb_lt; reflexivity|apply Nat.leb_le; reflexivity|cbn [repeat]; bts|reflexivity|reflexivity|apply zx_sig|apply zx_exp|apply zx_mod|apply (zx_sig 9)|apply zx_exp|apply zx_mod|].
  apply (zx_accepted 7). lia.
Qed.
(** a modulus with one zero byte, as in DER, and the signature with one zero byte as well *)
Definition ux_mem : memory := [[0; 100; 1; 2; 3]; [3]; [0; 200; 0; 0; 3]].
Ltac rds := intros [|[|[|[|[|?]]]]] ?; cbn in *; (reflexivity || lia).
Example C80_lengths_ub_ex : verify_rsa_w (fun _ _ => 77) (fun _ => 5) SHA1 ux_mem (0, 0)%nat 5 (1, 0)%nat 1 (2, 0)%nat 5 (repeat 1 20) = UB.
Proof.
  apply (C80_lengths_ub (fun _ => [1]) 1 (fun _ _ => 77) (fun _ => 5) (fun _ => 5) SHA1 ux_mem (0, 0)%nat (1, 0)%nat (2, 0)%nat [0; 100; 1; 2; 3] [3] 1 200 [0; 0; 3] None (repeat 1 20));
    [bts|bts|rds|rds|rds|lia|cbn; lia|reflexivity|reflexivity|right; reflexivity|left; discriminate].
Qed.
Example C80_range_ex : valid_w ux_mem (0, 1)%nat 4 (2, 0)%nat 5 = Ok true /\ valid_w (zx_mem 7) (0, 0)%nat 64 (1, 0)%nat 64 = Ok true.
Proof.
  split; [apply (C80_range ux_mem (0, 1)%nat (2, 0)%nat [100; 1; 2; 3] 1 200 [0; 0; 3]); [bts|bts|lia|rds|rds]|].
  pose proof (C80_range (zx_mem 7) (0, 0)%nat (1, 0)%nat (zx_hi ++ zx_lo 7) 56 200 [0; 0; 0; 0; 0; 0; 99] (zx_lo_bytes 7 ltac:(lia)) ltac:(bts) ltac:(lia) (zx_sig 7) (zx_mod 7)) as E. exact E.
Qed.
Example C80_pss_ex : pss_w (fun m => [Z.of_nat (length m) mod 256]) 1 (fun _ _ => 77) (fun _ => 5) (zx_mem 7) (0, 0)%nat 64 (0, 64)%nat 1 (1, 0)%nat 64 (Some 3) [5] = Ok (false, zx_mem 7).
Proof.
  assert (E : pss_w (fun m => [Z.of_nat (length m) mod 256]) 1 (fun _ _ => 77) (fun _ => 5) (zx_mem 7) (0, 0)%nat 64 (0, 64)%nat 1 (1, 0)%nat 64 (Some 3) [5] =
    (let* b := pss_check (fun m => [Z.of_nat (length m) mod 256]) 1 64 (Some 3) [5] (half_raised (OS2IP zx_n) 3 zx_hi (zx_lo 7)) in Ok (b, zx_mem 7))).
  { apply (C80_pss (fun m => [Z.of_nat (length m) mod 256]) 1 zx_hi (zx_lo 7) [3] 200 [0; 0; 0; 0; 0; 0; 99]);
      [split; [lia|]; split; [reflexivity|]; intros m; constructor; [apply Z.mod_pos_bound; lia|constructor]|bts|bts|lia|reflexivity|reflexivity|reflexivity|cbn; lia|reflexivity|cbn; lia|left; reflexivity|apply zx_lo_bytes; lia|reflexivity|apply zx_sig|apply zx_exp|apply zx_mod|reflexivity|lia|left; apply Nat.ltb_lt; reflexivity]. }
  rewrite E. vm_compute. reflexivity.
Qed.
