(** The claims about c/powm.h in the form used by PowmProperties.v. *)
From Coq Require Import List ZArith Bool Lia Zpow_facts.
From Verif Require Import Outcome UtilsModel UtilsSpec UtilsProofs RsaModel RsaSpec RsaProofs RsaClaims ShaModel BitLemmas WordsModel WordsSpec WordsProofs PowmModel PowmProofs PowmArith PowmReduce PowmConv PowmMont PowmSpec PowmMain.
Import ListNotations.
Open Scope Z_scope.

(** moduli the routine is made for: whole 32-bit words, top byte non-zero, odd, shorter than 2^27 bytes *)
Definition modulus_fit (m : list Z) : Prop :=
  all_bytes m /\ no_leading_zero m /\ Z.odd (OS2IP m) = true /\ (length m mod 4 = 0)%nat /\ Z.of_nat (length m) < 2 ^ 27.
(** exponents it handles: at most 8 bytes, odd, from 3 to 2^33 *)
Definition exponent_fit (e : list Z) : Prop :=
  all_bytes e /\ (length e <= 8)%nat /\ Z.odd (OS2IP e) = true /\ 3 <= OS2IP e < 2 ^ 33.

Lemma mod4 l : (l mod 4 = 0 -> l = 4 * (l / 4))%nat.
Proof. intros H. pose proof (Nat.div_mod l 4 ltac:(lia)). lia. Qed.
Lemma powm_exact_claim base e m : modulus_fit m -> exponent_fit e -> all_bytes base -> length base = length m ->
  (OS2IP base < OS2IP m \/ 2 ^ (8 * Z.of_nat (length m)) <= 2 * OS2IP m) ->
  mod_exp_sw base e m = Ok (Some (I2OSP (OS2IP base ^ OS2IP e mod OS2IP m) (length m))).
Proof.
  intros (M1 & M2 & M3 & M4 & M5) (E1 & E2 & E3 & E4) Hb Lb Hs.
  apply (mod_exp_sw_spec m (length m / 4)); try assumption. apply mod4. exact M4.
Qed.
Lemma powm_total base e m : modulus_fit m -> all_bytes e -> (length e <= 8)%nat -> Z.odd (OS2IP e) = true -> 3 <= OS2IP e -> all_bytes base -> length base = length m ->
  exists v, mod_exp_sw base e m = Ok (Some (I2OSP v (length m))) /\ 0 <= v < 2 ^ (8 * Z.of_nat (length m)) /\
    v mod OS2IP m = OS2IP base ^ effective (OS2IP e) mod OS2IP m /\
    (OS2IP base < OS2IP m \/ 2 ^ (8 * Z.of_nat (length m)) <= 2 * OS2IP m -> v = OS2IP base ^ effective (OS2IP e) mod OS2IP m).
Proof.
  intros (M1 & M2 & M3 & M4 & M5) E1 E2 E3 E4 Hb Lb. pose proof (OS2IP_range e E1) as RE.
  assert (R64 : 3 <= OS2IP e < 2 ^ 64). { split; [exact E4|]. apply Z.lt_le_trans with (1 := proj2 RE). change (2 ^ 64) with (256 ^ 8). apply Z.pow_le_mono_r; lia. }
  destruct (mod_exp_sw_total m (length m / 4) M1 M2 (mod4 _ M4) M5 base e E1 E2 E3 R64 M3 Hb Lb) as (v & V1 & V2 & V3 & V4).
  exists v. split; [exact V1|]. split; [exact V2|]. split; [|exact V4]. apply cong_mod; [|exact V3].
  destruct m as [|b t]; [destruct M2|]. pose proof (OS2IP_range t (Forall_inv_tail M1)) as RT. cbn in M2. rewrite OS2IP_cons. assert (0 < 256 ^ Z.of_nat (length t)) by (apply Z.pow_pos_nonneg; lia). nia.
Qed.
Lemma powm_exact_for m e : modulus_fit m -> exponent_fit e -> exact_for mod_exp_sw m e.
Proof. intros Hm He base Hb Lb Hs. apply powm_exact_claim; try assumption. left. exact Hs. Qed.
Lemma exponent_fit_ok e : exponent_fit e -> exponent_ok e.
Proof.
  intros (E1 & E2 & E3 & E4). split; [intros ->; cbn in E4; lia|]. split; [exact E1|]. change (2 ^ 33) with 8589934592 in E4. change (2 ^ 64) with 18446744073709551616. lia.
Qed.
(** PKCS#1 v1.5 verification with the software exponentiation *)
Lemma pkcs1_sw n e sig digest : modulus_fit n -> exponent_fit e -> all_bytes sig ->
  (length digest = 20%nat -> exists b, verify_rsa_sha1 mod_exp_sw n e digest sig = Ok b /\
     (b = true <-> rsassa_pkcs1_valid (OS2IP n) (OS2IP e) (length n) (digest_info oid_sha1 digest) sig)) /\
  (length digest = 32%nat -> exists b, verify_rsa_sha256 mod_exp_sw n e digest sig = Ok b /\
     (b = true <-> rsassa_pkcs1_valid (OS2IP n) (OS2IP e) (length n) (digest_info oid_sha256 digest) sig)) /\
  (length digest = 48%nat -> exists b, verify_rsa_sha384 mod_exp_sw n e digest sig = Ok b /\
     (b = true <-> rsassa_pkcs1_valid (OS2IP n) (OS2IP e) (length n) (digest_info oid_sha384 digest) sig)) /\
  (length digest = 64%nat -> exists b, verify_rsa_sha512 mod_exp_sw n e digest sig = Ok b /\
     (b = true <-> rsassa_pkcs1_valid (OS2IP n) (OS2IP e) (length n) (digest_info oid_sha512 digest) sig)).
Proof.
  intros Hn He Hs. apply pkcs1_types; [apply exponent_fit_ok; exact He|exact Hs|apply Hn|apply Hn|apply powm_exact_for; assumption].
Qed.
(** PSS verification with the software exponentiation *)
Lemma pss_sw hash hlen n e salt_len digest sig : hash_ok hash hlen -> modulus_fit n -> full_top_byte n -> exponent_fit e -> all_bytes sig -> all_bytes digest ->
  let slen := match salt_len with Some s => s | None => Z.of_nat hlen end in
  0 <= slen -> Z.of_nat hlen + slen + 10 < 2 ^ 32 ->
  exists b, rsassa_pss_mgf1_verify mod_exp_sw hash hlen n e salt_len digest sig = Ok b /\
  (b = true <-> rsassa_pss_valid hash hlen (Z.to_nat slen) (OS2IP n) (OS2IP e) (length n) digest sig).
Proof.
  intros Hh Hn Hf He Hs Hd slen H0 H1. apply (pss_claim mod_exp_sw hash hlen n e salt_len digest sig); try assumption.
  - apply exponent_fit_ok. exact He.
  - apply Hn.
  - apply powm_exact_for; assumption.
  - destruct Hn as (_ & _ & _ & _ & H27). unfold zlen. change (2 ^ 27) with 134217728 in H27. change (2 ^ 32) with 4294967296. lia.
Qed.

(** refused exponents: the error code, which [powm] turns into a result of zero bytes *)
Lemma key_prop_sw m e base : modulus_fit m -> all_bytes e -> (length e <= 8)%nat -> all_bytes base -> length base = length m ->
  exists key, k_exponent key = OS2IP e /\ k_len key = (length m / 4)%nat /\ mod_exp_sw base e m = pow_mod key base.
Proof.
  intros (M1 & M2 & M3 & M4 & M5) E1 E2 Hb Lb. set (L := (length m / 4)%nat). pose proof (mod4 _ M4) as EL. fold L in EL.
  destruct (key_prop_spec m L M1 M2 EL M5 e E1 E2 M3) as (prop & ws & K1 & K2 & K3 & K4 & K5 & K6 & K7 & K8 & K9 & rr & K10 & K11 & K12 & K13).
  exists (mkkey L (p_n0inv prop) ws rr (OS2IP e)). split; [reflexivity|]. split; [reflexivity|].
  unfold mod_exp_sw. rewrite K1. cbn [bind]. unfold rsa_mod_exp_sw. rewrite K3. assert (LP : (1 <= L)%nat) by (destruct m; [destruct M2|cbn [length] in EL; lia]). rewrite (proj2 (Nat.eqb_neq _ 0)) by lia. cbv zeta.
  replace (32 * L / 32)%nat with L by (rewrite Nat.mul_comm; symmetry; apply Nat.div_mul; lia). rewrite K2, K5. cbn [bind]. rewrite K10. cbn [bind]. rewrite K4.
  replace (length base mod 4)%nat with 0%nat by (rewrite Lb; symmetry; exact M4). reflexivity.
Qed.
Lemma powm_refuses m e base : modulus_fit m -> all_bytes e -> (length e <= 8)%nat -> all_bytes base -> length base = length m ->
  Z.even (OS2IP e) = true \/ OS2IP e < 2 -> mod_exp_sw base e m = Ok None.
Proof.
  intros Hm E1 E2 Hb Lb Hr. destruct (key_prop_sw m e base Hm E1 E2 Hb Lb) as (key & K1 & K2 & K3). rewrite K3. unfold pow_mod. rewrite K1, K2.
  destruct Hm as (M1 & M2 & M3 & M4 & M5). destruct (be_words_spec (length m / 4) base Hb) as (val & V1 & _). { rewrite Lb. pose proof (mod4 _ M4). lia. }
  rewrite V1. cbn [bind]. pose proof (OS2IP_range e E1) as RE. assert (R64 : OS2IP e < 2 ^ 64).
  { apply Z.lt_le_trans with (256 ^ Z.of_nat (length e)); [apply RE|]. change 256 with (2 ^ 8). rewrite <- Z.pow_mul_r by lia. apply Z.pow_le_mono_r; lia. }
  destruct (Z.eq_dec (OS2IP e) 0) as [->|N0]; [reflexivity|]. rewrite num_bits_spec by lia. destruct (Z.ltb_spec (Z.log2 (OS2IP e) + 1) 2) as [_|G]; [reflexivity|].
  assert (G2 : 2 <= OS2IP e). { change 2 with (2 ^ 1). apply Z.log2_le_pow2; lia. }
  destruct Hr as [Ev|Lt]; [|lia]. rewrite bit_set_spec by lia. rewrite Z.bit0_odd, <- Z.negb_even, Ev. reflexivity.
Qed.

(** memory safety depends on sizes rsa.hpp does not check *)
Lemma powm_length_ub m e base : all_bytes m -> no_leading_zero m -> (length m mod 4 <> 0)%nat -> Z.of_nat (length m) < 2 ^ 27 -> (length e <= 8)%nat ->
  mod_exp_sw base e m = UB.
Proof.
  intros Hm Hz H4 HB He. unfold mod_exp_sw, rsa_gen_key_prop. cbv zeta.
  assert (LZ : leading_zeros m = 0%nat). { destruct m as [|b t]; [destruct Hz|]. cbn in Hz. destruct b; [lia|reflexivity|lia]. }
  rewrite LZ. cbn [skipn]. unfold zlen. rewrite (proj2 (Z.leb_gt _ _)) by exact HB. rewrite (proj2 (Nat.ltb_ge 8 _)) by exact He.
  unfold br_i32_decode at 1. destruct (decode_words_spec (length m) m (length m) Hm (le_n _) (le_n _)) as (ws & D1 & D2 & D3 & D4). rewrite D1. cbn [bind].
  rewrite repeat_length, D3. assert (E : Nat.leb ((length m + 3) / 4) (length m * 8 / 32) = false); [|rewrite E; reflexivity].
  apply Nat.leb_gt. pose proof (Nat.div_mod (length m) 4 ltac:(lia)) as D. pose proof (Nat.mod_upper_bound (length m) 4 ltac:(lia)) as U.
  replace (length m * 8 / 32)%nat with (length m / 4)%nat. 2:{ replace 32%nat with (4 * 8)%nat by lia. rewrite Nat.div_mul_cancel_r by lia. reflexivity. }
  assert (length m / 4 + 1 <= (length m + 3) / 4)%nat; [|lia]. apply Nat.div_le_lower_bound; lia.
Qed.
Lemma powm_exponent_ub m e base : Z.of_nat (length m) < 2 ^ 27 -> (8 < length e)%nat -> mod_exp_sw base e m = UB.
Proof.
  intros HB He. unfold mod_exp_sw, rsa_gen_key_prop. cbv zeta. unfold zlen.
  rewrite (proj2 (Z.leb_gt _ _)). 2:{ rewrite skipn_length. lia. }
  rewrite (proj2 (Nat.ltb_lt 8 _)) by exact He. reflexivity.
Qed.
(** a long exponent with leading zeros passes the check in rsa.hpp:144-148 and reaches that write *)
Lemma powm_long_exponent_refute : exists m e base, modulus_fit m /\ all_bytes e /\ OS2IP e = 3 /\ all_bytes base /\ length base = length m /\ OS2IP base < OS2IP m /\
  powm mod_exp_sw base e m = UB.
Proof.
  exists [200; 0; 0; 7], [0; 0; 0; 0; 0; 0; 0; 0; 3], [0; 0; 0; 2]. split; [split; [bytes|]; split; [reflexivity|]; split; [reflexivity|]; split; [reflexivity|]; reflexivity|].
  split; [bytes|]. split; [reflexivity|]. split; [bytes|]. split; [reflexivity|]. split; [reflexivity|]. reflexivity.
Qed.
Lemma powm_big_exponent_refute : exists m e base, modulus_fit m /\ all_bytes e /\ length e = 5%nat /\ Z.odd (OS2IP e) = true /\ all_bytes base /\ length base = length m /\ OS2IP base < OS2IP m /\
  exists r, mod_exp_sw base e m = Ok (Some r) /\ r <> I2OSP (OS2IP base ^ OS2IP e mod OS2IP m) (length m).
Proof.
  exists [149; 3; 188; 81], [3; 0; 0; 0; 1], [0; 0; 195; 80]. split; [split; [bytes|]; split; [reflexivity|]; split; [reflexivity|]; split; reflexivity|].
  split; [bytes|]. split; [reflexivity|]. split; [reflexivity|]. split; [bytes|]. split; [reflexivity|]. split; [reflexivity|].
  eexists. split; [vm_compute; reflexivity|].
  change (OS2IP [3; 0; 0; 0; 1]) with (3 * 2 ^ 32 + 1). change (OS2IP [0; 0; 195; 80]) with 50000. change (OS2IP [149; 3; 188; 81]) with 2500050001.
  replace (50000 ^ (3 * 2 ^ 32 + 1) mod 2500050001) with 50000; [vm_compute; discriminate|].
  rewrite Z.pow_add_r, Z.pow_mul_r by (try discriminate; apply Z.leb_le; reflexivity).
  rewrite Z.mul_mod, Zpow_facts.Zpower_mod by lia. change (50000 ^ 3 mod 2500050001) with 1. rewrite Z.pow_1_l by (apply Z.leb_le; reflexivity). reflexivity.
Qed.
Lemma powm_even_modulus_refute : exists m e base, all_bytes m /\ no_leading_zero m /\ length m = 4%nat /\ exponent_fit e /\ all_bytes base /\ length base = length m /\ OS2IP base < OS2IP m /\
  mod_exp_sw base e m = Ok (Some [0; 0; 0; 0]) /\ OS2IP base ^ OS2IP e mod OS2IP m <> 0.
Proof.
  exists [200; 0; 0; 6], [3], [0; 2; 0; 2]. split; [bytes|]. split; [reflexivity|]. split; [reflexivity|].
  split; [split; [bytes|]; split; [cbn; lia|]; split; [reflexivity|]; cbn; lia|]. split; [bytes|]. split; [reflexivity|]. split; [reflexivity|]. split; [vm_compute; reflexivity|]. vm_compute. discriminate.
Qed.
Lemma powm_unreduced_refute : exists m e base, modulus_fit m /\ exponent_fit e /\ all_bytes base /\ length base = length m /\
  exists r, mod_exp_sw base e m = Ok (Some r) /\ r <> I2OSP (OS2IP base ^ OS2IP e mod OS2IP m) (length m) /\ OS2IP m <= OS2IP r.
Proof.
  exists [85; 8; 61; 187], [3], [245; 137; 70; 211]. split; [split; [bytes|]; split; [reflexivity|]; split; [reflexivity|]; split; reflexivity|].
  split; [split; [bytes|]; split; [cbn; lia|]; split; [reflexivity|]; cbn; lia|]. split; [bytes|]. split; [reflexivity|].
  eexists. split; [vm_compute; reflexivity|]. split; [vm_compute; discriminate|vm_compute; discriminate].
Qed.
Lemma powm_leading_zero_refute : exists m e base, all_bytes m /\ Z.odd (OS2IP m) = true /\ length m = 8%nat /\ exponent_fit e /\ all_bytes base /\ length base = length m /\ OS2IP base < OS2IP m /\
  exists r, mod_exp_sw base e m = Ok (Some r) /\ r <> I2OSP (OS2IP base ^ OS2IP e mod OS2IP m) (length m).
Proof.
  exists [0; 0; 0; 0; 200; 0; 0; 7], [3], [0; 0; 0; 0; 0; 0; 0; 2]. split; [bytes|]. split; [reflexivity|]. split; [reflexivity|].
  split; [split; [bytes|]; split; [cbn; lia|]; split; [reflexivity|]; cbn; lia|]. split; [bytes|]. split; [reflexivity|]. split; [reflexivity|].
  eexists. split; [vm_compute; reflexivity|]. vm_compute. discriminate.
Qed.
