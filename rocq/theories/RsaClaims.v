(** The statements for C07-C10 and C12. *)
From Coq Require Import List ZArith Bool Lia.
From Verif Require Import Outcome UtilsModel UtilsSpec UtilsProofs MgfModel RsaModel RsaSpec RsaProofs.
Import ListNotations.
Open Scope Z_scope.

(** a hash function with [hlen]-byte digests *)
Definition hash_ok (hash : list Z -> list Z) (hlen : nat) : Prop :=
  (0 < hlen)%nat /\ (forall m, length (hash m) = hlen) /\ (forall m, all_bytes (hash m)).

Lemma mgf1_claim hash hlen seed mask : hash_ok hash hlen -> all_bytes mask -> Z.of_nat (length mask) <= 2 ^ 32 * Z.of_nat hlen ->
  mgf1 hash copy_mem seed mask = Ok (MGF1 hash hlen seed (length mask)) /\
  mgf1 hash copy_xor seed mask = Ok (xor_bytes mask (MGF1 hash hlen seed (length mask))) /\
  length (MGF1 hash hlen seed (length mask)) = length mask.
Proof.
  intros (Hp & Hl & Hb) Fm Hm.
  assert (C : Z.of_nat (ceil_div (length mask) hlen) <= 2 ^ 32).
  { unfold ceil_div. rewrite Nat2Z.inj_div. apply Z.lt_succ_r. apply Z.div_lt_upper_bound; lia. }
  split; [|split]; [apply mgf1_copy|apply mgf1_xor|apply MGF1_length]; assumption.
Qed.

Section ANY.
Variable mod_exp : list Z -> list Z -> list Z -> outcome (option (list Z)).

Lemma pkcs1_types n e sig digest : exponent_ok e -> all_bytes sig -> all_bytes n -> no_leading_zero n -> exact_for mod_exp n e ->
  (length digest = 20%nat -> exists b, verify_rsa_sha1 mod_exp n e digest sig = Ok b /\
     (b = true <-> rsassa_pkcs1_valid (OS2IP n) (OS2IP e) (length n) (digest_info oid_sha1 digest) sig)) /\
  (length digest = 32%nat -> exists b, verify_rsa_sha256 mod_exp n e digest sig = Ok b /\
     (b = true <-> rsassa_pkcs1_valid (OS2IP n) (OS2IP e) (length n) (digest_info oid_sha256 digest) sig)) /\
  (length digest = 48%nat -> exists b, verify_rsa_sha384 mod_exp n e digest sig = Ok b /\
     (b = true <-> rsassa_pkcs1_valid (OS2IP n) (OS2IP e) (length n) (digest_info oid_sha384 digest) sig)) /\
  (length digest = 64%nat -> exists b, verify_rsa_sha512 mod_exp n e digest sig = Ok b /\
     (b = true <-> rsassa_pkcs1_valid (OS2IP n) (OS2IP e) (length n) (digest_info oid_sha512 digest) sig)).
Proof.
  intros He Fs Fn Hn Hx.
  assert (D : forall oid_ len prefix, length digest = len ->
     (forall d, length d = len -> digest_info oid_ d = prefix ++ d) ->
     exists b, rsassa_pkcs1_v1_5_verify mod_exp n e sig (prefix ++ digest) = Ok b /\
     (b = true <-> rsassa_pkcs1_valid (OS2IP n) (OS2IP e) (length n) (digest_info oid_ digest) sig)).
  { intros o len prefix L P. rewrite (P digest L). apply pkcs1_spec; assumption. }
  repeat split; intros L.
  - apply (D oid_sha1 20%nat sha1_prefix L). intros d Ld. unfold digest_info, der. rewrite app_length. cbn [length]. rewrite Ld. reflexivity.
  - apply (D oid_sha256 32%nat sha256_prefix L). intros d Ld. unfold digest_info, der. rewrite app_length. cbn [length]. rewrite Ld. reflexivity.
  - apply (D oid_sha384 48%nat sha384_prefix L). intros d Ld. unfold digest_info, der. rewrite app_length. cbn [length]. rewrite Ld. reflexivity.
  - apply (D oid_sha512 64%nat sha512_prefix L). intros d Ld. unfold digest_info, der. rewrite app_length. cbn [length]. rewrite Ld. reflexivity.
Qed.

(** the modulus has a bit length that is a multiple of 8 *)
Definition full_top_byte (n : list Z) : Prop := match n with b :: _ => 128 <= b | [] => False end.
Lemma full_log2 n : all_bytes n -> full_top_byte n -> Z.log2 (OS2IP n) = 8 * zlen n - 1.
Proof.
  intros Fn Hn. destruct n as [|b n]; [contradiction|]. cbn in Hn. pose proof (OS2IP_range _ Fn) as R.
  pose proof (OS2IP_range n (Forall_inv_tail Fn)) as R'. unfold zlen. cbn [length] in *.
  assert (P8 : forall k : nat, 256 ^ Z.of_nat k = 2 ^ (8 * Z.of_nat k)) by (intros k; change 256 with (2 ^ 8); rewrite <- Z.pow_mul_r by lia; reflexivity).
  apply Z.log2_unique; [lia|]. replace (Z.succ (8 * Z.of_nat (S (length n)) - 1)) with (8 * Z.of_nat (S (length n))) by lia. rewrite <- P8.
  split; [|lia]. replace (8 * Z.of_nat (S (length n)) - 1) with (7 + 8 * Z.of_nat (length n)) by lia. rewrite Z.pow_add_r by lia. rewrite <- P8.
  rewrite OS2IP_cons. change (2 ^ 7) with 128. nia.
Qed.

Lemma pss_claim hash hlen n e salt_len digest sig : hash_ok hash hlen -> exponent_ok e -> all_bytes sig -> all_bytes digest -> all_bytes n ->
  full_top_byte n -> exact_for mod_exp n e ->
  let slen := match salt_len with Some s => s | None => Z.of_nat hlen end in
  0 <= slen -> Z.of_nat hlen + slen + 10 < 2 ^ 32 -> 8 * zlen n < 2 ^ 32 ->
  exists b, rsassa_pss_mgf1_verify mod_exp hash hlen n e salt_len digest sig = Ok b /\
  (b = true <-> rsassa_pss_valid hash hlen (Z.to_nat slen) (OS2IP n) (OS2IP e) (length n) digest sig).
Proof.
  intros (Hp & Hl & Hb) He Fs Fd Fn Hn Hx slen Ps Hs Hk.
  assert (Hn' : no_leading_zero n) by (destruct n as [|b n]; [contradiction|]; cbn in *; lia).
  assert (ES : forall em, pss_check hash hlen (length n) salt_len digest em = pss_check hash hlen (length n) (Some slen) digest em) by (intros em; unfold slen; destruct salt_len; reflexivity).
  unfold rsassa_pss_mgf1_verify, rsassa_pss_valid. destruct (Nat.eqb_spec (length sig) (length n)) as [L|L]; cbn [negb].
  2:{ exists false. split; [reflexivity|]. split; [discriminate|]. intros [E _]. congruence. }
  rewrite rsavp1_spec by assumption. cbn [bind]. rewrite ES.
  assert (Ln : (0 < length n)%nat) by (destruct n; [contradiction|cbn; lia]).
  rewrite full_log2 by assumption. cbv zeta. unfold zlen.
  replace (Z.to_nat ((8 * Z.of_nat (length n) - 1 + 7) / 8)) with (length n).
  2:{ replace (8 * Z.of_nat (length n) - 1 + 7) with (6 + Z.of_nat (length n) * 8) by lia. rewrite Z.div_add by lia. change (6 / 8) with 0. lia. }
  destruct (Z.ltb_spec (OS2IP sig) (OS2IP n)) as [H|H].
  - set (m := OS2IP sig ^ OS2IP e mod OS2IP n). set (em := I2OSP m (length n)). assert (Lm : length em = length n) by apply I2OSP_length.
    pose proof (OS2IP_range n Fn) as Rn. pose proof (OS2IP_range sig Fs) as Rs.
    assert (Rm : 0 <= m < OS2IP n) by (apply Z.mod_pos_bound; lia).
    destruct (pss_check_spec hash hlen Hl Hb Hp slen digest em) as (b & E & Hc); try assumption; [apply I2OSP_bytes|unfold zlen; lia|unfold zlen in *; lia|].
    exists b. rewrite <- Lm. split; [exact E|]. rewrite Hc. unfold zlen. rewrite Lm. split; [intros Q; split; [exact L|]; split; [exact H|]; split; [lia|exact Q]|tauto].
  - exists false. split; [|split; [discriminate|intros (_ & Q & _); lia]].
    unfold pss_check. cbv zeta. unfold zlen. cbn [length]. unfold size32 at 1 2. rewrite (Z.mod_small (Z.of_nat hlen + slen)) by lia. rewrite (Z.mod_small (_ + 2)) by lia.
    rewrite (proj2 (Z.ltb_lt _ _)) by lia. reflexivity.
Qed.

(** ** malformed sizes *)
(** the primitive is any total one that writes a result of the modulus' length or fails *)
Definition primitive : Prop := forall b e n, match mod_exp b e n with
  | Ok (Some r) => all_bytes r /\ length r = length n | Ok None => True | Abort => True | _ => False end.

Lemma rsavp1_total n e sig : primitive ->
  match rsavp1 mod_exp n e sig with
  | Ok em => em = [] \/ (all_bytes em /\ length em = length n /\ n <> [])
  | Abort => True | _ => False end.
Proof.
  intros Hp. unfold rsavp1. destruct (is_s_valid sig n); [|left; reflexivity]. unfold powm.
  destruct (if Nat.ltb 8 (length e) then _ else true); cbn [check bind]; [|exact I].
  destruct (Nat.eqb_spec (length n) 0) as [N|N]; [destruct (negb (Nat.eqb (length sig) 0)); cbn [negb andb check bind]; exact I|].
  destruct (_ && _); cbn [check bind]; [|exact I]. destruct (Nat.eqb (length sig) (length n)); cbn [check bind]; [|exact I].
  specialize (Hp sig e n). assert (n <> []) by (intros ->; apply N; reflexivity).
  destruct (mod_exp sig e n) as [[r|]| | |]; cbn [bind]; try exact I; try contradiction.
  - right. tauto.
  - right. split; [|split; [apply repeat_length|assumption]]. apply Forall_forall. intros x Hx. apply repeat_spec in Hx. subst. red. lia.
Qed.

Lemma pkcs1_malformed n e sig t : primitive ->
  (exists b, rsassa_pkcs1_v1_5_verify mod_exp n e sig t = Ok b /\
     (b = true -> length sig = length n /\ (length t + 11 <= length n)%nat)) \/
  rsassa_pkcs1_v1_5_verify mod_exp n e sig t = Abort.
Proof.
  intros Hp. unfold rsassa_pkcs1_v1_5_verify. destruct (Nat.eqb_spec (length sig) (length n)) as [L|L]; cbn [negb]; [|left; exists false; split; [reflexivity|discriminate]].
  pose proof (rsavp1_total n e sig Hp) as H. destruct (rsavp1 mod_exp n e sig) as [em| | |]; try contradiction; [|right; reflexivity]. left. cbn [bind].
  destruct (pkcs1_check_spec em t) as (b & E & Hb). exists b. split; [exact E|]. intros Q. apply Hb in Q. split; [exact L|].
  destruct H as [->|(_ & Le & _)]; [cbn in Q; lia|]. rewrite <- Le. tauto.
Qed.

Lemma pss_malformed hash hlen n e salt_len digest sig : primitive -> hash_ok hash hlen -> all_bytes digest ->
  let slen := match salt_len with Some s => s | None => Z.of_nat hlen end in
  0 <= slen -> Z.of_nat hlen + slen + 10 < 2 ^ 32 -> 8 * zlen n < 2 ^ 32 ->
  (exists b, rsassa_pss_mgf1_verify mod_exp hash hlen n e salt_len digest sig = Ok b /\
     (b = true -> length sig = length n /\ Z.of_nat hlen + slen + 2 <= zlen n)) \/
  rsassa_pss_mgf1_verify mod_exp hash hlen n e salt_len digest sig = Abort.
Proof.
  intros Hpr (Hp & Hl & Hb) Fd slen Ps Hs Hk. unfold rsassa_pss_mgf1_verify.
  assert (ES : forall em, pss_check hash hlen (length n) salt_len digest em = pss_check hash hlen (length n) (Some slen) digest em) by (intros em; unfold slen; destruct salt_len; reflexivity).
  destruct (Nat.eqb_spec (length sig) (length n)) as [L|L]; cbn [negb]; [|left; exists false; split; [reflexivity|discriminate]].
  pose proof (rsavp1_total n e sig Hpr) as H. destruct (rsavp1 mod_exp n e sig) as [em| | |]; try contradiction; [|right; reflexivity]. left. cbn [bind].
  rewrite ES. destruct H as [->|(Fe & Le & Nn)].
  - exists false. split; [|discriminate]. unfold pss_check. cbv zeta. unfold zlen. cbn [length]. unfold size32 at 1 2.
    rewrite (Z.mod_small (Z.of_nat hlen + slen)) by lia. rewrite (Z.mod_small (_ + 2)) by lia. rewrite (proj2 (Z.ltb_lt _ _)) by lia. reflexivity.
  - assert (0 < length n)%nat by (destruct n; [congruence|cbn; lia]). rewrite <- Le.
    destruct (pss_check_spec hash hlen Hl Hb Hp slen digest em) as (b & E & Hc); try assumption; [unfold zlen; lia|unfold zlen in *; lia|].
    exists b. split; [exact E|]. intros Q. apply Hc in Q. destruct Q as [Q _]. split; [lia|]. unfold zlen. lia.
Qed.

(** a failing exponentiation is never accepted *)
Lemma failed_exp_rejected n e sig t : (forall b e' n', mod_exp b e' n' = Ok None) ->
  rsassa_pkcs1_v1_5_verify mod_exp n e sig t <> Ok true.
Proof.
  intros Hf E. unfold rsassa_pkcs1_v1_5_verify in E. destruct (negb (Nat.eqb (length sig) (length n))); [discriminate|].
  unfold rsavp1, powm in E. destruct (is_s_valid sig n).
  - destruct (if Nat.ltb 8 (length e) then _ else true); cbn [check bind] in E; [|discriminate]. destruct (_ && _); cbn [check bind] in E; [|discriminate].
    destruct (Nat.eqb (length sig) (length n)); cbn [check bind] in E; [|discriminate]. rewrite Hf in E. cbn [bind] in E.
    destruct (pkcs1_check_spec (repeat 0 (length n)) t) as (b & Eb & Hb). rewrite E in Eb. injection Eb as <-. destruct (proj1 Hb eq_refl) as [Q1 Q2].
    destruct (length n) as [|[|k]]; cbn in Q1, Q2; try lia. discriminate Q2.
  - cbn [bind] in E. destruct (pkcs1_check_spec [] t) as (b & Eb & Hb). rewrite E in Eb. injection Eb as <-. destruct (proj1 Hb eq_refl) as [Q1 Q2]. cbn in Q1. lia.
Qed.
Lemma failed_exp_rejected_pss hash hlen n e salt digest sig : (forall b e' n', mod_exp b e' n' = Ok None) ->
  rsassa_pss_mgf1_verify mod_exp hash hlen n e salt digest sig <> Ok true.
Proof.
  intros Hf E. unfold rsassa_pss_mgf1_verify in E. destruct (negb (Nat.eqb (length sig) (length n))); [discriminate|].
  assert (G : forall k, pss_check hash hlen (length n) salt digest (repeat 0 k) <> Ok true).
  { intros k. unfold pss_check. cbv zeta. destruct (_ <? _); [discriminate|]. destruct (rev (repeat 0 k)) as [|b l] eqn:ER; cbn [bind]; [discriminate|].
    assert (b = 0) by (apply (repeat_spec k); apply in_rev; rewrite ER; left; reflexivity). subst b. discriminate. }
  unfold rsavp1, powm in E. destruct (is_s_valid sig n).
  - destruct (if Nat.ltb 8 (length e) then _ else true); cbn [check bind] in E; [|discriminate]. destruct (_ && _); cbn [check bind] in E; [|discriminate].
    destruct (Nat.eqb (length sig) (length n)); cbn [check bind] in E; [|discriminate]. rewrite Hf in E. cbn [bind] in E. exact (G _ E).
  - cbn [bind] in E. exact (G 0%nat E).
Qed.
End ANY.

(** ** where the code departs from RFC 8017 *)
Definition ideal_exp : list Z -> list Z -> list Z -> outcome (option (list Z)) :=
  fun b e n => Ok (Some (I2OSP (OS2IP b ^ OS2IP e mod OS2IP n) (length n))).
Lemma ideal_exact n e : exact_for ideal_exp n e.
Proof. intros b _ _ _. reflexivity. Qed.
Definition const_hash (h : Z) : list Z -> list Z := fun _ => [h].
Lemma const_hash_ok h : is_byte h -> hash_ok (const_hash h) 1.
Proof. intros H. split; [lia|]. split; [reflexivity|]. intros m. constructor; [exact H|constructor]. Qed.

Ltac bytes := repeat (apply Forall_cons; [unfold is_byte; lia|]); apply Forall_nil.
Lemma is_s_valid_refute : exists s n, all_bytes s /\ all_bytes n /\ length s = length n /\ is_s_valid s n = true /\ OS2IP n <= OS2IP s.
Proof. exists [0; 9; 9], [0; 0; 5]. split; [bytes|]. split; [bytes|]. split; [reflexivity|]. split; [reflexivity|]. vm_compute. discriminate. Qed.

(** accepts an encoding that the RFC rejects, modulus of 23 bits *)
Lemma pss_bits_accept_refute : exists hash hlen n e digest sig, hash_ok hash hlen /\ all_bytes sig /\ all_bytes n /\ no_leading_zero n /\
  rsassa_pss_mgf1_verify ideal_exp hash hlen n e (Some 0) digest sig = Ok true /\
  ~ rsassa_pss_valid hash hlen 0 (OS2IP n) (OS2IP e) (length n) digest sig.
Proof.
  exists (const_hash 64), 1%nat, [66; 0; 1], [1], [5], [65; 64; 188]. split; [apply const_hash_ok; red; lia|].
  split; [bytes|]. split; [bytes|]. split; [reflexivity|]. split; [vm_compute; reflexivity|].
  unfold rsassa_pss_valid. cbv zeta. change (OS2IP [65; 64; 188] ^ OS2IP [1] mod OS2IP [66; 0; 1]) with 4276412.
  change (Z.log2 (OS2IP [66; 0; 1])) with 22. change (Z.to_nat ((22 + 7) / 8)) with 3%nat. change (I2OSP 4276412 3) with [65; 64; 188].
  intros (_ & _ & _ & _ & MD & H & E & L & Hh & _).
  assert (LE := f_equal (@length Z) E). rewrite !app_length, L in LE. change (length [65; 64; 188]) with 3%nat in LE. cbn [length] in LE.
  destruct MD as [|m [|m' MD]]; [cbn in LE; lia| |cbn in LE; lia].
  injection E as <- _. cbn in Hh. lia.
Qed.
(** rejects an encoding that the RFC accepts, modulus of 25 bits *)
Lemma pss_bits_reject_refute : exists hash hlen n e digest sig, hash_ok hash hlen /\ all_bytes sig /\ all_bytes n /\ no_leading_zero n /\
  rsassa_pss_mgf1_verify ideal_exp hash hlen n e (Some 0) digest sig = Ok false /\
  rsassa_pss_valid hash hlen 0 (OS2IP n) (OS2IP e) (length n) digest sig.
Proof.
  exists (const_hash 2), 1%nat, [1; 0; 0; 1], [1], [5], [0; 3; 2; 188]. split; [apply const_hash_ok; red; lia|].
  split; [bytes|]. split; [bytes|]. split; [reflexivity|]. split; [vm_compute; reflexivity|].
  unfold rsassa_pss_valid. cbv zeta. change (OS2IP [0; 3; 2; 188] ^ OS2IP [1] mod OS2IP [1; 0; 0; 1]) with 197308.
  change (Z.log2 (OS2IP [1; 0; 0; 1])) with 24. change (Z.to_nat ((24 + 7) / 8)) with 3%nat. change (I2OSP 197308 3) with [3; 2; 188].
  split; [reflexivity|]. split; [reflexivity|]. split; [reflexivity|]. split; [cbn; lia|]. exists [3], [2]. split; [reflexivity|]. split; [reflexivity|]. split; [reflexivity|].
  exists []. split; [reflexivity|]. split; reflexivity.
Qed.
(** the sum HLen + slen + 2 wraps around 32 bits: out-of-bounds access *)
Lemma pss_wrap_refute : exists hash hlen n e digest sig slen, hash_ok hash hlen /\ all_bytes sig /\ all_bytes n /\ full_top_byte n /\ 0 <= slen < 2 ^ 32 /\
  rsassa_pss_mgf1_verify ideal_exp hash hlen n e (Some slen) digest sig = UB.
Proof.
  exists (const_hash 1), 1%nat, [200; 0; 1], [1], [5], [1; 1; 188], (2 ^ 32 - 1). split; [apply const_hash_ok; red; lia|].
  split; [bytes|]. split; [bytes|]. split; [cbn; lia|]. split; [lia|]. vm_compute. reflexivity.
Qed.
