(** RSA verification over the exponentiation of powm.h, for every public exponent. *)
From Coq Require Import List ZArith Znumtheory Zpow_facts Bool Lia.
From Verif Require Import Outcome UtilsModel UtilsSpec UtilsProofs RsaModel RsaSpec RsaProofs RsaClaims RsaPssSpec PowmModel PowmSpec PowmMain PowmClaims ShaModel ContractModel ContractSpec RsaSignSpec RsaSignProofs RsaSignClaims RsaPss.
From Verif Require PrimeCert.
Import ListNotations.
Open Scope Z_scope.

Definition odd_exponent (e : list Z) : Prop := all_bytes e /\ (length e <= 8)%nat /\ Z.odd (OS2IP e) = true /\ 3 <= OS2IP e.
Lemma effective_range e : 3 <= e < 2 ^ 64 -> 3 <= effective e < 2 ^ 64.
Proof.
  intros H. unfold effective. destruct (Z.ltb_spec e (2 ^ 33)); [exact H|].
  assert (L : 33 <= Z.log2 e <= 63). { split; [apply Z.log2_le_pow2; lia|]. enough (Z.log2 e < 64) by lia. apply Z.log2_lt_pow2; lia. }
  pose proof (Z.pow_le_mono_r 2 33 (Z.log2 e) ltac:(lia) ltac:(lia)). pose proof (Z.pow_le_mono_r 2 (Z.log2 e) 63 ltac:(lia) ltac:(lia)). pose proof (Z.mod_pos_bound e (2 ^ 32) ltac:(reflexivity)).
  change (2 ^ 33) with 8589934592 in *. change (2 ^ 63) with 9223372036854775808 in *. change (2 ^ 64) with 18446744073709551616 in *. change (2 ^ 32) with 4294967296 in *. lia.
Qed.
(** the exponent that is used, as bytes *)
Definition used (e : list Z) : list Z := I2OSP (effective (OS2IP e)) 8.
Lemma odd_range e : odd_exponent e -> 3 <= OS2IP e < 2 ^ 64.
Proof. intros (E1 & E2 & _ & E4). pose proof (OS2IP_range e E1) as R. split; [exact E4|]. apply Z.lt_le_trans with (1 := proj2 R). change (2 ^ 64) with (256 ^ 8). apply Z.pow_le_mono_r; lia. Qed.
Lemma used_val e : odd_exponent e -> OS2IP (used e) = effective (OS2IP e).
Proof. intros H. pose proof (effective_range _ (odd_range e H)) as R. unfold used. apply I2OSP_OS2IP. change (256 ^ Z.of_nat 8) with (2 ^ 64). lia. Qed.
Lemma used_ok e : odd_exponent e -> exponent_ok (used e).
Proof.
  intros H. pose proof (effective_range _ (odd_range e H)) as R. split; [|split; [apply I2OSP_bytes|rewrite used_val by exact H; lia]].
  intros Z0. pose proof (used_val e H) as U. rewrite Z0 in U. cbn in U. lia.
Qed.
(** the primitive, called with [used e] in the place of [e] *)
Definition fixed_exp (e : list Z) (b _ m : list Z) := mod_exp_sw b e m.
Lemma fixed_exact n e : modulus_fit n -> odd_exponent e -> exact_for (fixed_exp e) n (used e).
Proof.
  intros Hn H base Hb Lb Lt. pose proof H as (E1 & E2 & E3 & E4). destruct (powm_total base e n Hn E1 E2 E3 E4 Hb Lb) as (v & V1 & _ & _ & V4). unfold fixed_exp.
  rewrite V1, used_val by exact H. rewrite (V4 (or_introl Lt)). reflexivity.
Qed.
Lemma rsavp1_fixed n e sig : odd_exponent e -> rsavp1 mod_exp_sw n e sig = rsavp1 (fixed_exp e) n (used e) sig.
Proof.
  intros H. unfold rsavp1. destruct (is_s_valid sig n); [|reflexivity]. unfold powm, fixed_exp. pose proof H as (E1 & E2 & _ & E4).
  assert (L8 : length (used e) = 8%nat) by apply I2OSP_length. rewrite L8. rewrite (proj2 (Nat.ltb_ge 8 (length e))) by exact E2. change (8 <? 8)%nat with false. cbn [check bind].
  assert (Ne : (length e =? 0)%nat = false). { destruct e; [cbn in E4; lia|reflexivity]. } rewrite Ne. reflexivity.
Qed.
Lemma pkcs1_fixed n e sig t : odd_exponent e -> rsassa_pkcs1_v1_5_verify mod_exp_sw n e sig t = rsassa_pkcs1_v1_5_verify (fixed_exp e) n (used e) sig t.
Proof. intros H. unfold rsassa_pkcs1_v1_5_verify. rewrite rsavp1_fixed by exact H. reflexivity. Qed.
Lemma pss_fixed hash hlen n e s digest sig : odd_exponent e -> rsassa_pss_mgf1_verify mod_exp_sw hash hlen n e s digest sig = rsassa_pss_mgf1_verify (fixed_exp e) hash hlen n (used e) s digest sig.
Proof. intros H. unfold rsassa_pss_mgf1_verify. rewrite rsavp1_fixed by exact H. reflexivity. Qed.

Lemma pkcs1_every n e k digest sig : modulus_fit n -> odd_exponent e -> all_bytes sig -> length digest = hash_size k ->
  exists b, verify_rsa mod_exp_sw k n e digest sig = Ok b /\
    (b = true <-> rsassa_pkcs1_valid (OS2IP n) (effective (OS2IP e)) (length n) (digest_info (action_oid k) digest) sig).
Proof.
  intros Hn He Fs Ld. rewrite verify_prefix, (prefix_info k digest Ld), pkcs1_fixed, <- used_val by exact He. pose proof Hn as (An & Nn & _).
  exact (pkcs1_spec (fixed_exp e) n (used e) (prefix_of k ++ digest) sig (used_ok e He) Fs An Nn (fixed_exact n e Hn He)).
Qed.
Lemma n_bits n : modulus_fit n -> 8 * zlen n < 2 ^ 32.
Proof. intros (_ & _ & _ & _ & L). unfold zlen. change (2 ^ 27) with 134217728 in L. change (2 ^ 32) with 4294967296. lia. Qed.
Lemma pss_every hash hlen n e salt_len digest sig : hash_ok hash hlen -> modulus_fit n -> full_top_byte n -> odd_exponent e -> all_bytes sig -> all_bytes digest ->
  let slen := match salt_len with Some s => s | None => Z.of_nat hlen end in
  0 <= slen -> Z.of_nat hlen + slen + 10 < 2 ^ 32 ->
  exists b, rsassa_pss_mgf1_verify mod_exp_sw hash hlen n e salt_len digest sig = Ok b /\
  (b = true <-> rsassa_pss_valid hash hlen (Z.to_nat slen) (OS2IP n) (effective (OS2IP e)) (length n) digest sig).
Proof.
  intros Hh Hn Hf He Fs Fd slen S0 S1. rewrite pss_fixed, <- used_val by exact He. pose proof Hn as (An & _).
  apply (pss_claim (fixed_exp e) hash hlen n (used e) salt_len digest sig Hh (used_ok e He) Fs Fd An Hf (fixed_exact n e Hn He) S0 S1 (n_bits n Hn)).
Qed.
Lemma pss_every_bytes hash hlen : hash_ok hash hlen -> Z.of_nat hlen < 2 ^ 31 -> forall n e salt_len digest sig, modulus_fit n -> odd_exponent e -> all_bytes sig -> all_bytes digest ->
  let slen := match salt_len with Some s => s | None => Z.of_nat hlen end in
  0 <= slen < 2 ^ 32 ->
  let run := rsassa_pss_mgf1_verify mod_exp_sw hash hlen n e salt_len digest sig in
  (run = Ok true <-> pss_valid_bytes hash hlen (Z.to_nat slen) (OS2IP n) (effective (OS2IP e)) (length n) digest sig) /\
  (run = Ok true \/ run = Ok false \/ run = UB) /\ (Z.of_nat hlen + slen + 2 < 2 ^ 32 -> run <> UB).
Proof.
  intros Hh SM n e salt_len digest sig Hn He Fs Fd slen S0. cbv zeta. rewrite pss_fixed, <- used_val by exact He. pose proof Hn as (An & Nn & _).
  exact (pss_bytes_claim hash hlen Hh SM (fixed_exp e) n (used e) salt_len digest sig (used_ok e He) Fs Fd An Nn (fixed_exact n e Hn He) S0 (n_bits n Hn)).
Qed.
(** the key pair whose signatures are accepted is that of the exponent used *)
Lemma key_every n e d k digest sig : modulus_fit n -> odd_exponent e -> rsa_key (OS2IP n) (effective (OS2IP e)) d -> all_bytes digest -> length digest = hash_size k -> all_bytes sig ->
  let T := digest_info (action_oid k) digest in
  exists b, verify_rsa mod_exp_sw k n e digest sig = Ok b /\ (b = true <-> (length T + 11 <= length n)%nat /\ sig = rsassa_pkcs1_sign (OS2IP n) d (length n) T).
Proof.
  intros Hn He K Fd Ld Fs T. destruct (pkcs1_every n e k digest sig Hn He Fs Ld) as (b & E & Hb). exists b. split; [exact E|]. rewrite Hb. pose proof Hn as (An & Nn & _).
  apply pkcs1_sign_iff; try assumption. unfold T. rewrite (prefix_info k digest Ld). apply Forall_app. split; [apply prefix_bytes|exact Fd].
Qed.

(** ** the other exponents *)
Lemma zeros_small e : (8 < length e)%nat -> all_bytes e -> forallb (fun b => b =? 0) (firstn (length e - 8) e) = true -> OS2IP e < 2 ^ 64.
Proof.
  intros L F A. rewrite <- (firstn_skipn (length e - 8) e), OS2IP_app. assert (Z0 : OS2IP (firstn (length e - 8) e) = 0).
  { revert A. generalize (firstn (length e - 8) e). clear. induction l as [|b l IH]; intros A; [reflexivity|]. cbn [forallb] in A. apply andb_prop in A. destruct A as [A1 A2]. apply Z.eqb_eq in A1. subst b.
    rewrite OS2IP_cons, (IH A2). lia. }
  rewrite Z0. pose proof (OS2IP_range (skipn (length e - 8) e) (Forall_skipn _ _ _ F)) as R. rewrite skipn_length in R. replace (length e - (length e - 8))%nat with 8%nat in R by lia. change (256 ^ Z.of_nat 8) with (2 ^ 64) in R. lia.
Qed.
Lemma check_zero m t : pkcs1_check (repeat 0 m) t = Ok false.
Proof.
  unfold pkcs1_check. cbv zeta. rewrite repeat_length. destruct (Nat.ltb_spec m (length t + 11)); [reflexivity|]. destruct m as [|[|m]]; [lia|lia|]. reflexivity.
Qed.
(** the answers of powm (rsa.hpp:141-196) by the exponent alone *)
Lemma powm_other n e sig : modulus_fit n -> all_bytes e -> all_bytes sig -> length sig = length n ->
  (e = [] \/ 2 ^ 64 <= OS2IP e -> powm mod_exp_sw sig e n = Abort) /\
  ((8 < length e)%nat -> OS2IP e < 2 ^ 64 -> powm mod_exp_sw sig e n = UB) /\
  ((0 < length e <= 8)%nat -> Z.even (OS2IP e) = true \/ OS2IP e < 3 -> powm mod_exp_sw sig e n = Ok (repeat 0 (length n))).
Proof.
  intros Hn Fe Fs L. assert (N0 : (length n =? 0)%nat = false). { destruct Hn as (_ & Nn & _). destruct n; [contradiction|reflexivity]. }
  split; [|split].
  - intros [-> | G]; unfold powm.
    + cbn [length Nat.ltb Nat.leb check bind]. rewrite L, N0. reflexivity.
    + pose proof (OS2IP_range e Fe) as R. assert (L8 : (8 < length e)%nat).
      { apply Nat.nle_gt. intros Le. pose proof (Z.pow_le_mono_r 256 (Z.of_nat (length e)) 8 ltac:(lia) ltac:(lia)). change (256 ^ 8) with (2 ^ 64) in *. lia. }
      rewrite (proj2 (Nat.ltb_lt _ _) L8). destruct (forallb (fun b => b =? 0) (firstn (length e - 8) e)) eqn:A; [|reflexivity]. pose proof (zeros_small e L8 Fe A). lia.
  - intros L8 S64. unfold powm. rewrite (proj2 (Nat.ltb_lt _ _) L8), (small_zeros e Fe S64 L8). cbn [check bind]. rewrite L, N0. rewrite (proj2 (Nat.eqb_neq (length e) 0)) by lia. rewrite Nat.eqb_refl.
    cbn [negb andb check bind]. rewrite (powm_exponent_ub n e sig); [reflexivity|apply Hn|exact L8].
  - intros [L0 L8] B. unfold powm. rewrite (proj2 (Nat.ltb_ge 8 (length e))) by exact L8. cbn [check bind]. rewrite L, N0. rewrite (proj2 (Nat.eqb_neq (length e) 0)) by lia. rewrite Nat.eqb_refl.
    cbn [negb andb check bind]. rewrite (powm_refuses n e sig Hn Fe L8 Fs L); [reflexivity|]. destruct B as [B|B]; [left; exact B|]. destruct (Z.even (OS2IP e)) eqn:Ev; [left; reflexivity|right].
    destruct (Z.eq_dec (OS2IP e) 2) as [E2|]; [rewrite E2 in Ev; discriminate|lia].
Qed.
Lemma valid_len n e k T sig : rsassa_pkcs1_valid n e k T sig -> length sig = k /\ OS2IP sig < n.
Proof. unfold rsassa_pkcs1_valid. tauto. Qed.
Lemma table n e k digest sig : modulus_fit n -> all_bytes e -> all_bytes sig -> length digest = hash_size k ->
  let v := verify_rsa mod_exp_sw k n e digest sig in
  (length sig <> length n \/ OS2IP n <= OS2IP sig -> v = Ok false) /\
  (length sig = length n -> OS2IP sig < OS2IP n ->
    (e = [] \/ 2 ^ 64 <= OS2IP e -> v = Abort) /\
    ((8 < length e)%nat -> OS2IP e < 2 ^ 64 -> v = UB) /\
    ((0 < length e <= 8)%nat -> Z.even (OS2IP e) = true \/ OS2IP e < 3 -> v = Ok false) /\
    (odd_exponent e -> exists b, v = Ok b /\ (b = true <-> rsassa_pkcs1_valid (OS2IP n) (effective (OS2IP e)) (length n) (digest_info (action_oid k) digest) sig))).
Proof.
  intros Hn Fe Fs Ld v. pose proof Hn as (An & Nn & _). unfold v. split.
  - intros B. rewrite verify_prefix. unfold rsassa_pkcs1_v1_5_verify. destruct (Nat.eqb_spec (length sig) (length n)) as [L|L]; [|reflexivity]. destruct B as [B|B]; [contradiction|]. cbn [negb].
    unfold rsavp1. rewrite is_s_valid_spec by assumption. rewrite (proj2 (Z.ltb_ge _ _) B). cbn [bind]. apply (check_zero 0).
  - intros L S. destruct (powm_other n e sig Hn Fe Fs L) as (P1 & P2 & P3).
    assert (V : verify_rsa mod_exp_sw k n e digest sig = let* em := powm mod_exp_sw sig e n in pkcs1_check em (prefix_of k ++ digest)).
    { rewrite verify_prefix. unfold rsassa_pkcs1_v1_5_verify. rewrite (proj2 (Nat.eqb_eq _ _) L). cbn [negb]. unfold rsavp1. rewrite is_s_valid_spec by assumption. rewrite (proj2 (Z.ltb_lt _ _) S). reflexivity. }
    split; [intros H; rewrite V, (P1 H); reflexivity|]. split; [intros H H'; rewrite V, (P2 H H'); reflexivity|].
    split; [intros H H'; rewrite V, (P3 H H'); apply check_zero|]. intros He. apply pkcs1_every; assumption.
Qed.
(** PSS: an exponent the routine refuses is never accepted and never reads outside *)
Lemma pss_zero hash hlen nlen s digest m : 0 <= Z.of_nat hlen + match s with Some x => x | None => Z.of_nat hlen end + 2 < 2 ^ 32 -> 0 <= match s with Some x => x | None => Z.of_nat hlen end ->
  pss_check hash hlen nlen s digest (repeat 0 m) = Ok false.
Proof.
  intros H H'. unfold pss_check. cbv zeta. unfold zlen at 1. rewrite repeat_length. set (sl := match s with Some x => x | None => Z.of_nat hlen end) in *.
  destruct (Z.ltb_spec (Z.of_nat m) (size32 (size32 (Z.of_nat hlen + sl) + 2))) as [X|X]; [reflexivity|]. unfold size32 in X. rewrite (Z.mod_small (Z.of_nat hlen + sl)) in X by lia. rewrite Z.mod_small in X by lia.
  destruct m as [|m]; [lia|]. assert (R : rev (repeat 0 (S m)) = 0 :: rev (repeat 0 m)). { change (S m) with (1 + m)%nat. rewrite Nat.add_comm, repeat_app, rev_app_distr. reflexivity. }
  rewrite R. reflexivity.
Qed.
Lemma pss_table hash hlen n e salt_len digest sig : modulus_fit n -> all_bytes e -> all_bytes sig ->
  let slen := match salt_len with Some s => s | None => Z.of_nat hlen end in
  0 <= slen -> Z.of_nat hlen + slen + 10 < 2 ^ 32 ->
  let v := rsassa_pss_mgf1_verify mod_exp_sw hash hlen n e salt_len digest sig in
  (length sig <> length n \/ OS2IP n <= OS2IP sig -> v = Ok false) /\
  (length sig = length n -> OS2IP sig < OS2IP n ->
    (e = [] \/ 2 ^ 64 <= OS2IP e -> v = Abort) /\
    ((8 < length e)%nat -> OS2IP e < 2 ^ 64 -> v = UB) /\
    ((0 < length e <= 8)%nat -> Z.even (OS2IP e) = true \/ OS2IP e < 3 -> v = Ok false)).
Proof.
  intros Hn Fe Fs slen S0 S1 v. pose proof Hn as (An & Nn & _). assert (SZ : 0 <= Z.of_nat hlen + slen + 2 < 2 ^ 32) by lia. unfold v. split.
  - intros B. unfold rsassa_pss_mgf1_verify. destruct (Nat.eqb_spec (length sig) (length n)) as [L|L]; [|reflexivity]. destruct B as [B|B]; [contradiction|]. cbn [negb].
    unfold rsavp1. rewrite is_s_valid_spec by assumption. rewrite (proj2 (Z.ltb_ge _ _) B). cbn [bind]. exact (pss_zero hash hlen (length n) salt_len digest 0 SZ S0).
  - intros L S. destruct (powm_other n e sig Hn Fe Fs L) as (P1 & P2 & P3).
    assert (V : rsassa_pss_mgf1_verify mod_exp_sw hash hlen n e salt_len digest sig = let* em := powm mod_exp_sw sig e n in pss_check hash hlen (length n) salt_len digest em).
    { unfold rsassa_pss_mgf1_verify. rewrite (proj2 (Nat.eqb_eq _ _) L). cbn [negb]. unfold rsavp1. rewrite is_s_valid_spec by assumption. rewrite (proj2 (Z.ltb_lt _ _) S). reflexivity. }
    split; [intros H; rewrite V, (P1 H); reflexivity|]. split; [intros H H'; rewrite V, (P2 H H'); reflexivity|].
    intros H H'. rewrite V, (P3 H H'). exact (pss_zero hash hlen (length n) salt_len digest (length n) SZ S0).
Qed.
(** two exponents that agree but for the bits from 32 up to the one below the top are the same key *)
Lemma same_effective e e' : odd_exponent e -> odd_exponent e' -> effective (OS2IP e) = effective (OS2IP e') ->
  forall n sig t, modulus_fit n -> all_bytes sig -> rsassa_pkcs1_v1_5_verify mod_exp_sw n e sig t = rsassa_pkcs1_v1_5_verify mod_exp_sw n e' sig t.
Proof.
  intros He He' Q n sig t Hn Fs. rewrite !pkcs1_fixed by assumption. unfold rsassa_pkcs1_v1_5_verify. destruct (Nat.eqb_spec (length sig) (length n)) as [L|L]; [|reflexivity]. cbn [negb]. pose proof Hn as (An & Nn & _).
  rewrite (rsavp1_spec _ n (used e) sig (used_ok e He) Fs An Nn L (fixed_exact n e Hn He)), (rsavp1_spec _ n (used e') sig (used_ok e' He') Fs An Nn L (fixed_exact n e' Hn He')).
  rewrite !used_val, Q by assumption. reflexivity.
Qed.

(** ** a key of 381 bits with the exponent 3 * 2^32 + 5, of which 2^33 + 5 is used *)
Definition lx_primes : list Z := [5; 7; 11; 13; 17; 19; 23; 29; 31; 37; 41; 43; 47; 53; 59; 61; 67; 71; 73; 79; 83; 89; 97; 101; 103; 107; 109; 113; 127; 131; 137; 139; 149; 151; 157; 163; 167; 173; 179; 181; 191; 193; 197; 199; 211; 223; 227; 229; 233; 239; 241; 251; 257; 263; 269; 271; 277; 281].
Definition lx_d : Z := 45600508027540701618237558007757.
Definition lx_n : list Z := I2OSP 4107984414519298918738745102434914507387915091178445713827874915068300199709154591167593187157730946977011157149265 48.
Definition lx_e : list Z := [3; 0; 0; 0; 5].
Definition lx_digest : list Z := repeat 7 20.
Definition lx_own : list Z := I2OSP 1206076227100873310710068869382773991872494925089975431115958410507577716324756036806200712143227227594509458444302 48.
Definition lx_other : list Z := I2OSP 430220576175829972170498217628244772514940476145753056513943305432221167125851254814809707622115814831446081952422 48.
Lemma lx_n_fit : modulus_fit lx_n.
Proof. split; [apply I2OSP_bytes|]. split; [vm_compute; reflexivity|]. split; [vm_compute; reflexivity|]. split; vm_compute; reflexivity. Qed.
Lemma lx_e_odd : odd_exponent lx_e.
Proof. split; [unfold lx_e; bytes|]. split; [cbn; lia|]. split; [reflexivity|]. vm_compute. discriminate. Qed.
Lemma lx_key : rsa_key (OS2IP lx_n) (OS2IP lx_e) lx_d.
Proof.
  split; [reflexivity|]. split; [reflexivity|]. exists lx_primes. split; [|split; [apply PrimeCert.distinct_ok; vm_compute; reflexivity|split; [vm_compute; reflexivity|]]].
  - apply Forall_forall. intros r Hr. apply PrimeCert.small_prime_ok. assert (A : forallb PrimeCert.small_prime lx_primes = true) by (vm_compute; reflexivity). rewrite forallb_forall in A. apply A. exact Hr.
  - apply Forall_forall. intros r Hr. assert (A : forallb (fun r => (1 <? r) && ((OS2IP lx_e * lx_d - 1) mod (r - 1) =? 0)) lx_primes = true) by (vm_compute; reflexivity).
    rewrite forallb_forall in A. specialize (A r Hr). apply andb_prop in A. destruct A as [A1 A2]. apply Z.ltb_lt in A1. apply Z.eqb_eq in A2. apply Z.mod_divide; [lia|exact A2].
Qed.
Lemma lx_T : all_bytes (digest_info oid_sha1 lx_digest).
Proof. change (digest_info oid_sha1 lx_digest) with (prefix_of SHA1 ++ lx_digest). apply Forall_app. split; [apply prefix_bytes|]. unfold lx_digest. cbn [repeat]. bytes. Qed.
Lemma lx_valid : rsassa_pkcs1_valid (OS2IP lx_n) (OS2IP lx_e) (length lx_n) (digest_info oid_sha1 lx_digest) lx_own.
Proof.
  split; [reflexivity|]. split; [vm_compute; reflexivity|]. split; [apply Nat.leb_le; vm_compute; reflexivity|]. rewrite <- Zpow_mod_correct by (vm_compute; discriminate). vm_compute. reflexivity.
Qed.
Lemma lx_not_valid : ~ rsassa_pkcs1_valid (OS2IP lx_n) (effective (OS2IP lx_e)) (length lx_n) (digest_info oid_sha1 lx_digest) lx_own.
Proof. intros (_ & _ & _ & E). rewrite <- Zpow_mod_correct in E by (vm_compute; discriminate). apply bytes_eqb_eq in E. match type of E with ?b = true => assert (F : b = false) by (vm_compute; reflexivity) end. rewrite F in E. discriminate E. Qed.
Lemma lx_other_valid : rsassa_pkcs1_valid (OS2IP lx_n) (effective (OS2IP lx_e)) (length lx_n) (digest_info oid_sha1 lx_digest) lx_other.
Proof.
  split; [reflexivity|]. split; [vm_compute; reflexivity|]. split; [apply Nat.leb_le; vm_compute; reflexivity|]. rewrite <- Zpow_mod_correct by (vm_compute; discriminate). vm_compute. reflexivity.
Qed.
Lemma lx_other_not_valid : ~ rsassa_pkcs1_valid (OS2IP lx_n) (OS2IP lx_e) (length lx_n) (digest_info oid_sha1 lx_digest) lx_other.
Proof. intros (_ & _ & _ & E). rewrite <- Zpow_mod_correct in E by (vm_compute; discriminate). apply bytes_eqb_eq in E. match type of E with ?b = true => assert (F : b = false) by (vm_compute; reflexivity) end. rewrite F in E. discriminate E. Qed.
Lemma own_rejected : exists n e d digest, modulus_fit n /\ odd_exponent e /\ rsa_key (OS2IP n) (OS2IP e) d /\ length digest = 20%nat /\
  verify_rsa mod_exp_sw SHA1 n e digest (rsassa_pkcs1_sign (OS2IP n) d (length n) (digest_info oid_sha1 digest)) = Ok false.
Proof.
  exists lx_n, lx_e, lx_d, lx_digest. split; [exact lx_n_fit|]. split; [exact lx_e_odd|]. split; [exact lx_key|]. split; [reflexivity|]. pose proof lx_n_fit as (An & Nn & _).
  assert (Q : lx_own = rsassa_pkcs1_sign (OS2IP lx_n) lx_d (length lx_n) (digest_info oid_sha1 lx_digest)).
  { exact (proj2 (proj1 (pkcs1_sign_iff lx_n (OS2IP lx_e) lx_d (digest_info oid_sha1 lx_digest) lx_own An Nn lx_key lx_T (I2OSP_bytes _ _)) lx_valid)). }
  rewrite <- Q. destruct (pkcs1_every lx_n lx_e SHA1 lx_digest lx_own lx_n_fit lx_e_odd (I2OSP_bytes _ _) eq_refl) as ([|] & E & Hb); [|exact E]. exfalso. apply lx_not_valid. apply Hb. reflexivity.
Qed.
Lemma other_accepted : exists n e d digest sig, modulus_fit n /\ odd_exponent e /\ rsa_key (OS2IP n) (OS2IP e) d /\ length digest = 20%nat /\
  verify_rsa mod_exp_sw SHA1 n e digest sig = Ok true /\ ~ rsassa_pkcs1_valid (OS2IP n) (OS2IP e) (length n) (digest_info oid_sha1 digest) sig.
Proof.
  exists lx_n, lx_e, lx_d, lx_digest, lx_other. split; [exact lx_n_fit|]. split; [exact lx_e_odd|]. split; [exact lx_key|]. split; [reflexivity|]. split; [|exact lx_other_not_valid].
  destruct (pkcs1_every lx_n lx_e SHA1 lx_digest lx_other lx_n_fit lx_e_odd (I2OSP_bytes _ _) eq_refl) as (b & E & Hb). rewrite E. f_equal. apply Hb. exact lx_other_valid.
Qed.
