(** RSA verification over memory: what is accepted. *)
From Coq Require Import List ZArith Bool Lia.
From Verif Require Import Outcome UtilsModel UtilsSpec UtilsProofs MgfModel RsaModel RsaSpec RsaProofs RsaClaims RsaPssSpec PowmModel PowmSpec PowmMain PowmClaims ContractModel ContractSpec RsaSignSpec PowmExp
  RawModel RawSpec RawProofs RawAlloc PowmRawModel PowmRaw WholeModel WholeProofs RsaMemModel RsaMemProofs RsaMemPss.
Import ListNotations.
Open Scope Z_scope.

Lemma verify_agrees junk jt k m sig exp mod_ bs es ms digest : modulus_fit ms -> all_bytes bs -> all_bytes es -> reads m sig bs -> reads m exp es -> reads m mod_ ms ->
  verify_rsa_w junk jt k m sig (length bs) exp (length es) mod_ (length ms) digest = (let* b := verify_rsa mod_exp_sw k ms es digest bs in Ok (b, m)).
Proof. intros Fit Fb Fe Rb Re Rm. unfold verify_rsa_w. rewrite pkcs1_agrees by assumption. destruct k; reflexivity. Qed.
Lemma mem_table junk jt k m sig exp mod_ bs es ms digest : modulus_fit ms -> all_bytes es -> all_bytes bs -> length digest = hash_size k -> reads m sig bs -> reads m exp es -> reads m mod_ ms ->
  let v := verify_rsa_w junk jt k m sig (length bs) exp (length es) mod_ (length ms) digest in
  (length bs <> length ms \/ OS2IP ms <= OS2IP bs -> v = Ok (false, m)) /\
  (length bs = length ms -> OS2IP bs < OS2IP ms ->
    (es = [] \/ 2 ^ 64 <= OS2IP es -> v = Abort) /\
    ((8 < length es)%nat -> OS2IP es < 2 ^ 64 -> v = UB) /\
    ((0 < length es <= 8)%nat -> Z.even (OS2IP es) = true \/ OS2IP es < 3 -> v = Ok (false, m)) /\
    (odd_exponent es -> exists b, v = Ok (b, m) /\ (b = true <-> rsassa_pkcs1_valid (OS2IP ms) (effective (OS2IP es)) (length ms) (digest_info (action_oid k) digest) bs))).
Proof.
  intros Fit Fe Fb Ld Rb Re Rm v. subst v. rewrite verify_agrees by assumption. destruct (table ms es k digest bs Fit Fe Fb Ld) as (T1 & T2). split; [intros H; rewrite (T1 H); reflexivity|].
  intros LL LT. destruct (T2 LL LT) as (A & B & C & D). split; [intros H; rewrite (A H); reflexivity|]. split; [intros H H'; rewrite (B H H'); reflexivity|]. split; [intros H H'; rewrite (C H H'); reflexivity|].
  intros H. destruct (D H) as (b & E & Hb). exists b. split; [rewrite E; reflexivity|exact Hb].
Qed.
Lemma mem_key junk jt k m sig exp mod_ bs es ms d digest : modulus_fit ms -> odd_exponent es -> rsa_key (OS2IP ms) (effective (OS2IP es)) d -> all_bytes digest -> length digest = hash_size k -> all_bytes bs ->
  reads m sig bs -> reads m exp es -> reads m mod_ ms ->
  let T := digest_info (action_oid k) digest in
  exists b, verify_rsa_w junk jt k m sig (length bs) exp (length es) mod_ (length ms) digest = Ok (b, m) /\ (b = true <-> (length T + 11 <= length ms)%nat /\ bs = rsassa_pkcs1_sign (OS2IP ms) d (length ms) T).
Proof.
  intros Fit Oe K Fd Ld Fb Rb Re Rm T. destruct (key_every ms es d k digest bs Fit Oe K Fd Ld Fb) as (b & E & H). exists b. split; [|exact H]. rewrite verify_agrees by (try assumption; apply Oe). rewrite E. reflexivity.
Qed.
Lemma mem_pss hash hlen : hash_ok hash hlen -> Z.of_nat hlen < 2 ^ 31 -> forall junk jb m sig exp mod_ bs es ms salt_len digest, modulus_fit ms -> odd_exponent es -> all_bytes bs -> all_bytes digest -> length digest = hlen ->
  reads m sig bs -> reads m exp es -> reads m mod_ ms ->
  let slen := match salt_len with Some s => s | None => Z.of_nat hlen end in
  0 <= slen < 2 ^ 32 ->
  let run := pss_w hash hlen junk jb m sig (length bs) exp (length es) mod_ (length ms) salt_len digest in
  (run = Ok (true, m) <-> pss_valid_bytes hash hlen (Z.to_nat slen) (OS2IP ms) (effective (OS2IP es)) (length ms) digest bs) /\
  (run = Ok (true, m) \/ run = Ok (false, m) \/ run = UB) /\ (Z.of_nat hlen + slen + 2 < 2 ^ 32 -> run <> UB).
Proof.
  intros HK HL junk jb m sig exp mod_ bs es ms salt_len digest Fit Oe Fb Fd Ld Rb Re Rm slen Hs run. subst run. rewrite pss_agrees by (try assumption; try apply Oe; apply Hs).
  destruct (pss_every_bytes hash hlen HK HL ms es salt_len digest bs Fit Oe Fb Fd Hs) as (A & B & C). fold slen in A, C. set (v := rsassa_pss_mgf1_verify _ _ _ _ _ _ _ _) in *. split; [|split].
  - rewrite <- A. destruct v as [b| | |]; cbn [bind]; split; intros H; try discriminate; injection H as ->; reflexivity.
  - destruct B as [E|[E|E]]; rewrite E; auto.
  - intros H. specialize (C H). destruct v as [b| | |]; cbn [bind]; congruence.
Qed.
Lemma mem_pss_other hash hlen junk jb m sig exp mod_ bs es ms salt_len digest : hash_ok hash hlen -> modulus_fit ms -> all_bytes es -> all_bytes bs -> length digest = hlen -> reads m sig bs -> reads m exp es -> reads m mod_ ms ->
  let slen := match salt_len with Some s => s | None => Z.of_nat hlen end in
  0 <= slen -> Z.of_nat hlen + slen + 10 < 2 ^ 32 ->
  let v := pss_w hash hlen junk jb m sig (length bs) exp (length es) mod_ (length ms) salt_len digest in
  (length bs <> length ms \/ OS2IP ms <= OS2IP bs -> v = Ok (false, m)) /\
  (length bs = length ms -> OS2IP bs < OS2IP ms ->
    (es = [] \/ 2 ^ 64 <= OS2IP es -> v = Abort) /\
    ((8 < length es)%nat -> OS2IP es < 2 ^ 64 -> v = UB) /\
    ((0 < length es <= 8)%nat -> Z.even (OS2IP es) = true \/ OS2IP es < 3 -> v = Ok (false, m))).
Proof.
  intros HK Fit Fe Fb Ld Rb Re Rm slen H0 H1 v. subst v. rewrite pss_agrees by assumption. destruct (pss_table hash hlen ms es salt_len digest bs Fit Fe Fb H0 H1) as (T1 & T2). split; [intros H; rewrite (T1 H); reflexivity|].
  intros LL LT. destruct (T2 LL LT) as (A & B & C). split; [intros H; rewrite (A H); reflexivity|]. split; [intros H H'; rewrite (B H H'); reflexivity|]. intros H H'; rewrite (C H H'); reflexivity.
Qed.
Lemma mem_valid m s n bs ns : all_bytes bs -> all_bytes ns -> no_leading_zero ns -> reads m s bs -> reads m n ns -> valid_w m s (length bs) n (length ns) = Ok (OS2IP bs <? OS2IP ns).
Proof. intros Fb Fn Nz R S. rewrite valid_ok by assumption. rewrite is_s_valid_spec by assumption. reflexivity. Qed.
Lemma mem_memxor m dst src ds ss num : all_bytes ds -> all_bytes ss -> reads m dst ds -> reads m src ss -> fst dst <> fst src ->
  exists m1 out, memxor_w m dst (length ds) src (length ss) num = Ok m1 /\ reads m1 dst out /\ memxor_result ds ss num out /\ only m m1 [(dst, Nat.min num (Nat.min (length ds) (length ss)))].
Proof.
  intros Fd Fs Rd Rs D. destruct (memxor_w_ok m dst src ds ss num Fd Fs Rd Rs D) as (m1 & r & E & W & L & V). set (k := Nat.min (Nat.min num (length ds)) (length ss)) in *. assert (Kd : (k <= length ds)%nat) by (unfold k; lia). destruct (memxor_spec ds ss num Fd Fs) as (out & Eo & Ro). rewrite V in Eo. injection Eo as <-.
  exists m1, (r ++ skipn k ds). split; [exact E|]. split; [|split; [exact Ro|]].
  - apply reads_app. split; [exact (writes_reads _ _ _ _ W)|]. rewrite L. apply (writes_frame _ _ _ _ _ _ W); [apply reads_skipn; assumption|]. right; left. rewrite L. cbn. lia.
  - replace (Nat.min num (Nat.min (length ds) (length ss))) with (length r) by (rewrite L; unfold k; lia). exact (writes_only _ _ _ _ W).
Qed.
Lemma mem_mgf1 hash hlen jb m seed mask sd mk : hash_ok hash hlen -> all_bytes mk -> reads m seed sd -> reads m mask mk -> apart mask (length mk) seed (length sd) -> (fst mask < length m)%nat -> (fst seed < length m)%nat -> Z.of_nat (length mk) <= 2 ^ 32 * Z.of_nat hlen ->
  exists m1, mgf1_w hash jb m seed (length sd) mask (length mk) = Ok m1 /\ reads m1 mask (xor_bytes mk (MGF1 hash hlen sd (length mk))) /\ only m (leave m m1) [(mask, length mk)].
Proof.
  intros HK Fm Rs Rm Ap B1 B2 HL. destruct (mgf1_ok hash hlen HK jb m seed mask sd mk Fm Rs Rm Ap B1 B2) as (m1 & r & E & V & Lr & R & Lm & F). destruct (mgf1_claim hash hlen sd mk HK Fm HL) as (_ & V' & _). rewrite V in V'. injection V' as ->.
  exists m1. split; [exact E|]. split; [exact R|]. split.
  - change (shape (leave m m1) = shape m). unfold shape. apply nth_ext with (d := 0%nat) (d' := 0%nat).
    + rewrite !map_length. unfold leave. rewrite firstn_length. lia.
    + intros b Hb. rewrite map_length in Hb. assert (Hb' : (b < length m)%nat) by (unfold leave in Hb; rewrite firstn_length in Hb; lia). fold (shape m) (shape (leave m m1)).
      assert (Q : forall k, rd (leave m m1) b k <> None <-> rd m b k <> None).
      { intros k. rewrite rd_leave. rewrite (proj2 (Nat.ltb_lt _ _) Hb'). destruct (within_dec mask (length mk) b k) as [[-> W]|W].
        - assert (A : (k - snd mask < length mk)%nat) by lia. pose proof (Rm _ A) as R1. rewrite <- Lr in A. pose proof (R _ A) as R2. assert (Q : (snd mask + (k - snd mask))%nat = k) by lia. rewrite Q in R1, R2. rewrite R1, R2. split; intros _; discriminate.
        - rewrite F by assumption. reflexivity. }
      destruct (Nat.lt_trichotomy (nth b (shape (leave m m1)) 0%nat) (nth b (shape m) 0%nat)) as [C|[C|C]]; [|exact C|].
      * exfalso. apply rd_some_iff in C. apply Q in C. apply rd_some_iff in C. lia.
      * exfalso. apply rd_some_iff in C. apply Q in C. apply rd_some_iff in C. lia.
  - intros b k H. rewrite rd_leave. destruct (Nat.ltb_spec b (length m)) as [C|C]; [|rewrite rd_none by exact C; reflexivity]. apply F; [exact C|]. intros W. apply (H (mask, length mk)); [left; reflexivity|exact W].
Qed.
