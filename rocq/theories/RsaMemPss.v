(** PSS verification over memory. *)
From Coq Require Import List ZArith Bool Lia.
From Verif Require Import Outcome UtilsModel UtilsSpec UtilsProofs MgfModel RsaModel RsaSpec RsaProofs RsaClaims WordsModel WordsProofs PowmModel PowmClaims
  RawModel RawSpec RawProofs RawAlloc PowmRawModel PowmRaw PowmRawMain WholeModel WholeProofs WholeView RsaMemModel RsaMemProofs PowmMain.
Import ListNotations.
Open Scope nat_scope.

Lemma at_skipn v : forall i, RsaModel.at_ v i = match skipn i v with b :: _ => Ok b | [] => UB end.
Proof. induction v as [|b v IH]; intros [|i]; try reflexivity. apply IH. Qed.
Lemma skipn_S {A} (v : list A) : forall i, skipn (S i) v = tl (skipn i v).
Proof. induction v as [|a v IH]; intros [|i]; try reflexivity. cbn [skipn]. apply (IH i). Qed.
Lemma padding_ok m em v : blk m em v -> forall k i, pss_padding_w k i m em = pss_padding (skipn i v) k.
Proof.
  intros B. induction k as [|k IH]; intros i; cbn [pss_padding_w]; rewrite (blk_ld m em v i B), at_skipn; destruct (skipn i v) as [|b t] eqn:E; cbn [pss_padding bind]; try reflexivity.
  destruct (b =? 0)%Z; [|reflexivity]. rewrite IH, skipn_S, E. reflexivity.
Qed.
Lemma last_ok m em v : blk m em v -> (match length v with O => UB | S k => ld m em k end) = (match rev v with b :: _ => Ok b | [] => UB end).
Proof.
  intros B. destruct v as [|a v'] using rev_ind; [reflexivity|]. clear IHv'. rewrite rev_app_distr. cbn [rev app]. rewrite app_length. cbn [length]. rewrite Nat.add_1_r. rewrite (blk_ld m em _ _ B). unfold RsaModel.at_. rewrite nth_error_app2, Nat.sub_diag by lia. reflexivity.
Qed.
Lemma blk_write m em r m1 v : blk m em v -> reads m1 em r -> length r <= length v -> (forall k, ~ within em (length r) (fst em) k -> rd m1 (fst em) k = rd m (fst em) k) -> blk m1 em (r ++ skipn (length r) v).
Proof.
  intros [S B] R L F. split; [exact S|]. intros k. destruct (le_lt_dec (length r) k) as [G|G].
  - rewrite nth_error_app2 by exact G. rewrite F by (intros [_ H]; lia). rewrite B. rewrite <- (firstn_skipn (length r) v) at 1. rewrite nth_error_app2 by (rewrite firstn_length; lia). rewrite firstn_length, Nat.min_l by lia. reflexivity.
  - rewrite nth_error_app1 by exact G. specialize (R k G). rewrite S, Nat.add_0_l in R. rewrite R. symmetry. apply nth_error_nth'. exact G.
Qed.
Section PSS.
Variables (hash : list Z -> list Z) (hlen : nat).
Hypothesis HK : hash_ok hash hlen.
Definition others (m : memory) (em : loc) (m1 : memory) : Prop := length m <= length m1 /\ forall b k, b < length m -> b <> fst em -> rd m1 b k = rd m b k.
Lemma others_refl m em : others m em m. Proof. split; [lia|reflexivity]. Qed.
(** the end: M', its hash and the comparison *)
Lemma end_ok m em dblen db h slen digest : length digest = hlen -> reads m em db -> length db = dblen -> reads m (at_ em dblen) h -> length h = hlen -> fst em < length m -> slen <= dblen ->
  exists m1, (let '(m, mp) := place m (repeat 0%Z (8 + hlen + slen)) in
          let '(m, d) := place m digest in
          let* m := memcpy_r m (at_ mp 8) d hlen in
          let* m := memcpy_r m (at_ mp (8 + hlen)) (at_ em (dblen - slen)) slen in
          let* v := load_n m mp 0 (8 + hlen + slen) in
          let '(m, h2) := place m (hash v) in
          let* eq_ := memcmp_w m (at_ em dblen) h2 hlen in Ok (eq_, m)) = Ok (bytes_eqb h (hash (repeat 0%Z 8 ++ digest ++ skipn (length db - slen) db)), m1) /\ kept m m1.
Proof.
  intros Ld Rdb Ldb Rh Lh Le Ls. destruct HK as (H0 & HL & HB). destruct (place_ok m (repeat 0%Z (8 + hlen + slen))) as (m1 & -> & X1 & R1 & L1). destruct (place_ok m1 digest) as (m2 & -> & X2 & R2 & L2).
  assert (Ro1 : room m1 (length m, 0) (8 + hlen + slen)) by (pose proof (reads_room _ _ _ R1) as Q; rewrite repeat_length in Q; exact Q). pose proof (extends_room _ _ _ _ X2 Ro1) as Ro2.
  destruct (memcpy_ok m2 (at_ (length m, 0) 8) (length m1, 0) hlen digest) as (m3 & -> & W3); [exact Ld|exact R2|apply (room_sub _ _ _ _ _ Ro2); lia|left; cbn; lia|]. cbn [bind]. set (salt := skipn (length db - slen) db). assert (Lsalt : length salt = slen) by (unfold salt; rewrite skipn_length; lia).
  assert (X02 : extends m m2) by exact (extends_trans _ _ _ X1 X2).
  assert (K3 : forall b k, b < length m -> rd m3 b k = rd m b k). { intros b k Hb. destruct W3 as [_ W3]. rewrite (proj2 (W3 b k)) by (intros [E _]; cbn in E; lia). apply (extends_rd _ _ _ _ X02). exact Hb. }
  assert (Rs3 : reads m3 (at_ em (dblen - slen)) salt). { intros j Hj. rewrite K3 by (cbn; lia). unfold salt in *. rewrite Ldb in *. apply (reads_skipn m em db (dblen - slen)); [exact Rdb|lia|exact Hj]. }
  destruct (memcpy_ok m3 (at_ (length m, 0) (8 + hlen)) (at_ em (dblen - slen)) slen salt) as (m4 & -> & W4); [exact Lsalt|exact Rs3|apply (writes_room _ _ _ _ _ _ W3); apply (room_sub _ _ _ _ _ Ro2); lia|left; cbn; lia|]. cbn [bind].
  pose proof (writes_length _ _ _ _ W3) as Lm3. pose proof (writes_length _ _ _ _ W4) as Lm4.
  assert (R4 : reads m4 (length m, 0) (repeat 0%Z 8 ++ digest ++ salt)).
  { apply reads_app. split; [|apply reads_app; split].
    - apply (writes_frame _ _ _ _ _ _ W4); [|right; right; rewrite repeat_length; cbn; lia]. apply (writes_frame _ _ _ _ _ _ W3); [|right; right; rewrite repeat_length; cbn; lia]. apply (extends_reads _ _ _ _ X2). replace (8 + hlen + slen) with (8 + (hlen + slen)) in R1 by lia. rewrite repeat_app in R1. apply reads_app in R1. apply R1.
    - apply (writes_frame _ _ _ _ _ _ W4); [|right; right; rewrite Ld; cbn; lia]. rewrite repeat_length. exact (writes_reads _ _ _ _ W3).
    - rewrite repeat_length, at_at, Ld. exact (writes_reads _ _ _ _ W4). }
  assert (LD : load_n m4 (length m, 0) 0 (8 + hlen + slen) = Ok (repeat 0%Z 8 ++ digest ++ salt)). { replace (8 + hlen + slen) with (length (repeat 0%Z 8 ++ digest ++ salt)) by (rewrite !app_length, repeat_length, Ld, Lsalt; lia). apply load_n_ok. rewrite at_0. exact R4. }
  rewrite LD. cbn [bind]. set (v := repeat 0%Z 8 ++ digest ++ salt). destruct (place_ok m4 (hash v)) as (m5 & -> & X5 & R5 & L5).
  assert (K5 : kept m m5). { split; [lia|]. intros b k Hb. rewrite (extends_rd _ _ _ _ X5) by lia. destruct W4 as [_ W4]. rewrite (proj2 (W4 b k)) by (intros [E _]; cbn in E; lia). apply K3. exact Hb. }
  exists m5. split; [|exact K5]. rewrite (memcmp_ok m5 (at_ em dblen) (length m4, 0) h (hash v)); [reflexivity| |exact R5|exact Lh|apply HL]. intros j Hj. rewrite (proj2 K5) by (cbn; lia). apply Rh. exact Hj.
Qed.
Lemma pss_check_ok jb m em v nlen salt digest : blk m em v -> fst em < length m -> all_bytes v -> length digest = hlen -> (0 <= match salt with Some s => s | None => Z.of_nat hlen end)%Z ->
  exists m1, pss_check_w hash hlen jb m em (length v) nlen salt digest = (let* b := pss_check hash hlen nlen salt digest v in Ok (b, m1)) /\ others m em m1.
Proof.
  intros B Le Fv Ld. unfold pss_check_w, pss_check. cbv zeta. set (slen := match salt with Some s => s | None => Z.of_nat hlen end). intros Ps. unfold zlen. set (L := length v).
  destruct (Z.of_nat L <? _)%Z; [exists m; split; [reflexivity|apply others_refl]|]. unfold L at 1. rewrite (last_ok m em v B). fold L.
  destruct (match rev v with b :: _ => Ok b | [] => UB end) as [l| | |]; cbn [bind]; try (exists m; split; [reflexivity|apply others_refl]). destruct (negb (l =? 188)%Z); [exists m; split; [reflexivity|apply others_refl]|].
  set (mask := Z.shiftr 255 _). rewrite (blk_ld m em v 0 B). destruct (RsaModel.at_ v 0) as [e0| | |]; cbn [bind]; try (exists m; split; [reflexivity|apply others_refl]). destruct (negb (Z.land e0 255 =? Z.land e0 mask)%Z); [exists m; split; [reflexivity|apply others_refl]|].
  set (dblen := Z.to_nat (size32 (Z.of_nat L - Z.of_nat hlen - 1))). unfold slice. fold L. destruct (Nat.ltb_spec L (dblen + hlen)) as [S|S].
  { exists m. split; [|apply others_refl]. rewrite (proj2 (Nat.leb_gt (dblen + hlen) L)) by exact S. destruct (Nat.leb (0 + dblen) L); reflexivity. }
  rewrite !(proj2 (Nat.leb_le _ _)) by lia. cbn [bind skipn]. set (db0 := firstn dblen v). set (h := firstn hlen (skipn dblen v)). assert (Lh : length h = hlen) by (unfold h; rewrite firstn_length, skipn_length; fold L; lia). assert (Ldb0 : length db0 = dblen) by (unfold db0; rewrite firstn_length; fold L; lia).
  destruct (mgf1_ok hash hlen HK jb m (at_ em dblen) em h db0) as (m1 & r & E1 & V1 & Lr & R1 & Lm1 & F1); [apply Forall_firstn; exact Fv|apply blk_part; [exact B|fold L; lia]|apply reads_firstn; apply blk_reads; exact B|right; left; rewrite Ldb0; cbn; lia|exact Le|exact Le|].
  rewrite Lh, Ldb0 in E1. rewrite E1, V1. cbn [bind]. rewrite Ldb0 in *. assert (B1 : blk m1 em (r ++ skipn dblen v)). { rewrite <- Lr. apply (blk_write m em r m1 v B R1); [fold L; lia|]. intros k Hk. apply F1; [exact Le|rewrite <- Lr; exact Hk]. }
  destruct r as [|d0 dt]. { cbn in Lr. rewrite <- Lr. cbn [Nat.eqb]. exists m. split; [reflexivity|apply others_refl]. }
  destruct (Nat.eqb_spec dblen 0) as [D0|D0]; [rewrite D0 in Lr; discriminate|]. rewrite (blk_ld m1 em _ 0 B1). cbn [RsaModel.at_ nth_error app bind]. set (d1 := Z.land d0 mask).
  destruct (st_ok m1 em 0 d1) as (m2 & -> & W2). { destruct B1 as [S1 B1]. rewrite S1. cbn [Nat.add]. rewrite B1. discriminate. } cbn [bind]. rewrite at_0 in W2.
  assert (B2 : blk m2 em ((d1 :: dt) ++ skipn dblen v)). { pose proof (blk_write m1 em [d1] m2 _ B1 (writes_reads _ _ _ _ W2)) as Q. cbn in Q. apply Q; [lia|]. intros k Hk. destruct W2 as [_ W2]. apply W2. exact Hk. }
  assert (L2 : length ((d1 :: dt) ++ skipn dblen v) = L). { rewrite app_length, skipn_length. cbn in Lr |- *. fold L. lia. }
  assert (O2 : others m em m2). { pose proof (writes_length _ _ _ _ W2). split; [lia|]. intros b k Hb Hn. destruct W2 as [_ W2]. rewrite (proj2 (W2 b k)) by (intros [E _]; congruence). apply F1; [exact Hb|]. intros [E _]. congruence. }
  change (d1 :: dt ++ skipn dblen v) with ((d1 :: dt) ++ skipn dblen v). rewrite L2. rewrite (padding_ok m2 em _ B2). cbn [skipn]. set (v2 := (d1 :: dt) ++ skipn dblen v) in *.
  destruct (pss_padding v2 _) as [ok| | |]; cbn [bind]; try (exists m2; split; [reflexivity|exact O2]). destruct (negb ok); [exists m2; split; [reflexivity|exact O2]|].
  replace (length (d1 :: dt)) with dblen by (cbn in Lr |- *; lia). destruct (Z.ltb_spec (Z.of_nat dblen) slen) as [T|T]; [exists m2; split; [reflexivity|exact O2]|]. cbn [bind]. destruct (_ <? _)%Z; [exists m2; split; [reflexivity|exact O2]|].
  assert (Lm2 : length m2 = length m1) by exact (writes_length _ _ _ _ W2).
  destruct (end_ok m2 em dblen (d1 :: dt) h (Z.to_nat slen) digest Ld) as (m3 & E3 & K3).
  - apply blk_reads in B2. unfold v2 in B2. apply reads_app in B2. apply B2.
  - cbn in Lr |- *. lia.
  - apply blk_reads in B2. unfold v2 in B2. apply reads_app in B2. destruct B2 as [_ B2]. replace (length (d1 :: dt)) with dblen in B2 by (cbn in Lr |- *; lia). unfold h. apply reads_firstn. exact B2.
  - exact Lh.
  - lia.
  - lia.
  - exists m3. split; [rewrite E3; replace (length (d1 :: dt)) with dblen by (cbn in Lr |- *; lia); reflexivity|]. destruct O2 as [O2 O2']. destruct K3 as [K3 K3']. split; [lia|]. intros b k Hb Hn. rewrite K3' by lia. apply O2'; assumption.
Qed.
End PSS.
Lemma sw_bytes base e n v : modulus_fit n -> all_bytes base -> all_bytes e -> length base = length n -> RsaModel.powm mod_exp_sw base e n = Ok v -> all_bytes v.
Proof.
  intros Fit Fb Fe LL. unfold RsaModel.powm. intros H. destruct (check _) as [[]| | |]; try discriminate. cbn [bind] in H. destruct (check _) as [[]| | |]; try discriminate. cbn [bind] in H. destruct (check _) as [[]| | |]; try discriminate. cbn [bind] in H.
  destruct (le_lt_dec (length e) 8) as [L8|L8]; [|destruct Fit as (_ & _ & _ & _ & LB); rewrite PowmClaims.powm_exponent_ub in H by assumption; discriminate].
  destruct (Z.odd (OS2IP e)) eqn:Oe; [destruct (Z_lt_ge_dec (OS2IP e) 3) as [S3|G3]|].
  2: { destruct (PowmClaims.powm_total base e n) as (w & E & _); try assumption; [lia|]. rewrite E in H. cbn [bind] in H. injection H as <-. apply I2OSP_bytes. }
  all: rewrite PowmClaims.powm_refuses in H; try assumption; [cbn [bind] in H; injection H as <-; apply repeat_bytes|].
  - right. destruct (Z.eq_dec (OS2IP e) 2) as [X|X]; [rewrite X in Oe; discriminate|lia].
  - left. rewrite <- Z.negb_odd, Oe. reflexivity.
Qed.
Lemma pss_agrees hash hlen junk jb m sig exp mod_ bs es ms salt digest : hash_ok hash hlen -> length digest = hlen -> (0 <= match salt with Some s => s | None => Z.of_nat hlen end)%Z ->
  modulus_fit ms -> all_bytes bs -> all_bytes es -> reads m sig bs -> reads m exp es -> reads m mod_ ms ->
  pss_w hash hlen junk jb m sig (length bs) exp (length es) mod_ (length ms) salt digest = (let* b := rsassa_pss_mgf1_verify mod_exp_sw hash hlen ms es salt digest bs in Ok (b, m)).
Proof.
  intros HK Ld Ps Fit Fb Fe Rb Re Rm. unfold pss_w, rsassa_pss_mgf1_verify. destruct (Nat.eqb_spec (length bs) (length ms)) as [LL|LL]; cbn [negb]; [|reflexivity]. rewrite (rsavp1_ok junk m sig exp mod_ bs es ms) by assumption.
  destruct (rsavp1 mod_exp_sw ms es bs) as [v| | |] eqn:V; cbn [bind fst snd]; try reflexivity. assert (Fv : all_bytes v). { unfold rsavp1 in V. destruct (is_s_valid bs ms); [exact (sw_bytes _ _ _ _ Fit Fb Fe LL V)|injection V as <-; constructor]. }
  destruct (place_ok m v) as (m1 & E & X & R & L). pose proof (blk_place m v) as B. rewrite E in B. rewrite E.
  destruct (pss_check_ok hash hlen HK jb m1 (length m, 0) v (length ms) salt digest B) as (m2 & -> & O); try assumption; [cbn; lia|]. destruct (pss_check hash hlen (length ms) salt digest v) as [b| | |]; cbn [bind fst snd]; try reflexivity.
  rewrite (kept_leave m m2); [reflexivity|]. destruct O as [O1 O2]. split; [lia|]. intros c k Hc. rewrite O2 by (cbn [fst]; lia). apply (extends_rd _ _ _ _ X). exact Hc.
Qed.
