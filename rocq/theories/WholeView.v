(** [powm] on views over memory. *)
From Coq Require Import List ZArith Bool Lia.
From Verif Require Import Outcome UtilsModel UtilsSpec UtilsProofs RsaModel RsaSpec RsaProofs WordsModel WordsSpec WordsProofs BufferModel PowmModel PowmSpec PowmProofs PowmReduce PowmConv PowmMont PowmMain
  RawModel RawSpec RawProofs RawAlloc PowmRawModel PowmRawSpec PowmRaw PowmRawReduce PowmRawMain PowmRawClaims TraceModel TraceProofs TraceValue WholeModel WholeProofs WholeMain PowmClaims.
Import ListNotations.
Open Scope nat_scope.

Lemma small_ok m p k : forall i bs, reads m (at_ p i) bs -> k <= length bs -> small_w k i m p = check (forallb (fun b => (b =? 0)%Z) (firstn k bs)).
Proof.
  induction k as [|k IH]; intros i bs R L; [reflexivity|]. destruct bs as [|b bs]; [cbn in L; lia|]. cbn [small_w length firstn forallb] in *.
  pose proof (R 0 ltac:(cbn; lia)) as R0. cbn [nth RawModel.at_ fst snd] in R0. rewrite Nat.add_0_r in R0. unfold ld. rewrite R0. cbn [bind].
  change (b :: bs) with ([b] ++ bs) in R. apply reads_app in R. destruct R as [_ R]. rewrite at_at in R. cbn [length] in R. rewrite Nat.add_1_r in R.
  destruct (b =? 0)%Z; cbn [check bind andb]; [|reflexivity]. apply IH; [exact R|lia].
Qed.
Section V.
Variables (junk : nat -> nat -> Z) (m : memory) (base exp mod_ : loc) (bs es ms : list Z).
Hypothesis Fb : all_bytes bs. Hypothesis Fe : all_bytes es. Hypothesis Fm : all_bytes ms. Hypothesis Rb : reads m base bs. Hypothesis Re : reads m exp es. Hypothesis Rm : reads m mod_ ms.
Let run := powm_view_w junk m base (length bs) exp (length es) mod_ (length ms).
Lemma view_eq m1 : place m (repeat 0%Z (length ms)) = (m1, (length m, 0)) -> run =
  (let* _ := check (if Nat.ltb 8 (length es) then forallb (fun b => (b =? 0)%Z) (firstn (length es - 8) es) else true) in
   let* _ := check (negb (Nat.eqb (length bs) 0) && negb (Nat.eqb (length ms) 0) && negb (Nat.eqb (length es) 0)) in
   let* _ := check (Nat.eqb (length bs) (length ms)) in
   let* r := powm_w junk m1 base (length bs) exp (length es) mod_ (length ms) (length m, 0) in
   let* v := load_n (snd r) (length m, 0) 0 (length ms) in Ok (v, leave m (snd r))).
Proof.
  intros E. unfold run, powm_view_w. rewrite E. assert (S : (if 8 <? length es then small_w (length es - 8) 0 m exp else Ok tt) = check (if 8 <? length es then forallb (fun b => (b =? 0)%Z) (firstn (length es - 8) es) else true)).
  { destruct (8 <? length es); [|reflexivity]. apply small_ok; [rewrite at_0; exact Re|lia]. }
  rewrite S. destruct (check _) as [[]| | |]; cbn [bind]; try reflexivity. unfold powm_call_w.
  destruct (Nat.eqb_spec (length bs) 0) as [B0|B0]; cbn [negb andb check bind]; [reflexivity|]. destruct (Nat.eqb_spec (length ms) 0) as [M0|M0]; cbn [negb andb check bind]; [reflexivity|]. destruct (Nat.eqb_spec (length es) 0); cbn [negb andb check bind]; [reflexivity|].
  destruct (Nat.eqb_spec (length bs) (length ms)) as [EL|]; cbn [check bind]; [|reflexivity]. rewrite EL, Nat.leb_refl. cbn [check bind].
  destruct (powm_w junk m1 base (length ms) exp (length es) mod_ (length ms) (length m, 0)) as [r| | |]; reflexivity.
Qed.
Lemma placed : exists m1, place m (repeat 0%Z (length ms)) = (m1, (length m, 0)) /\ extends m m1 /\ room m1 (length m, 0) (length ms) /\ reads m1 (length m, 0) (repeat 0%Z (length ms)).
Proof. destruct (place_ok m (repeat 0%Z (length ms))) as (m1 & E & X & R & _). exists m1. split; [exact E|]. split; [exact X|]. split; [|exact R]. pose proof (reads_room _ _ _ R) as Q. rewrite repeat_length in Q. exact Q. Qed.
Lemma passes : 0 < length es <= 8 -> 0 < length bs -> length bs = length ms -> forall m1, place m (repeat 0%Z (length ms)) = (m1, (length m, 0)) ->
  run = (let* r := powm_w junk m1 base (length bs) exp (length es) mod_ (length ms) (length m, 0) in let* v := load_n (snd r) (length m, 0) 0 (length ms) in Ok (v, leave m (snd r))).
Proof.
  intros [E0 E8] B0 L m1 E. rewrite (view_eq m1 E). rewrite (proj2 (Nat.ltb_ge _ _)) by exact E8. cbn [check bind]. rewrite !(proj2 (Nat.eqb_neq _ 0)) by lia. cbn [negb andb check bind]. rewrite (proj2 (Nat.eqb_eq _ _) L). cbn [check bind]. reflexivity.
Qed.
End V.
Section W.
Variables (junk : nat -> nat -> Z) (m : memory) (base exp mod_ : loc) (hi lo es : list Z) (n : Z) (t : list Z).
Let bs := hi ++ lo. Let z := length lo. Let ms := repeat 0%Z z ++ n :: t.
Hypothesis Fb : all_bytes bs. Hypothesis Fe : all_bytes es. Hypothesis Fn : all_bytes (n :: t). Hypothesis Rb : reads m base bs. Hypothesis Re : reads m exp es. Hypothesis Rm : reads m mod_ ms.
Hypothesis n0 : n <> 0%Z. Hypothesis Ln : length (n :: t) = length hi. Hypothesis L4 : length hi mod 4 = 0. Hypothesis J4 : length lo mod 4 = 0. Hypothesis LB : (Z.of_nat (length hi) < 2 ^ 27)%Z. Hypothesis Le : 0 < length es <= 8.
Lemma ms_len : length ms = z + length (n :: t). Proof. unfold ms. rewrite app_length, repeat_length. reflexivity. Qed.
Lemma bs_len : length bs = length ms. Proof. rewrite ms_len, Ln. unfold bs, z. rewrite app_length. lia. Qed.
Lemma view_ok : Z.odd (OS2IP (n :: t)) = true -> Z.odd (OS2IP es) = true -> (3 <= OS2IP es)%Z ->
  exists v, powm_view_w junk m base (length bs) exp (length es) mod_ (length ms) = Ok (I2OSP v (length hi) ++ lo, m) /\
    (0 <= v < 256 ^ Z.of_nat (length hi))%Z /\ (v mod OS2IP (n :: t) = OS2IP hi ^ effective (OS2IP es) mod OS2IP (n :: t))%Z /\
    ((OS2IP hi < OS2IP (n :: t))%Z \/ (256 ^ Z.of_nat (length hi) <= 2 * OS2IP (n :: t))%Z -> v = (OS2IP hi ^ effective (OS2IP es) mod OS2IP (n :: t))%Z).
Proof.
  intros On Oe E3. pose proof ms_len as Lm. pose proof bs_len as LL. assert (B0 : 0 < length bs) by (rewrite LL, Lm; cbn [length]; lia). destruct (placed m ms) as (m1 & E & X & Ro & Rz).
  destruct (powm_claim junk m1 base exp mod_ (length m, 0) hi lo es z n t) as (m' & v & E1 & O & R & V); try assumption; [exact (extends_reads _ _ _ _ X Rb)|exact (extends_reads _ _ _ _ X Re)|exact (extends_reads _ _ _ _ X Rm)|fold bs; rewrite LL; exact Ro|apply Le|].
  exists v. split; [|exact V]. rewrite (passes junk m base exp mod_ bs es ms Re Le B0 LL m1 E). rewrite <- Lm in E1. fold bs in E1. rewrite E1. cbn [bind snd].
  assert (LR : length (I2OSP v (length hi) ++ lo) = length ms) by (rewrite app_length, I2OSP_length, <- LL; unfold bs; rewrite app_length; reflexivity).
  assert (LD : load_n m' (length m, 0) 0 (length ms) = Ok (I2OSP v (length hi) ++ lo)). { rewrite <- LR. apply load_n_ok. rewrite at_0. exact R. }
  rewrite LD. cbn [bind]. rewrite leave_extends; [reflexivity|]. apply (ext_only _ _ _ _ _ X O). cbn [fst]. lia.
Qed.
Lemma view_refuses : (Z.even (OS2IP es) = true \/ OS2IP es < 3)%Z -> powm_view_w junk m base (length bs) exp (length es) mod_ (length ms) = Ok (repeat 0%Z (length ms), m).
Proof.
  intros H. pose proof ms_len as Lm. pose proof bs_len as LL. assert (B0 : 0 < length bs) by (rewrite LL, Lm; cbn [length]; lia). destruct (placed m ms) as (m1 & E & X & Ro & Rz).
  rewrite (passes junk m base exp mod_ bs es ms Re Le B0 LL m1 E). rewrite Lm at 1.
  unfold bs. rewrite (refuses_all junk m1 base exp mod_ (length m, 0) hi lo es z n t); try assumption; [|exact (extends_reads _ _ _ _ X Rb)|exact (extends_reads _ _ _ _ X Re)|exact (extends_reads _ _ _ _ X Rm)|apply Le].
  cbn [bind snd]. assert (LD : load_n m1 (length m, 0) 0 (length ms) = Ok (repeat 0%Z (length ms))). { rewrite <- (repeat_length 0%Z (length ms)) at 1. apply load_n_ok. rewrite at_0. exact Rz. }
  rewrite LD. cbn [bind]. rewrite leave_extends by exact X. reflexivity.
Qed.
End W.
Section X.
Variables (junk : nat -> nat -> Z) (m : memory) (base exp mod_ : loc) (bs es ms : list Z).
Hypothesis Rb : reads m base bs. Hypothesis Re : reads m exp es. Hypothesis Rm : reads m mod_ ms.
Let run := powm_view_w junk m base (length bs) exp (length es) mod_ (length ms).
Lemma view_lengths : bs = [] \/ es = [] \/ ms = [] \/ length bs <> length ms -> run = Abort.
Proof using Re.
  clear Rb Rm.  intros H. destruct (placed m ms) as (m1 & E & _). unfold run. rewrite (view_eq junk m base exp mod_ bs es ms Re m1 E). destruct (check _) as [[]| | |] eqn:C; try reflexivity; unfold check in C; destruct (if 8 <? length es then _ else _) in C; try discriminate.
  cbn [bind]. destruct (Nat.eqb_spec (length bs) 0); cbn [negb andb check bind]; [reflexivity|]. destruct (Nat.eqb_spec (length ms) 0); cbn [negb andb check bind]; [reflexivity|]. destruct (Nat.eqb_spec (length es) 0); cbn [negb andb check bind]; [reflexivity|].
  destruct (Nat.eqb_spec (length bs) (length ms)) as [L|]; cbn [check bind]; [|reflexivity]. exfalso. destruct H as [->|[->|[->|H]]]; cbn in *; congruence.
Qed.
Lemma view_big : all_bytes es -> (2 ^ 64 <= OS2IP es)%Z -> run = Abort.
Proof using Re.
  clear Rb Rm.  intros Fe H. destruct (placed m ms) as (m1 & E & _). unfold run. rewrite (view_eq junk m base exp mod_ bs es ms Re m1 E). rewrite (proj2 (Nat.ltb_lt 8 (length es))).
  - destruct (forallb _ _) eqn:F; [|reflexivity]. exfalso. rewrite <- (firstn_skipn (length es - 8) es) in H. rewrite OS2IP_app in H. assert (Z0 : OS2IP (firstn (length es - 8) es) = 0%Z).
    { revert F. generalize (firstn (length es - 8) es) as l. induction l as [|b l IH]; [reflexivity|]. cbn [forallb]. intros F. apply andb_prop in F as [F1 F2]. apply Z.eqb_eq in F1. rewrite OS2IP_cons, IH, F1 by exact F2. reflexivity. }
    rewrite Z0 in H. assert (Fs : all_bytes (skipn (length es - 8) es)) by (unfold all_bytes in *; rewrite <- (firstn_skipn (length es - 8) es) in Fe; apply Forall_app in Fe; apply Fe). pose proof (OS2IP_range _ Fs) as R. rewrite skipn_length in R.
    assert ((256 ^ Z.of_nat (length es - (length es - 8)) <= 2 ^ 64)%Z). { change 256%Z with (2 ^ 8)%Z. rewrite <- Z.pow_mul_r by lia. apply Z.pow_le_mono_r; lia. } lia.
  - destruct (Nat.ltb_spec 8 (length es)) as [L|L]; [exact L|]. exfalso. pose proof (OS2IP_range es Fe) as R. assert ((256 ^ Z.of_nat (length es) <= 2 ^ 64)%Z). { change 256%Z with (2 ^ 8)%Z. rewrite <- Z.pow_mul_r by lia. apply Z.pow_le_mono_r; lia. } lia.
Qed.
Lemma view_long : all_bytes es -> 8 < length es -> (OS2IP es < 2 ^ 64)%Z -> 0 < length bs -> length bs = length ms -> run = UB.
Proof using Re Rm.
  clear Rb.  intros Fe L8 H B0 LL. destruct (placed m ms) as (m1 & E & X & Ro & Rz). unfold run. rewrite (view_eq junk m base exp mod_ bs es ms Re m1 E). rewrite (proj2 (Nat.ltb_lt 8 (length es))) by exact L8.
  assert (F : forallb (fun b => (b =? 0)%Z) (firstn (length es - 8) es) = true).
  { rewrite <- (firstn_skipn (length es - 8) es) in H, Fe. rewrite OS2IP_app, skipn_length in H. replace (length es - (length es - 8)) with 8 in H by lia. apply Forall_app in Fe as [F1 F2]. pose proof (OS2IP_range _ F2) as R2.
    assert (H0 : OS2IP (firstn (length es - 8) es) = 0%Z). { pose proof (OS2IP_range _ F1) as R1. change (256 ^ Z.of_nat 8)%Z with (2 ^ 64)%Z in H. change (2 ^ 64)%Z with 18446744073709551616%Z in H. lia. }
    clear -H0 F1. revert F1 H0. generalize (firstn (length es - 8) es) as l. induction l as [|b l IH]; [reflexivity|]. intros F H. inversion_clear F as [|? ? Hb Fl]. rewrite OS2IP_cons in H. pose proof (OS2IP_range l Fl) as R. unfold is_byte in Hb. assert (P : (0 < 256 ^ Z.of_nat (length l))%Z) by (apply Z.pow_pos_nonneg; lia). assert (b = 0%Z) as -> by nia. cbn. apply IH; [exact Fl|lia]. }
  rewrite F. cbn [check bind]. rewrite !(proj2 (Nat.eqb_neq _ 0)) by lia. cbn [negb andb check bind]. rewrite (proj2 (Nat.eqb_eq _ _) LL). cbn [check bind].
  unfold powm_w, gen_key_w. pose proof (zeros_ok m1 mod_ ms 0) as Z0. rewrite at_0 in Z0. rewrite (Z0 (extends_reads _ _ _ _ X Rm)). cbn [bind]. rewrite Nat.add_0_l. set (zz := leading_zeros ms). pose proof (leading_zeros_le ms) as Lz. fold zz in Lz.
  destruct (alloca_ok m1 (junk 0) (length ms - zz)) as (m2 & -> & X2 & R2 & L2). pose proof (extends_reads _ _ _ _ X Rm) as Rm1.
  assert (Bm : fst mod_ < length m1) by (apply (reads_block m1 mod_ ms Rm1); lia).
  destruct (memcpy_ok m2 (length m1, 0) (at_ mod_ zz) (length ms - zz) (skipn zz ms)) as (m3 & -> & _). { rewrite skipn_length. reflexivity. } { apply (extends_reads _ _ _ _ X2). apply reads_skipn; [exact Rm1|exact Lz]. } { exact R2. } { left. cbn [fst RawModel.at_]. lia. }
  cbn [bind]. destruct (2 ^ 27 <=? Z.of_nat (length ms - zz))%Z; [reflexivity|]. cbv zeta. unfold place. rewrite (proj2 (Nat.ltb_lt 8 _)) by exact L8. reflexivity.
Qed.
End X.
Lemma view_ub junk m base exp mod_ (bs es : list Z) z n t : all_bytes (n :: t) -> reads m exp es -> reads m mod_ (repeat 0%Z z ++ n :: t) -> n <> 0%Z -> 0 < length es <= 8 -> length bs = length (repeat 0%Z z ++ n :: t) -> length (n :: t) mod 4 <> 0 ->
  powm_view_w junk m base (length bs) exp (length es) mod_ (length (repeat 0%Z z ++ n :: t)) = UB.
Proof.
  intros Fn Re Rm n0 Le LL H4. set (ms := repeat 0%Z z ++ n :: t) in *. assert (Lm : length ms = z + length (n :: t)) by (unfold ms; rewrite app_length, repeat_length; reflexivity). destruct (placed m ms) as (m1 & E & X & Ro & Rz).
  rewrite (passes junk m base exp mod_ bs es ms Re Le ltac:(rewrite LL, Lm; cbn [length]; lia) LL m1 E). rewrite Lm at 1. rewrite (ub_claim junk m1 base (length bs) exp mod_ (length m, 0) es z n t); try assumption; [reflexivity|exact (extends_reads _ _ _ _ X Re)|exact (extends_reads _ _ _ _ X Rm)|apply Le].
Qed.
Lemma view_base_ub junk m base exp mod_ bs es z n t : all_bytes (n :: t) -> reads m base bs -> reads m exp es -> reads m mod_ (repeat 0%Z z ++ n :: t) -> n <> 0%Z -> 0 < length es <= 8 -> length bs = length (repeat 0%Z z ++ n :: t) -> (Z.of_nat (length (n :: t)) < 2 ^ 27)%Z ->
  z mod 4 <> 0 -> powm_view_w junk m base (length bs) exp (length es) mod_ (length (repeat 0%Z z ++ n :: t)) = UB.
Proof.
  intros Fn Rb Re Rm n0 Le LL LB H4. destruct (Nat.eq_dec (length (n :: t) mod 4) 0) as [E4|N4]; [|apply view_ub; assumption].
  set (ms := repeat 0%Z z ++ n :: t) in *. assert (Lm : length ms = z + length (n :: t)) by (unfold ms; rewrite app_length, repeat_length; reflexivity). destruct (placed m ms) as (m1 & E & X & Ro & Rz).
  rewrite (passes junk m base exp mod_ bs es ms Re Le ltac:(rewrite LL, Lm; cbn [length]; lia) LL m1 E). rewrite Lm at 1. rewrite (ub_base junk m1 base (length bs) exp mod_ (length m, 0) bs es z n t); try assumption; [reflexivity|exact (extends_reads _ _ _ _ X Re)|exact (extends_reads _ _ _ _ X Rm)|exact (extends_reads _ _ _ _ X Rb)|apply Le|].
  rewrite LL, Lm. rewrite Nat.add_mod by lia. rewrite E4, Nat.add_0_r, Nat.mod_mod by lia. exact H4.
Qed.
Lemma zero_bytes l : all_bytes l -> forallb (fun b => (b =? 0)%Z) l = (OS2IP l =? 0)%Z.
Proof.
  induction l as [|b l IH]; [reflexivity|]. intros F. inversion_clear F as [|? ? Hb Fl]. cbn [forallb]. rewrite IH by exact Fl. rewrite OS2IP_cons. pose proof (OS2IP_range l Fl) as R. unfold is_byte in Hb.
  assert (P : (0 < 256 ^ Z.of_nat (length l))%Z) by (apply Z.pow_pos_nonneg; lia). destruct (Z.eqb_spec b 0) as [->|N]; [reflexivity|]. cbn [andb]. symmetry. apply Z.eqb_neq. nia.
Qed.
Lemma fits es : all_bytes es -> 8 < length es -> forallb (fun b => (b =? 0)%Z) (firstn (length es - 8) es) = (OS2IP es <? 2 ^ 64)%Z.
Proof.
  intros Fe L. rewrite <- (firstn_skipn (length es - 8) es) in Fe. apply Forall_app in Fe as [F1 F2]. rewrite zero_bytes by exact F1.
  assert (V : OS2IP es = OS2IP (firstn (length es - 8) es ++ skipn (length es - 8) es)) by (rewrite firstn_skipn; reflexivity). rewrite V, OS2IP_app, skipn_length. clear V. replace (length es - (length es - 8)) with 8 by lia.
  pose proof (OS2IP_range _ F1) as R1. pose proof (OS2IP_range _ F2) as R2. rewrite skipn_length in R2. replace (length es - (length es - 8)) with 8 in R2 by lia. change (256 ^ Z.of_nat 8)%Z with 18446744073709551616%Z in *. change (2 ^ 64)%Z with 18446744073709551616%Z.
  destruct (Z.eqb_spec (OS2IP (firstn (length es - 8) es)) 0) as [E|E]; symmetry; [apply Z.ltb_lt|apply Z.ltb_ge]; lia.
Qed.
(** The run over memory against the function of RsaModel.v with the primitive of PowmModel.v *)
Lemma view_agrees junk m base exp mod_ bs es ms : PowmClaims.modulus_fit ms -> all_bytes bs -> all_bytes es -> reads m base bs -> reads m exp es -> reads m mod_ ms -> (OS2IP bs < OS2IP ms \/ 256 ^ Z.of_nat (length ms) <= 2 * OS2IP ms)%Z ->
  powm_view_w junk m base (length bs) exp (length es) mod_ (length ms) = (let* r := RsaModel.powm mod_exp_sw bs es ms in Ok (r, m)).
Proof.
  intros Fit Fb Fe Rb Re Rm Bd. pose proof Fit as (Fm & Nz & Om & M4 & LB). destruct ms as [|n t]; [contradiction|]. set (ms := n :: t) in *. unfold RsaModel.powm.
  assert (Em : Nat.eqb (length ms) 0 = false) by reflexivity. rewrite Em.
  destruct (Nat.eq_dec (length bs) 0) as [B0|B0]; [|destruct (Nat.eq_dec (length es) 0) as [E0|E0]; [|destruct (Nat.eq_dec (length bs) (length ms)) as [LL|LL]]].
  1: { rewrite view_lengths; try assumption; [|left; destruct bs; [reflexivity|discriminate]]. rewrite B0. cbn [Nat.eqb negb andb]. destruct (check _) as [[]| | |] eqn:C; try reflexivity; unfold check in C; destruct (if 8 <? length es then _ else _) in C; discriminate. }
  1: { rewrite view_lengths; try assumption; [|right; left; destruct es; [reflexivity|discriminate]]. rewrite E0. cbn [Nat.eqb negb andb Nat.ltb Nat.leb check bind]. rewrite andb_false_r. reflexivity. }
  2: { rewrite view_lengths; try assumption; [|right; right; right; exact LL]. destruct (check _) as [[]| | |] eqn:C; try reflexivity; [|unfold check in C; destruct (if 8 <? length es then _ else _) in C; discriminate..].
    cbn [bind]. rewrite !(proj2 (Nat.eqb_neq _ 0)) by assumption. rewrite (proj2 (Nat.eqb_neq _ _) LL). reflexivity. }
  rewrite !(proj2 (Nat.eqb_neq _ 0)) by assumption. rewrite (proj2 (Nat.eqb_eq _ _) LL). cbn [negb andb].
  destruct (Nat.ltb_spec 8 (length es)) as [L8|L8].
  - rewrite fits by assumption. destruct (Z.ltb_spec (OS2IP es) (2 ^ 64)) as [S|S]; cbn [check bind].
    + rewrite view_long; try assumption; [|lia]. rewrite PowmClaims.powm_exponent_ub by assumption. reflexivity.
    + apply view_big; assumption.
  - cbn [check bind]. assert (n0 : n <> 0%Z) by (cbn in Nz; lia). assert (L4 : length bs mod 4 = 0) by (rewrite LL; exact M4). assert (LBb : (Z.of_nat (length bs) < 2 ^ 27)%Z) by (rewrite LL; exact LB). assert (Le : 0 < length es <= 8) by lia.
    assert (Pw : (256 ^ Z.of_nat (length ms) = 2 ^ (8 * Z.of_nat (length ms)))%Z) by (change 256%Z with (2 ^ 8)%Z; rewrite <- Z.pow_mul_r by lia; reflexivity).
    destruct (Z.odd (OS2IP es)) eqn:Oe; [destruct (Z_lt_ge_dec (OS2IP es) 3) as [S3|G3]|].
    2: { destruct (view_ok junk m base exp mod_ bs [] es n t) as (v & E & V1 & V2 & V3); try assumption; try (rewrite app_nil_r; assumption). { symmetry; exact LL. } { reflexivity. } { lia. }
      rewrite !app_nil_r in E. cbn [repeat app length] in E. fold ms in E. change (S (length t)) with (length ms) in E. rewrite E. rewrite (V3 ltac:(rewrite LL; exact Bd)). fold ms.
      destruct (PowmClaims.powm_total bs es ms) as (w & -> & W1 & W2 & W3); try assumption; [lia|]. rewrite W3 by (rewrite <- Pw; exact Bd). cbn [bind]. rewrite LL. reflexivity. }
    all: assert (H : (Z.even (OS2IP es) = true \/ OS2IP es < 3)%Z) by (first [right; lia|left; rewrite <- Z.negb_odd, Oe; reflexivity]).
    all: pose proof (view_refuses junk m base exp mod_ bs [] es n t) as E; rewrite !app_nil_r in E; cbn [repeat app length] in E; fold ms in E; change (S (length t)) with (length ms) in E; rewrite E; try assumption; try reflexivity; [|symmetry; exact LL].
    all: rewrite PowmClaims.powm_refuses; try assumption; [reflexivity|].
    + right. destruct (Z.eq_dec (OS2IP es) 2) as [X|X]; [rewrite X in Oe; discriminate|lia].
    + left. rewrite <- Z.negb_odd, Oe. reflexivity.
Qed.
