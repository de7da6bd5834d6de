(** The software exponentiation and RSA verification over memory for an even modulus. *)
From Coq Require Import List ZArith Bool Lia PeanoNat.
From Verif Require Import Outcome UtilsModel UtilsSpec UtilsProofs RsaModel RsaSpec RsaProofs BitLemmas WordsModel WordsSpec WordsProofs PowmModel PowmProofs PowmArith PowmReduce PowmConv PowmMont PowmSpec PowmMain
  RawModel RawSpec RawProofs RawAlloc PowmRawModel PowmRaw PowmRawSpec PowmRawMain PowmRawClaims WholeModel WholeProofs WholeMain WholeView EvenSpec EvenPowm MgfModel RsaClaims RsaMemModel RsaMemProofs RsaMemPss.
Import ListNotations.
Local Open Scope nat_scope.
Notation at_ := RawModel.at_.

Lemma pow_mod_memory_high junk m key inout N bs : 0 < r_len key -> holds m (r_modulus key) (r_len key) N -> r_n0inv key = 0%Z ->
  holds m (r_rr key) (r_len key) ((cap (r_len key) * cap (r_len key)) mod N) -> Z.odd (r_exponent key) = true -> (3 <= r_exponent key < 2 ^ 64)%Z ->
  bytes_at m inout bs -> length bs = 4 * r_len key ->
  exists m', pow_mod_r junk m key inout = Ok (true, m') /\ only m m' [(inout, r_len key)] /\ bytes_at m' inout (I2OSP (truncated_power (cap (r_len key)) N (OS2IP bs) (effective (r_exponent key))) (4 * r_len key)).
Proof.
  intros L0 (ns & Ln & Wn & Rn & En) Kc (rr & Lr & Wr & Rr & Er) Oe Re (ws & Ww & Rw & ->) Lb. rewrite le_bytes_length in Lb. assert (Lw : length ws = r_len key) by lia.
  rewrite cap_Bn in *. set (lkey := mkkey (r_len key) (r_n0inv key) ns rr (r_exponent key)).
  pose proof (pow_mod_high lkey Wn Kc Ln L0 (flat_map le_bytes ws)) as V1. cbn [k_modulus k_len k_rr k_exponent lkey] in V1. rewrite En in V1. specialize (V1 Wr Lr Er (le_bytes_bytes _) ltac:(rewrite le_bytes_length; lia) Oe Re). rewrite le_bytes_length in V1.
  destruct (pow_mod_r_ok junk m key inout ns rr ws L0 Ln Lr Lw Rn Rr Rw) as (m' & o & E & S & O & F).
  unfold lkey in V1. rewrite (pow_words_mod key ns rr ws Lw), S in V1. cbn [bind] in V1. destruct o as [r|]; [|discriminate]. injection V1 as V1. rewrite Lw in V1.
  exists m'. split; [exact E|]. split; [exact O|]. exists (map bswap (rev r)). split; [apply bswap_words|]. split; [apply F|symmetry; exact V1].
Qed.

Section ALL.
Variables (junk : nat -> nat -> Z) (m0 : memory) (base exp mod_ out : loc) (hi lo es ms : list Z).
Let bs := hi ++ lo.
Hypothesis Fb : all_bytes bs. Hypothesis Rb : reads m0 base bs. Hypothesis Fe : all_bytes es. Hypothesis Re : reads m0 exp es. Hypothesis Fm : all_bytes ms. Hypothesis Rm : reads m0 mod_ ms.
Hypothesis Le : length es <= 8. Hypothesis Lm : length ms = leading_zeros ms + length hi. Hypothesis L0 : 0 < length hi. Hypothesis L4 : length hi mod 4 = 0. Hypothesis J4 : length lo mod 4 = 0. Hypothesis LB : (Z.of_nat (length hi) < 2 ^ 27)%Z.
Hypothesis Ev : Z.even (OS2IP ms) = true.
Let q := length hi / 4. Let j := length lo / 4. Let k := q + j.
Lemma powm_high : Z.odd (OS2IP es) = true -> (3 <= OS2IP es)%Z -> room m0 out (length bs) ->
  exists m', powm_w junk m0 base (length bs) exp (length es) mod_ (length ms) out = Ok (true, m') /\ only m0 m' [(out, length bs)] /\
    reads m' out (I2OSP (truncated_power (256 ^ Z.of_nat (length hi)) (OS2IP ms) (OS2IP hi) (effective (OS2IP es))) (length hi) ++ lo).
Proof.
  intros Oe E3 Ro. assert (Q : length hi = 4 * q) by (unfold q; pose proof (Nat.div_mod (length hi) 4); lia). assert (J : length lo = 4 * j) by (unfold j; pose proof (Nat.div_mod (length lo) 4); lia). assert (K : length bs = 4 * k) by (unfold bs, k; rewrite app_length; lia). assert (q0 : 0 < q) by lia.
  destruct (prep junk m0 base exp mod_ out hi lo es ms) as (m1 & n0 & k1 & k2 & buf & E1 & X & H1 & H2 & MC & H3 & H4); try assumption. fold bs q in E1, H1, H2, H3, H4. rewrite E1. clear E1.
  destruct (hi_at junk hi lo es ms Le Lm L0 L4 J4 _ _ H3) as (Hi & ls & Ll & Rl & El). fold q j in Ll, Rl, El.
  assert (N0 : n0 = 0%Z). { rewrite MC. apply ninv32_even; [apply mod_w|]. pose proof (Z.div_mod (OS2IP ms) B ltac:(pose proof B_pos; lia)) as D. rewrite D in Ev. rewrite <- Z.negb_odd, Z.odd_add, Z.odd_mul in Ev. change (Z.odd B) with false in Ev. cbn [andb xorb] in Ev. destruct (Z.odd (OS2IP ms mod B)); [discriminate|reflexivity]. }
  assert (C : (256 ^ Z.of_nat (length hi))%Z = cap q). { unfold cap. rewrite Q. change 256%Z with (2 ^ 8)%Z. rewrite <- Z.pow_mul_r by lia. f_equal. lia. }
  assert (C2 : (2 ^ (64 * Z.of_nat q) = cap q * cap q)%Z) by (unfold cap; rewrite <- Z.pow_add_r by lia; f_equal; lia). rewrite C2 in H2.
  pose proof (e_range junk hi lo es ms Fe Le Lm L0 L4 J4) as RE.
  destruct (pow_mod_memory_high (fun i => junk (4 + i)) m1 (mkraw q n0 k1 k2 (OS2IP es)) buf (OS2IP ms) hi) as (m2 & E2' & O2 & B2); cbn [r_len r_modulus r_n0inv r_rr r_exponent] in *; try assumption; [lia|].
  rewrite E2'. clear E2'. cbn [bind]. destruct B2 as (ws & Ww & R2 & E2). set (v := truncated_power (cap q) (OS2IP ms) (OS2IP hi) (effective (OS2IP es))) in *. assert (Lw : length ws = q). { apply (f_equal (@length Z)) in E2. rewrite I2OSP_length, le_bytes_length in E2. lia. }
  assert (Rl2 : reads m2 (at_ buf q) ls). { apply (only_reads _ _ _ _ _ O2 Rl). intros r [<-|[]]. right. cbn [fst snd RawModel.at_]. lia. }
  assert (LD : load_n m2 buf 0 (q + j) = Ok (ws ++ ls)). { rewrite <- Lw, <- Ll, <- app_length. apply load_n_ok. rewrite at_0. apply reads_app. rewrite Lw. split; assumption. }
  fold j. rewrite LD. cbn [bind]. change word_le with le_bytes. rewrite flat_map_app, <- E2, <- El.
  assert (Lk : length (I2OSP v (4 * q) ++ lo) = length bs) by (unfold bs; rewrite !app_length, I2OSP_length; lia).
  assert (Bo : fst out < length m0). { specialize (Ro 0 ltac:(unfold bs; rewrite app_length; lia)). unfold rd in Ro. destruct (nth_error m0 (fst out)) eqn:En; [|elim Ro; reflexivity]. apply nth_error_Some. rewrite En. discriminate. }
  assert (X2 : extends m0 m2) by (apply (ext_only _ _ _ _ _ X O2); lia).
  destruct (store_n_ok (I2OSP v (4 * q) ++ lo) m2 out 0) as (m3 & -> & W3). { rewrite at_0, Lk. apply (extends_room _ _ _ _ X2 Ro). }
  cbn [bind fst snd]. rewrite at_0 in W3. pose proof (leave_writes m0 m2 out _ m3 X2 W3 Bo) as W. exists (leave m0 m3). split; [reflexivity|]. rewrite C. fold v. rewrite Q. split; [|exact (writes_reads _ _ _ _ W)].
  pose proof (writes_only _ _ _ _ W) as O. rewrite Lk in O. exact O.
Qed.
End ALL.
Lemma high_claim junk m base exp mod_ out hi lo es z n t : all_bytes (hi ++ lo) -> all_bytes es -> all_bytes (n :: t) -> reads m base (hi ++ lo) -> reads m exp es -> reads m mod_ (repeat 0%Z z ++ n :: t) -> room m out (length (hi ++ lo)) ->
  n <> 0%Z -> length (n :: t) = length hi -> length hi mod 4 = 0 -> length lo mod 4 = 0 -> (Z.of_nat (length hi) < 2 ^ 27)%Z -> length es <= 8 -> Z.even (OS2IP (n :: t)) = true -> Z.odd (OS2IP es) = true -> (3 <= OS2IP es)%Z ->
  exists m', powm_w junk m base (length (hi ++ lo)) exp (length es) mod_ (z + length (n :: t)) out = Ok (true, m') /\ only m m' [(out, length (hi ++ lo))] /\
    reads m' out (I2OSP (truncated_power (256 ^ Z.of_nat (length hi)) (OS2IP (n :: t)) (OS2IP hi) (effective (OS2IP es))) (length hi) ++ lo).
Proof.
  intros Fb Fe Fn Rb Re Rm Ro Hn Ln L4 J4 LB Le On Oe E3. set (ms := repeat 0%Z z ++ n :: t) in *.
  assert (V : OS2IP ms = OS2IP (n :: t)) by (unfold ms; rewrite OS2IP_app, OS2IP_zeros; ring). assert (Lm : length ms = z + length (n :: t)) by (unfold ms; rewrite app_length, repeat_length; reflexivity).
  rewrite <- V in *. rewrite <- Lm. apply powm_high; try assumption; [apply Forall_app; split; [apply repeat_bytes|exact Fn]|unfold ms at 2; rewrite zeros_of by exact Hn; lia|cbn in Ln; lia].
Qed.
Section W.
Variables (junk : nat -> nat -> Z) (m : memory) (base exp mod_ : loc) (hi lo es : list Z) (n : Z) (t : list Z).
Let bs := hi ++ lo. Let z := length lo. Let ms := repeat 0%Z z ++ n :: t.
Hypothesis Fb : all_bytes bs. Hypothesis Fe : all_bytes es. Hypothesis Fn : all_bytes (n :: t). Hypothesis Rb : reads m base bs. Hypothesis Re : reads m exp es. Hypothesis Rm : reads m mod_ ms.
Hypothesis n0 : n <> 0%Z. Hypothesis Ln : length (n :: t) = length hi. Hypothesis L4 : length hi mod 4 = 0. Hypothesis J4 : length lo mod 4 = 0. Hypothesis LB : (Z.of_nat (length hi) < 2 ^ 27)%Z. Hypothesis Le : 0 < length es <= 8.
Lemma view_high : Z.even (OS2IP (n :: t)) = true -> Z.odd (OS2IP es) = true -> (3 <= OS2IP es)%Z ->
  powm_view_w junk m base (length bs) exp (length es) mod_ (length ms) = Ok (I2OSP (truncated_power (256 ^ Z.of_nat (length hi)) (OS2IP (n :: t)) (OS2IP hi) (effective (OS2IP es))) (length hi) ++ lo, m).
Proof.
  intros On Oe E3. assert (Lm : length ms = z + length (n :: t)) by (unfold ms; rewrite app_length, repeat_length; reflexivity). assert (LL : length bs = length ms) by (rewrite Lm, Ln; unfold bs, z; rewrite app_length; lia). assert (B0 : 0 < length bs) by (rewrite LL, Lm; cbn [length]; lia). destruct (placed m ms) as (m1 & E & X & Ro & Rz).
  destruct (high_claim junk m1 base exp mod_ (length m, 0) hi lo es z n t) as (m' & E1 & O & R); try assumption; [exact (extends_reads _ _ _ _ X Rb)|exact (extends_reads _ _ _ _ X Re)|exact (extends_reads _ _ _ _ X Rm)|fold bs; rewrite LL; exact Ro|apply Le|].
  set (v := truncated_power (256 ^ Z.of_nat (length hi)) (OS2IP (n :: t)) (OS2IP hi) (effective (OS2IP es))) in *.
  rewrite (passes junk m base exp mod_ bs es ms Re Le B0 LL m1 E). rewrite <- Lm in E1. fold bs in E1. rewrite E1. cbn [bind snd].
  assert (LR : length (I2OSP v (length hi) ++ lo) = length ms) by (rewrite app_length, I2OSP_length, <- LL; unfold bs; rewrite app_length; reflexivity).
  assert (LD : load_n m' (length m, 0) 0 (length ms) = Ok (I2OSP v (length hi) ++ lo)). { rewrite <- LR. apply load_n_ok. rewrite at_0. exact R. }
  rewrite LD. cbn [bind]. rewrite leave_extends; [reflexivity|]. apply (ext_only _ _ _ _ _ X O). cbn [fst]. lia.
Qed.
End W.

(** ** The run over memory against the functions of RsaModel.v *)
Lemma view_even junk m base exp mod_ bs es ms : even_modulus ms -> all_bytes bs -> all_bytes es -> reads m base bs -> reads m exp es -> reads m mod_ ms ->
  powm_view_w junk m base (length bs) exp (length es) mod_ (length ms) = (let* r := RsaModel.powm mod_exp_sw bs es ms in Ok (r, m)).
Proof.
  intros Fit Fb Fe Rb Re Rm. pose proof Fit as (Fm & Nz & Om & M4 & LB). destruct ms as [|n t]; [contradiction|]. set (ms := n :: t) in *. unfold RsaModel.powm.
  assert (Em : Nat.eqb (length ms) 0 = false) by reflexivity. rewrite Em.
  destruct (Nat.eq_dec (length bs) 0) as [B0|B0]; [|destruct (Nat.eq_dec (length es) 0) as [E0|E0]; [|destruct (Nat.eq_dec (length bs) (length ms)) as [LL|LL]]].
  1: { rewrite view_lengths; try assumption; [|left; destruct bs; [reflexivity|discriminate]]. rewrite B0. cbn [Nat.eqb negb andb]. destruct (check _) as [[]| | |] eqn:C; try reflexivity; unfold check in C; destruct (if 8 <? length es then _ else _) in C; discriminate. }
  1: { rewrite view_lengths; try assumption; [|right; left; destruct es; [reflexivity|discriminate]]. rewrite E0. cbn [Nat.eqb negb andb Nat.ltb Nat.leb check bind]. rewrite andb_false_r. reflexivity. }
  2: { rewrite view_lengths; try assumption; [|right; right; right; exact LL]. destruct (check _) as [[]| | |] eqn:C; try reflexivity; [|unfold check in C; destruct (if 8 <? length es then _ else _) in C; discriminate..].
    cbn [bind]. rewrite !(proj2 (Nat.eqb_neq _ 0)) by assumption. rewrite (proj2 (Nat.eqb_neq _ _) LL). reflexivity. }
  rewrite !(proj2 (Nat.eqb_neq _ 0)) by assumption. rewrite (proj2 (Nat.eqb_eq _ _) LL). cbn [negb andb].
  destruct (Nat.ltb_spec 8 (length es)) as [L8|L8].
  - rewrite fits by assumption. destruct (Z.ltb_spec (OS2IP es) (2 ^ 64)) as [S|S]; cbn [check bind].
    + rewrite view_long; try assumption; [|lia]. rewrite PowmClaims.powm_exponent_ub by assumption. reflexivity.
    + apply view_big; assumption.
  - cbn [check bind]. assert (n0 : n <> 0%Z) by (cbn in Nz; lia). assert (L4 : length bs mod 4 = 0) by (rewrite LL; exact M4). assert (LBb : (Z.of_nat (length bs) < 2 ^ 27)%Z) by (rewrite LL; exact LB). assert (Le : 0 < length es <= 8) by lia.
    destruct (Z.odd (OS2IP es)) eqn:Oe; [destruct (Z_lt_ge_dec (OS2IP es) 3) as [S3|G3]|].
    2: { pose proof (view_high junk m base exp mod_ bs [] es n t) as E. rewrite !app_nil_r in E. cbn [repeat app length] in E. fold ms in E. change (S (length t)) with (length ms) in E. rewrite E; try assumption; try reflexivity; [|symmetry; exact LL|lia].
      rewrite (even_power bs es ms) by (try assumption; lia). cbn [bind]. unfold range_of. rewrite LL. reflexivity. }
    all: assert (H : (Z.even (OS2IP es) = true \/ OS2IP es < 3)%Z) by (first [right; lia|left; rewrite <- Z.negb_odd, Oe; reflexivity]).
    all: pose proof (view_refuses junk m base exp mod_ bs [] es n t) as E; rewrite !app_nil_r in E; cbn [repeat app length] in E; fold ms in E; change (S (length t)) with (length ms) in E; rewrite E; try assumption; try reflexivity; [|symmetry; exact LL].
    all: rewrite even_refuses by (try assumption; lia); reflexivity.
Qed.
Lemma rsavp1_even junk m sig exp mod_ bs es ms : even_modulus ms -> all_bytes bs -> all_bytes es -> reads m sig bs -> reads m exp es -> reads m mod_ ms ->
  rsavp1_w junk m sig (length bs) exp (length es) mod_ (length ms) = (let* r := rsavp1 mod_exp_sw ms es bs in Ok (r, m)).
Proof.
  intros Fit Fb Fe Rb Re Rm. unfold rsavp1_w, rsavp1. rewrite (valid_ok m sig mod_ bs ms) by assumption. cbn [bind]. destruct (is_s_valid bs ms) eqn:V; [|reflexivity]. apply view_even; assumption.
Qed.
Lemma pkcs1_even_agrees junk jt m sig exp mod_ bs es ms prefix digest : even_modulus ms -> all_bytes bs -> all_bytes es -> reads m sig bs -> reads m exp es -> reads m mod_ ms ->
  pkcs1_w junk jt m sig (length bs) exp (length es) mod_ (length ms) prefix digest = (let* b := rsassa_pkcs1_v1_5_verify mod_exp_sw ms es bs (prefix ++ digest) in Ok (b, m)).
Proof.
  intros Fit Fb Fe Rb Re Rm. unfold pkcs1_w, rsassa_pkcs1_v1_5_verify. destruct (negb _); [reflexivity|]. rewrite (rsavp1_even junk m sig exp mod_ bs es ms) by assumption.
  destruct (rsavp1 mod_exp_sw ms es bs) as [v| | |]; cbn [bind fst snd]; try reflexivity. destruct (place_ok m v) as (m1 & E & X & R & L). pose proof (blk_place m v) as B. rewrite E in B. rewrite E.
  destruct (pkcs1_check_ok jt m1 (length m, 0) v prefix digest B) as (m2 & -> & K); [cbn; lia|]. destruct (pkcs1_check v (prefix ++ digest)) as [b| | |]; cbn [bind fst snd]; try reflexivity.
  rewrite (kept_leave m m2); [reflexivity|]. apply (kept_trans m m1 m2); [apply kept_extends; exact X|exact K].
Qed.
Lemma even_bytes base e n v : even_modulus n -> all_bytes base -> all_bytes e -> length base = length n -> RsaModel.powm mod_exp_sw base e n = Ok v -> all_bytes v.
Proof.
  intros Fit Fb Fe LL. unfold RsaModel.powm. intros H. destruct (check _) as [[]| | |]; try discriminate. cbn [bind] in H. destruct (check _) as [[]| | |]; try discriminate. cbn [bind] in H. destruct (check _) as [[]| | |]; try discriminate. cbn [bind] in H.
  destruct (le_lt_dec (length e) 8) as [L8|L8]; [|destruct Fit as (_ & _ & _ & _ & LB); rewrite PowmClaims.powm_exponent_ub in H by assumption; discriminate].
  destruct (Z.odd (OS2IP e)) eqn:Oe; [destruct (Z_lt_ge_dec (OS2IP e) 3) as [S3|G3]|].
  2: { rewrite even_power in H by (try assumption; lia). cbn [bind] in H. injection H as <-. apply I2OSP_bytes. }
  all: rewrite even_refuses in H; try assumption; [cbn [bind] in H; injection H as <-; apply repeat_bytes|].
  - right. lia.
  - left. rewrite <- Z.negb_odd, Oe. reflexivity.
Qed.
Lemma pss_even_agrees hash hlen junk jb m sig exp mod_ bs es ms salt digest : hash_ok hash hlen -> length digest = hlen -> (0 <= match salt with Some s => s | None => Z.of_nat hlen end)%Z ->
  even_modulus ms -> all_bytes bs -> all_bytes es -> reads m sig bs -> reads m exp es -> reads m mod_ ms ->
  pss_w hash hlen junk jb m sig (length bs) exp (length es) mod_ (length ms) salt digest = (let* b := rsassa_pss_mgf1_verify mod_exp_sw hash hlen ms es salt digest bs in Ok (b, m)).
Proof.
  intros HK Ld Ps Fit Fb Fe Rb Re Rm. unfold pss_w, rsassa_pss_mgf1_verify. destruct (Nat.eqb_spec (length bs) (length ms)) as [LL|LL]; cbn [negb]; [|reflexivity]. rewrite (rsavp1_even junk m sig exp mod_ bs es ms) by assumption.
  destruct (rsavp1 mod_exp_sw ms es bs) as [v| | |] eqn:V; cbn [bind fst snd]; try reflexivity. assert (Fv : all_bytes v). { unfold rsavp1 in V. destruct (is_s_valid bs ms); [exact (even_bytes _ _ _ _ Fit Fb Fe LL V)|injection V as <-; constructor]. }
  destruct (place_ok m v) as (m1 & E & X & R & L). pose proof (blk_place m v) as B. rewrite E in B. rewrite E.
  destruct (pss_check_ok hash hlen HK jb m1 (length m, 0) v (length ms) salt digest B) as (m2 & -> & O); try assumption; [cbn; lia|]. destruct (pss_check hash hlen (length ms) salt digest v) as [b| | |]; cbn [bind fst snd]; try reflexivity.
  rewrite (kept_leave m m2); [reflexivity|]. destruct O as [O1 O2]. split; [lia|]. intros c k Hc. rewrite O2 by (cbn [fst]; lia). apply (extends_rd _ _ _ _ X). exact Hc.
Qed.
