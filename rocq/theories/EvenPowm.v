(** The software exponentiation for an even modulus: n0inv is 0 and Montgomery multiplication keeps the upper half of
    the product. *)
From Coq Require Import List ZArith Bool Lia.
From Verif Require Import Outcome UtilsModel UtilsSpec UtilsProofs RsaModel RsaSpec RsaProofs BitLemmas WordsModel WordsSpec WordsProofs PowmModel PowmProofs PowmArith PowmReduce PowmConv PowmMont PowmSpec PowmMain EvenSpec.
Import ListNotations.
Open Scope Z_scope.

Section Step.
Variable nw : list Z.
Hypothesis Wn : all_words nw.
Let L := length nw.
Hypothesis L0 : (0 < L)%nat.
Lemma step_high res a b : all_words res -> length res = L -> w32 a -> all_words b -> length b = L ->
  exists r, mont_step nw 0 res a b = Ok r /\ all_words r /\ length r = L /\ eval r = (eval res + a * eval b) / B.
Proof.
  intros Hr Lr Ha Hb Lb. unfold L in *. clear L. destruct nw as [|n0 nt]; [cbn in L0; lia|]. destruct b as [|b0 bt]; [discriminate Lb|]. destruct res as [|r0 rt]; [discriminate Lr|].
  apply words_cons in Wn as [Hn0 Hnt]. pose proof Hb as Hb'. pose proof Hr as Hr'. apply words_cons in Hb as [Hb0 Hbt]. apply words_cons in Hr as [Hr0 Hrt].
  cbn [mont_step]. pose proof B_pos as BP. red in Ha. rewrite (Z.mod_small (a * b0 + r0) W64) by (rewrite W64_val; nia). set (va := a * b0 + r0). assert (Hva : 0 <= va < W64) by (unfold va; rewrite W64_val; nia).
  pose proof (Z.mod_pos_bound va B ltac:(lia)) as Ma. pose proof (Z.div_mod va B ltac:(lia)) as Da.
  rewrite Z.mul_0_r, Z.mod_0_l by lia. rewrite Z.mul_0_l, Z.add_0_l. rewrite (Z.mod_small (va mod B) W64) by (rewrite W64_val; nia). set (vb := va mod B) in *. assert (Hvb : 0 <= vb < W64) by (rewrite W64_val; nia).
  assert (V0 : vb / B = 0) by (apply Z.div_small; exact Ma).
  assert (EL : length nt = length bt) by (clear -Lb; cbn [length] in Lb; lia). assert (ELr : length rt = length bt) by (clear -Lr Lb; cbn [length] in *; lia).
  pose proof (mont_loop_spec bt rt nt a 0 va vb Hbt Hrt Hnt ELr EL Ha ltac:(red; lia) Hva Hvb) as ML. destruct (mont_loop bt rt nt a 0 va vb) as [[r a'] b'].
  destruct ML as (I1 & I2 & I3 & I4 & I5). rewrite V0, Z.mul_0_l, !Z.add_0_r in I5.
  rewrite !Z.shiftr_div_pow2 by lia. rewrite <- B32.
  assert (Ca : 0 <= a' / B < B) by (rewrite W64_val in I3; split; [apply Z.div_pos; lia|apply Z.div_lt_upper_bound; lia]).
  assert (Cb : 0 <= b' / B < B) by (rewrite W64_val in I4; split; [apply Z.div_pos; lia|apply Z.div_lt_upper_bound; lia]).
  set (t := a' / B + b' / B) in *. assert (Ht : 0 <= t < 2 * B) by (unfold t; clear -Ca Cb; lia). clearbody t. rewrite (Z.mod_small t W64) by (rewrite W64_val; clear -Ht; rewrite B_val in *; lia).
  set (k := length bt) in *.
  assert (ET : eval r + Bn k * t = (eval (r0 :: rt) + a * eval (b0 :: bt)) / B).
  { rewrite I5, !eval_cons. replace (r0 + B * eval rt + a * (b0 + B * eval bt)) with (va + (eval rt + a * eval bt) * B) by (unfold va; ring). rewrite Z.div_add by lia. ring. }
  pose proof (eval_range _ Hr') as RR. pose proof (eval_range _ Hb') as RB. cbn [length] in RR, RB. rewrite ELr in RR. fold k in RR, RB. rewrite Bn_S in RR, RB.
  pose proof (eval_range _ I1) as RI. rewrite I2 in RI. fold k in RI.
  assert (UB_ : (eval (r0 :: rt) + a * eval (b0 :: bt)) / B < B * Bn k).
  { apply Z.div_lt_upper_bound; [lia|]. assert (a * eval (b0 :: bt) <= (B - 1) * (B * Bn k - 1)) by (apply Z.mul_le_mono_nonneg; lia). lia. }
  rewrite <- ET in UB_. assert (P : 0 < Bn k) by lia. assert (Ht' : 0 <= t < B) by (split; [lia|]; clear -UB_ RI P; nia).
  rewrite (Z.mod_small t B) by exact Ht'. rewrite (Z.div_small t B) by exact Ht'. rewrite Z.eqb_refl. exists (r ++ [t]). split; [reflexivity|].
  split; [apply words_app; split; [exact I1|apply words_cons; split; [exact Ht'|apply words_nil]]|]. split; [rewrite app_length, I2; cbn [length]; lia|].
  rewrite <- ET, eval_snoc, I2. reflexivity.
Qed.
Lemma rows_high a : forall res b, all_words res -> length res = L -> all_words a -> all_words b -> length b = L ->
  exists r, mont_rows nw 0 res a b = Ok r /\ all_words r /\ length r = L /\ eval r = (eval res + eval a * eval b) / Bn (length a).
Proof.
  induction a as [|a1 a IH]; intros res b Hr Lr Ha Hb Lb; cbn [mont_rows length].
  - exists res. split; [reflexivity|]. split; [exact Hr|]. split; [exact Lr|]. rewrite Bn_0, eval_nil, Z.div_1_r. ring.
  - apply words_cons in Ha as [Ha1 Ha]. destruct (step_high res a1 b Hr Lr Ha1 Hb Lb) as (r & S1 & S2 & S3 & S4). rewrite S1. cbn [bind].
    destruct (IH r b S2 S3 Ha Hb Lb) as (r' & I1 & I2 & I3 & I4). exists r'. split; [exact I1|]. split; [exact I2|]. split; [exact I3|].
    rewrite I4, S4, Bn_S, eval_cons. pose proof B_pos. rewrite <- Z.div_add by lia. rewrite Z.div_div by (try lia; rewrite Bn_pow2; apply Z.pow_pos_nonneg; lia). f_equal. ring.
Qed.
End Step.
Section Loop.
Variable key : pub_key.
Hypothesis Wn : all_words (k_modulus key).
Hypothesis H0 : k_n0inv key = 0.
Hypothesis HL : length (k_modulus key) = k_len key.
Hypothesis L0 : (0 < k_len key)%nat.
Let n := eval (k_modulus key).
Let R := Bn (k_len key).
Lemma mul_high a b : all_words a -> all_words b -> length a = k_len key -> length b = k_len key ->
  exists r, montgomery_mul key a b = Ok r /\ all_words r /\ length r = k_len key /\ eval r = high R (eval a) (eval b).
Proof.
  intros Ha Hb La Lb. unfold montgomery_mul. rewrite H0.
  destruct (rows_high (k_modulus key) Wn ltac:(rewrite HL; exact L0) a (repeat 0 (k_len key)) b) as (r & M1 & M2 & M3 & M4); try assumption; try apply words_repeat0; try (rewrite repeat_length); try (rewrite HL; reflexivity || assumption); try (symmetry; exact HL); try (rewrite HL; exact Lb).
  exists r. split; [exact M1|]. split; [exact M2|]. split; [rewrite M3; exact HL|]. rewrite eval_repeat0, Z.add_0_l in M4. rewrite La in M4. exact M4.
Qed.
Lemma bits_high E j : forall acc a, (forall i, (1 <= i <= j)%nat -> is_public_exponent_bit_set (k_exponent key) (Z.of_nat i) = Z.testbit E (Z.of_nat i)) -> all_words acc -> all_words a -> length acc = k_len key -> length a = k_len key ->
  exists r, pow_bits j key acc a = Ok r /\ all_words r /\ length r = k_len key /\ eval r = high_bits R E j (eval acc) (eval a).
Proof.
  induction j as [|j IH]; intros acc a He Wc Wa Lc La; cbn [pow_bits high_bits].
  - exists acc. split; [reflexivity|]. split; [exact Wc|]. split; [exact Lc|reflexivity].
  - destruct (mul_high acc acc Wc Wc Lc Lc) as (tmp & T1 & T2 & T3 & T4). rewrite T1. cbn [bind]. rewrite (He (S j) ltac:(lia)). destruct (Z.testbit E (Z.of_nat (S j))).
    + destruct (mul_high tmp a T2 Wa T3 La) as (r & R1 & R2 & R3 & R4). rewrite R1. cbn [bind]. rewrite <- T4, <- R4. apply IH; try assumption. intros i Hi. apply He. lia.
    + cbn [bind]. rewrite <- T4. apply IH; try assumption. intros i Hi. apply He. lia.
Qed.
Lemma pow_mod_high inout : all_words (k_rr key) -> length (k_rr key) = k_len key -> eval (k_rr key) = R * R mod n ->
  all_bytes inout -> length inout = (4 * k_len key)%nat -> Z.odd (k_exponent key) = true -> 3 <= k_exponent key < 2 ^ 64 ->
  pow_mod key inout = Ok (Some (I2OSP (truncated_power R n (OS2IP inout) (effective (k_exponent key))) (length inout))).
Proof.
  intros Wr Lr Cr Hb Lb He Re. unfold pow_mod. destruct (be_words_spec (k_len key) inout Hb ltac:(lia)) as (val & V1 & V2 & V3 & V4). rewrite V1. cbn [bind].
  rewrite firstn_all2 in V4 by lia. assert (Ev : eval val = OS2IP inout) by (rewrite <- bytes_of_value, V4 by exact V2; reflexivity). rewrite <- Ev in *. set (x := eval val) in *. set (e := k_exponent key) in *.
  assert (R64 : 0 < e < 2 ^ 64) by lia.
  rewrite num_bits_spec by exact R64. assert (L1 : 1 <= Z.log2 e) by (apply Z.log2_le_pow2; change (2 ^ 1) with 2; lia).
  destruct (effective_bits e ltac:(lia) He ltac:(lia)) as (Fo & F3' & Fl & Fb). set (E := effective e) in *.
  rewrite (proj2 (Z.ltb_ge _ 2)) by lia. rewrite bit_set_spec by lia. rewrite Z.bit0_odd, He. cbn [andb negb Z.ltb Z.compare].
  destruct (mul_high val (k_rr key) V2 Wr V3 Lr) as (a0 & A1 & A2 & A3 & A4). rewrite A1. cbn [bind]. fold x in A4. rewrite Cr in A4.
  replace (Z.log2 e + 1 - 2) with (Z.log2 E - 1) by lia.
  destruct (bits_high E (Z.to_nat (Z.log2 E - 1)) a0 a0) as (acc & P1 & P2 & P3 & P4); try assumption.
  { intros i Hi. fold e. rewrite bit_set_spec by lia. symmetry. apply Fb. lia. }
  rewrite P1. cbn [bind]. destruct (mul_high acc acc P2 P2 P3 P3) as (tmp & T1 & T2 & T3 & T4). rewrite T1. cbn [bind].
  destruct (mul_high tmp val T2 V2 T3 V3) as (res & F1 & F2 & F3 & F4). rewrite F1. cbn [bind]. fold x in F4. rewrite T4, P4, A4 in F4.
  pose proof (eval_range res F2) as RF. rewrite F3 in RF. fold R in RF.
  rewrite greater_equal_modulus_spec by (try assumption; rewrite F3; symmetry; exact HL). fold n.
  rewrite (skipn_all2 inout) by lia. rewrite app_nil_r. unfold truncated_power. rewrite <- F4. do 2 f_equal.
  assert (Fin : forall ws, all_words ws -> length ws = k_len key -> flat_map be32_bytes (rev ws) = I2OSP (eval ws) (length inout)).
  { intros ws W1 W2. change (flat_map be32_bytes (rev ws)) with (bytes_of ws). rewrite bytes_of_I2OSP by exact W1. rewrite W2, <- Lb. reflexivity. }
  destruct (Z.leb_spec n (eval res)) as [G|Lt].
  - unfold subtract_modulus. destruct (sub_modulus_spec res (k_modulus key) 0 F2 Wn ltac:(rewrite F3; symmetry; exact HL) ltac:(lia)) as (S1 & S2 & c & S3).
    pose proof (eval_range _ S1) as RS. rewrite S2, F3 in RS. rewrite F3 in S3. fold R in RS, S3. fold n in S3. pose proof (eval_range _ Wn) as RN. fold n in RN.
    assert (Es : eval (sub_modulus res (k_modulus key) 0) = eval res - n) by (apply (congr_eq _ _ c R); [exact RS|lia|rewrite S3; ring]).
    rewrite Fin; [rewrite Es; reflexivity|exact S1|rewrite S2; exact F3].
  - apply Fin; assumption.
Qed.
End Loop.

(** the moduli of C11, but even *)
Definition even_modulus (m : list Z) : Prop := all_bytes m /\ no_leading_zero m /\ Z.even (OS2IP m) = true /\ (length m mod 4 = 0)%nat /\ Z.of_nat (length m) < 2 ^ 27.
Definition range_of (m : list Z) : Z := 256 ^ Z.of_nat (length m).
Lemma even_word ws N : all_words ws -> eval ws = N -> Z.even N = true -> br_i32_ninv32 (nth 0 ws 0) = 0.
Proof.
  intros W E H. apply ninv32_even; [apply nth_word; exact W|]. destruct ws as [|w t]; [reflexivity|]. cbn [nth]. rewrite <- E, eval_cons in H. rewrite <- Z.negb_odd in H. rewrite Z.odd_add, Z.odd_mul in H. change (Z.odd B) with false in H. cbn [andb] in H. rewrite xorb_false_r in H. destruct (Z.odd w); [discriminate|reflexivity].
Qed.
Lemma even_power base exp m : even_modulus m -> all_bytes exp -> (length exp <= 8)%nat -> Z.odd (OS2IP exp) = true -> 3 <= OS2IP exp -> all_bytes base -> length base = length m ->
  mod_exp_sw base exp m = Ok (Some (I2OSP (truncated_power (range_of m) (OS2IP m) (OS2IP base) (effective (OS2IP exp))) (length m))).
Proof.
  intros (Hm & Hz & He & H4 & HB) Fe Le Oe E3 Fb Lb. set (L := (length m / 4)%nat). assert (HL : length m = (4 * L)%nat) by (unfold L; pose proof (Nat.div_mod (length m) 4 ltac:(lia)); lia).
  assert (LP : (1 <= L)%nat) by (destruct m; [destruct Hz|cbn [length] in HL; lia]). destruct (key_prop_any m L Hm Hz HL HB exp Fe Le) as (prop & ws & K1 & K2 & K3 & K4 & K5 & K6 & K7 & K8 & K9 & rr & K10 & K11 & K12 & K13).
  unfold mod_exp_sw. rewrite K1. cbn [bind]. unfold rsa_mod_exp_sw. rewrite K3. rewrite (proj2 (Nat.eqb_neq _ 0)) by lia. cbv zeta.
  replace (32 * L / 32)%nat with L by (rewrite Nat.mul_comm; symmetry; apply Nat.div_mul; lia). rewrite K2, K5. cbn [bind]. rewrite K10. cbn [bind]. rewrite K4.
  replace (length base mod 4)%nat with 0%nat by (rewrite Lb, HL, Nat.mul_comm, Nat.mod_mul by lia; reflexivity). cbn [Nat.eqb negb].
  assert (E64 : OS2IP exp < 2 ^ 64). { pose proof (OS2IP_range exp Fe) as R. eapply Z.lt_le_trans; [apply R|]. change (2 ^ 64) with (256 ^ 8). apply Z.pow_le_mono_r; lia. }
  rewrite (pow_mod_high (mkkey L (p_n0inv prop) ws rr (OS2IP exp))); cbn [k_modulus k_n0inv k_len k_rr k_exponent]; try assumption; try lia.
  - unfold range_of. rewrite HL, pow256_Bn, K8, Lb, HL. reflexivity.
  - rewrite K9. apply (even_word ws (OS2IP m)); assumption.
  - rewrite K13, K8. reflexivity.
Qed.
(** refused exponents *)
Lemma even_refuses base exp m : even_modulus m -> all_bytes exp -> (length exp <= 8)%nat -> Z.even (OS2IP exp) = true \/ OS2IP exp < 3 -> all_bytes base -> length base = length m -> mod_exp_sw base exp m = Ok None.
Proof.
  intros (Hm & Hz & He & H4 & HB) Fe Le Hr Fb Lb. set (L := (length m / 4)%nat). assert (HL : length m = (4 * L)%nat) by (unfold L; pose proof (Nat.div_mod (length m) 4 ltac:(lia)); lia).
  assert (LP : (1 <= L)%nat) by (destruct m; [destruct Hz|cbn [length] in HL; lia]). destruct (key_prop_any m L Hm Hz HL HB exp Fe Le) as (prop & ws & K1 & K2 & K3 & K4 & K5 & K6 & K7 & K8 & K9 & rr & K10 & K11 & K12 & K13).
  unfold mod_exp_sw. rewrite K1. cbn [bind]. unfold rsa_mod_exp_sw. rewrite K3. rewrite (proj2 (Nat.eqb_neq _ 0)) by lia. cbv zeta.
  replace (32 * L / 32)%nat with L by (rewrite Nat.mul_comm; symmetry; apply Nat.div_mul; lia). rewrite K2, K5. cbn [bind]. rewrite K10. cbn [bind]. rewrite K4.
  replace (length base mod 4)%nat with 0%nat by (rewrite Lb, HL, Nat.mul_comm, Nat.mod_mul by lia; reflexivity). cbn [Nat.eqb negb].
  assert (E64 : OS2IP exp < 2 ^ 64). { pose proof (OS2IP_range exp Fe) as R. eapply Z.lt_le_trans; [apply R|]. change (2 ^ 64) with (256 ^ 8). apply Z.pow_le_mono_r; lia. }
  unfold pow_mod. cbn [k_exponent k_len]. destruct (be_words_spec L base Fb ltac:(lia)) as (val & V1 & _). rewrite V1. cbn [bind]. pose proof (OS2IP_range exp Fe) as RE.
  destruct (Z.eq_dec (OS2IP exp) 0) as [->|N0]; [reflexivity|]. rewrite num_bits_spec by lia. destruct (Z.ltb_spec (Z.log2 (OS2IP exp) + 1) 2) as [_|G]; [reflexivity|].
  assert (G2 : 2 <= OS2IP exp). { change 2 with (2 ^ 1). apply Z.log2_le_pow2; lia. }
  assert (Ev : Z.even (OS2IP exp) = true). { destruct Hr as [Ev|Lt]; [exact Ev|]. replace (OS2IP exp) with 2 by lia. reflexivity. }
  rewrite bit_set_spec by lia. rewrite Z.bit0_odd, <- Z.negb_even, Ev. reflexivity.
Qed.
