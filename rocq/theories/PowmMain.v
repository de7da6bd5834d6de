(** The software modular exponentiation computes base^exponent mod modulus. *)
From Coq Require Import List ZArith Znumtheory Bool Lia.
From Verif Require Import Outcome UtilsModel UtilsSpec UtilsProofs RsaModel RsaSpec RsaProofs ShaModel ShaProofs BitLemmas WordsModel WordsSpec WordsProofs PowmModel PowmProofs PowmArith PowmReduce PowmConv PowmMont PowmSpec.
Import ListNotations.
Open Scope Z_scope.

(** ** Exponent bits *)
Lemma exponent_bits_spec fuel : forall e n, 0 < e < 2 ^ (Z.of_nat fuel) -> exponent_bits fuel e n = n + Z.log2 e.
Proof.
  induction fuel as [|fuel IH]; intros e n He; [change (2 ^ Z.of_nat 0) with 1 in He; lia|]. cbn [exponent_bits]. rewrite Z.shiftr_div_pow2 by lia. change (2 ^ 1) with 2.
  destruct (Z.eqb_spec (e / 2) 0) as [E|N].
  - assert (e < 2) by (pose proof (Z.div_mod e 2 ltac:(lia)); pose proof (Z.mod_pos_bound e 2 ltac:(lia)); lia). replace e with 1 by lia. cbn [Z.log2]. lia.
  - assert (0 <= e / 2) by (apply Z.div_pos; lia). rewrite IH.
    + change 2 with (2 ^ 1). rewrite <- Z.shiftr_div_pow2 by lia. rewrite Z.log2_shiftr by lia. assert (2 ^ 1 <= e).
      { pose proof (Z.div_mod e 2 ltac:(lia)). pose proof (Z.mod_pos_bound e 2 ltac:(lia)). change (2 ^ 1) with 2. lia. }
      assert (1 <= Z.log2 e) by (apply Z.log2_le_pow2; lia). lia.
    + split; [lia|]. apply Z.div_lt_upper_bound; [lia|]. rewrite <- (Z.pow_succ_r 2) by lia. replace (Z.succ (Z.of_nat fuel)) with (Z.of_nat (S fuel)) by lia. lia.
Qed.
Lemma num_bits_spec e : 0 < e < 2 ^ 64 -> num_public_exponent_bits e = Z.log2 e + 1.
Proof. intros He. unfold num_public_exponent_bits. rewrite (proj2 (Z.eqb_neq e 0)) by lia. rewrite exponent_bits_spec by exact He. lia. Qed.
Lemma bit_set_spec e pos : 0 <= e -> 0 <= pos -> is_public_exponent_bit_set e pos = Z.testbit e pos && (pos <? 32).
Proof.
  intros He Hp. unfold is_public_exponent_bit_set. assert (E : Z.land e (2 ^ pos) = if Z.testbit e pos then 2 ^ pos else 0).
  { apply Z.bits_inj'. intros i Hi. rewrite Z.land_spec, Z.pow2_bits_eqb by exact Hp. destruct (Z.eqb_spec pos i) as [->|N].
    - rewrite andb_true_r. destruct (Z.testbit e i) eqn:T; [rewrite Z.pow2_bits_true by exact Hi; reflexivity|rewrite Z.bits_0; reflexivity].
    - rewrite andb_false_r. destruct (Z.testbit e pos); [rewrite Z.pow2_bits_false by congruence; reflexivity|rewrite Z.bits_0; reflexivity]. }
  rewrite E. destruct (Z.testbit e pos); [|reflexivity]. cbn [andb]. destruct (Z.ltb_spec pos 32) as [L|G].
  - assert (0 < 2 ^ pos < 2 ^ 32) by (split; [apply Z.pow_pos_nonneg; lia|apply Z.pow_lt_mono_r; lia]). rewrite Z.mod_small by lia. rewrite (proj2 (Z.eqb_neq _ 0)) by lia. reflexivity.
  - replace pos with (pos - 32 + 32) by lia. rewrite Z.pow_add_r by lia. rewrite Z.mod_mul by lia. reflexivity.
Qed.

Lemma effective_bits e : 0 < e -> Z.odd e = true -> 3 <= e -> Z.odd (effective e) = true /\ 3 <= effective e /\ Z.log2 (effective e) = Z.log2 e /\
  forall i, 0 <= i < Z.log2 e -> Z.testbit (effective e) i = Z.testbit e i && (i <? 32).
Proof.
  intros E0 Eo E3. unfold effective. destruct (Z.ltb_spec e (2 ^ 33)) as [S|G].
  - split; [exact Eo|]. split; [exact E3|]. split; [reflexivity|]. intros i Hi. assert (Z.log2 e < 33) by (apply Z.log2_lt_pow2; lia). rewrite (proj2 (Z.ltb_lt _ 32)) by lia. rewrite andb_true_r. reflexivity.
  - assert (L : 33 <= Z.log2 e) by (apply Z.log2_le_pow2; lia). pose proof (Z.mod_pos_bound e (2 ^ 32) ltac:(reflexivity)) as M.
    assert (P : 2 ^ 33 <= 2 ^ Z.log2 e) by (apply Z.pow_le_mono_r; lia). change (2 ^ 33) with 8589934592 in *. change (2 ^ 32) with 4294967296 in *.
    split.
    + rewrite Z.odd_add. replace (Z.odd (2 ^ Z.log2 e)) with false by (rewrite Z.odd_pow by lia; reflexivity). cbn [xorb]. change 4294967296 with (2 ^ 32). rewrite <- Z.bit0_odd, Z.mod_pow2_bits_low, Z.bit0_odd by lia. rewrite Eo. reflexivity.
    + split; [lia|]. split.
      * apply (Z.log2_unique' _ _ (e mod 4294967296)); [lia| |reflexivity]. lia.
      * intros i Hi. destruct (Z.ltb_spec i 32) as [I|I].
        -- rewrite <- (Z.mod_pow2_bits_low (2 ^ Z.log2 e + e mod 4294967296) 32 i) by lia. rewrite Z.add_mod by lia.
           replace (2 ^ Z.log2 e mod 2 ^ 32) with 0. 2:{ symmetry. apply Z.mod_divide; [lia|]. exists (2 ^ (Z.log2 e - 32)). rewrite <- Z.pow_add_r by lia. f_equal. lia. }
           change 4294967296 with (2 ^ 32). rewrite Z.add_0_l, !Z.mod_mod by lia. rewrite Z.mod_pow2_bits_low by lia. rewrite andb_true_r. reflexivity.
        -- rewrite andb_false_r. apply Z.testbit_false; [lia|]. replace (Z.log2 e) with (i + 1 + (Z.log2 e - i - 1)) by lia. rewrite !Z.pow_add_r by lia.
           assert (4294967296 <= 2 ^ i) by (change 4294967296 with (2 ^ 32); apply Z.pow_le_mono_r; lia).
           replace (2 ^ i * 2 ^ 1 * 2 ^ (Z.log2 e - i - 1) + e mod 4294967296) with (e mod 4294967296 + (2 * 2 ^ (Z.log2 e - i - 1)) * 2 ^ i) by ring. rewrite Z.div_add by lia.
           rewrite (Z.div_small (e mod 4294967296)) by lia. rewrite Z.add_0_l, Z.mul_comm. apply Z.mod_mul. lia.
Qed.
(** ** The loop *)
Section Loop.
Variable key : pub_key.
Hypothesis Wn : all_words (k_modulus key).
Hypothesis Hinv : w32 (k_n0inv key) /\ (nth 0 (k_modulus key) 0 * k_n0inv key + 1) mod B = 0.
Hypothesis Hpos : 0 < eval (k_modulus key).
Hypothesis HL : length (k_modulus key) = k_len key.
Hypothesis Hodd : Z.odd (eval (k_modulus key)) = true.
Let n := eval (k_modulus key).
Let R := Bn (k_len key).
Lemma R_prime : rel_prime n R.
Proof.
  unfold R. rewrite Bn_pow2. apply rel_prime_sym. apply Zgcd_1_rel_prime. assert (H : forall k, Z.gcd (2 ^ Z.of_nat k) n = 1).
  { induction k as [|k IH]; [apply Z.gcd_1_l|]. replace (Z.of_nat (S k)) with (Z.succ (Z.of_nat k)) by lia. rewrite Z.pow_succ_r by lia.
    apply Zgcd_1_rel_prime. apply rel_prime_sym. apply rel_prime_mult; apply rel_prime_sym; apply Zgcd_1_rel_prime; [|exact IH].
    apply Z.odd_spec in Hodd. destruct Hodd as [h Hh]. fold n in Hh.
    rewrite Hh. replace (2 * h + 1) with (1 + h * 2) by ring. rewrite Z.gcd_add_mult_diag_r. reflexivity. }
  rewrite <- (Z2Nat.id (32 * Z.of_nat (k_len key))) by lia. apply H.
Qed.
Lemma montgomery_mul_spec a b : all_words a -> all_words b -> length a = k_len key -> length b = k_len key ->
  exists r, montgomery_mul key a b = Ok r /\ all_words r /\ length r = k_len key /\ cong n (R * eval r) (eval a * eval b) /\
    (eval b < n -> eval r < eval b + n).
Proof.
  intros Ha Hb La Lb. unfold montgomery_mul.
  destruct (mont_rows_spec (k_modulus key) (k_n0inv key) Wn Hinv Hpos a (repeat 0 (k_len key)) b) as (r & M1 & M2 & M3 & M4 & M5); try assumption; try apply words_repeat0; try (rewrite repeat_length); try (rewrite HL; reflexivity || assumption); try (symmetry; exact HL); try (rewrite HL; exact Lb).
  exists r. split; [exact M1|]. split; [exact M2|]. split; [rewrite M3; exact HL|]. rewrite eval_repeat0, Z.add_0_l in M4. rewrite La in M4. split; [exact M4|].
  intros Hbn. apply M5; [exact Hbn|]. rewrite eval_repeat0. pose proof (eval_range b Hb). fold n in Hpos |- *. lia.
Qed.
(** a word list standing for y in Montgomery form *)
Definition stands (ws : list Z) (y : Z) : Prop := all_words ws /\ length ws = k_len key /\ cong n (eval ws) (y * R).
Lemma stands_mul a b x y : stands a x -> stands b y -> exists r, montgomery_mul key a b = Ok r /\ stands r (x * y).
Proof.
  intros (A1 & A2 & A3) (B1 & B2 & B3). destruct (montgomery_mul_spec a b A1 B1 A2 B2) as (r & M1 & M2 & M3 & M4 & _). exists r. split; [exact M1|]. split; [exact M2|]. split; [exact M3|].
  apply (cong_cancel n R); [exact R_prime|]. apply cong_trans with (eval a * eval b); [exact M4|]. replace (R * (x * y * R)) with (x * R * (y * R)) by ring. apply cong_mul; assumption.
Qed.
Lemma pow_bits_spec x E j : forall acc a m, (forall i, (1 <= i <= j)%nat -> is_public_exponent_bit_set (k_exponent key) (Z.of_nat i) = Z.testbit E (Z.of_nat i)) -> stands a x -> stands acc (x ^ m) -> 0 <= m -> m = Z.shiftr E (Z.of_nat j + 1) ->
  exists r, pow_bits j key acc a = Ok r /\ stands r (x ^ Z.shiftr E 1).
Proof.
  induction j as [|j IH]; intros acc a m He Ha Hacc Hm Em; cbn [pow_bits].
  - exists acc. split; [reflexivity|]. rewrite Em in Hacc. exact Hacc.
  - destruct (stands_mul acc acc _ _ Hacc Hacc) as (tmp & T1 & T2). rewrite T1. cbn [bind]. rewrite <- Z.pow_add_r in T2 by exact Hm.
    assert (Em' : Z.shiftr E (Z.of_nat j + 1) = m + m + Z.b2z (Z.testbit E (Z.of_nat (S j)))).
    { rewrite Em. replace (Z.of_nat (S j) + 1) with (Z.of_nat (S j) + 1) by lia. rewrite <- (Z.shiftr_shiftr _ (Z.of_nat (S j)) 1) by lia. replace (Z.of_nat (S j)) with (Z.of_nat j + 1) by lia.
      set (v := Z.shiftr E (Z.of_nat j + 1)). rewrite Z.shiftr_div_pow2 by lia. change (2 ^ 1) with 2.
      replace (Z.testbit E (Z.of_nat j + 1)) with (Z.testbit v 0) by (unfold v; rewrite Z.shiftr_spec by lia; f_equal; lia). rewrite Z.bit0_mod. pose proof (Z.div_mod v 2 ltac:(lia)). lia. }
    rewrite (He (S j) ltac:(lia)).
    assert (Hm' : 0 <= m + m) by lia.
    destruct (Z.testbit E (Z.of_nat (S j))) eqn:Tb; cbn [Z.b2z] in Em'.
    + destruct (stands_mul tmp a _ _ T2 Ha) as (r & R1 & R2). rewrite R1. cbn [bind].
      apply (IH r a (m + m + 1)); [intros i Hi; apply He; lia|exact Ha| |lia|symmetry; exact Em']. rewrite Z.pow_add_r by lia. rewrite Z.pow_1_r. exact R2.
    + cbn [bind]. apply (IH tmp a (m + m)); [intros i Hi; apply He; lia|exact Ha|exact T2|exact Hm'|lia].
Qed.
Lemma pow_mod_total inout : all_words (k_rr key) -> length (k_rr key) = k_len key -> cong n (eval (k_rr key)) (R * R) ->
  all_bytes inout -> length inout = (4 * k_len key)%nat -> Z.odd (k_exponent key) = true -> 3 <= k_exponent key < 2 ^ 64 ->
  exists v, pow_mod key inout = Ok (Some (I2OSP v (length inout))) /\ 0 <= v < R /\ cong n v (OS2IP inout ^ effective (k_exponent key)) /\
    (OS2IP inout < n \/ R <= 2 * n -> v = OS2IP inout ^ effective (k_exponent key) mod n).
Proof.
  intros Wr Lr Cr Hb Lb He Re. unfold pow_mod. destruct (be_words_spec (k_len key) inout Hb ltac:(lia)) as (val & V1 & V2 & V3 & V4). rewrite V1. cbn [bind].
  rewrite firstn_all2 in V4 by lia. assert (Ev : eval val = OS2IP inout) by (rewrite <- bytes_of_value, V4 by exact V2; reflexivity). rewrite <- Ev in *. set (x := eval val) in *. set (e := k_exponent key) in *.
  assert (R64 : 0 < e < 2 ^ 64) by lia.
  rewrite num_bits_spec by exact R64. assert (L1 : 1 <= Z.log2 e) by (apply Z.log2_le_pow2; change (2 ^ 1) with 2; lia).
  destruct (effective_bits e ltac:(lia) He ltac:(lia)) as (Fo & F3' & Fl & Fb). set (E := effective e) in *.
  rewrite (proj2 (Z.ltb_ge _ 2)) by lia. rewrite bit_set_spec by lia. rewrite Z.bit0_odd, He. cbn [andb negb Z.ltb Z.compare].
  destruct (montgomery_mul_spec val (k_rr key) V2 Wr V3 Lr) as (a0 & A1 & A2 & A3 & A4 & _). rewrite A1. cbn [bind].
  assert (Sa : stands a0 x).
  { split; [exact A2|]. split; [exact A3|]. apply (cong_cancel n R); [exact R_prime|]. apply cong_trans with (x * eval (k_rr key)); [exact A4|]. replace (R * (x * R)) with (x * (R * R)) by ring. apply cong_mul; [apply cong_refl|exact Cr]. }
  replace (Z.log2 e + 1 - 2) with (Z.log2 e - 1) by lia.
  destruct (pow_bits_spec x E (Z.to_nat (Z.log2 e - 1)) a0 a0 1) as (acc & P1 & P2).
  { intros i Hi. fold e. rewrite bit_set_spec by lia. symmetry. apply Fb. lia. } { exact Sa. } { rewrite Z.pow_1_r. exact Sa. } { lia. }
  { rewrite Z2Nat.id by lia. replace (Z.log2 e - 1 + 1) with (Z.log2 E) by lia. pose proof (Z.log2_spec E ltac:(lia)) as LS. rewrite Z.shiftr_div_pow2 by lia. apply (Z.div_unique _ _ 1 (E - 2 ^ Z.log2 E)); [left; rewrite Z.pow_succ_r in LS by lia; lia|ring]. }
  rewrite P1. cbn [bind]. destruct (stands_mul acc acc _ _ P2 P2) as (tmp & T1 & T2 & T3 & T4). rewrite T1. cbn [bind].
  destruct (montgomery_mul_spec tmp val T2 V2 T3 V3) as (res & F1 & F2 & F3 & F4 & F5). rewrite F1. cbn [bind]. fold x in F4, F5.
  assert (Ee : E = Z.shiftr E 1 + Z.shiftr E 1 + 1).
  { rewrite Z.shiftr_div_pow2 by lia. change (2 ^ 1) with 2. pose proof (Z.div_mod E 2 ltac:(lia)) as D. rewrite Zmod_odd, Fo in D. lia. }
  assert (Sh : 0 <= Z.shiftr E 1) by (apply Z.shiftr_nonneg; lia).
  assert (Cres : cong n (eval res) (x ^ E)).
  { apply (cong_cancel n R); [exact R_prime|]. apply cong_trans with (eval tmp * x); [exact F4|]. rewrite Ee. rewrite !Z.pow_add_r, Z.pow_1_r by lia.
    replace (R * (x ^ Z.shiftr E 1 * x ^ Z.shiftr E 1 * x)) with (x ^ Z.shiftr E 1 * x ^ Z.shiftr E 1 * R * x) by ring. apply cong_mul; [exact T4|apply cong_refl]. }
  pose proof (eval_range res F2) as RF. rewrite F3 in RF. fold R in RF.
  assert (Hn : 0 < n) by exact Hpos.
  rewrite greater_equal_modulus_spec by (try assumption; rewrite F3; symmetry; exact HL). fold n.
  rewrite (skipn_all2 inout) by lia. rewrite app_nil_r.
  assert (Fin : forall ws, all_words ws -> length ws = k_len key -> cong n (eval ws) (x ^ E) -> (x < n \/ R <= 2 * n -> eval ws < n) ->
    flat_map be32_bytes (rev ws) = I2OSP (eval ws) (length inout) /\ 0 <= eval ws < R /\ (x < n \/ R <= 2 * n -> eval ws = x ^ E mod n)).
  { intros ws W1 W2 W3 W4. pose proof (eval_range ws W1) as RW. rewrite W2 in RW. split; [change (flat_map be32_bytes (rev ws)) with (bytes_of ws); rewrite bytes_of_I2OSP by exact W1; rewrite W2, <- Lb; reflexivity|].
    split; [exact RW|]. intros S. rewrite <- (cong_mod n (eval ws) (x ^ E) Hn W3). symmetry. apply Z.mod_small. specialize (W4 S). lia. }
  destruct (Z.leb_spec n (eval res)) as [G|Lt].
  - unfold subtract_modulus. destruct (sub_modulus_spec res (k_modulus key) 0 F2 Wn ltac:(rewrite F3; symmetry; exact HL) ltac:(lia)) as (S1 & S2 & c & S3).
    pose proof (eval_range _ S1) as RS. rewrite S2, F3 in RS. rewrite F3 in S3. fold R in RS, S3. fold n in S3.
    assert (Es : eval (sub_modulus res (k_modulus key) 0) = eval res - n) by (apply (congr_eq _ _ c R); [exact RS|lia|rewrite S3; ring]).
    assert (Cs : cong n (eval (sub_modulus res (k_modulus key) 0)) (x ^ E)) by (rewrite Es; apply cong_trans with (eval res); [exists (-1); ring|exact Cres]).
    destruct (Fin _ S1 ltac:(rewrite S2; exact F3) Cs) as (Q1 & Q2 & Q3). { rewrite Es. intros [S|S]; [specialize (F5 S); lia|lia]. }
    eexists. rewrite Q1. split; [reflexivity|]. split; [exact Q2|]. split; [exact Cs|exact Q3].
  - destruct (Fin res F2 F3 Cres (fun _ => Lt)) as (Q1 & Q2 & Q3). eexists. rewrite Q1. split; [reflexivity|]. split; [exact Q2|]. split; [exact Cres|exact Q3].
Qed.
End Loop.

(** ** Key preparation *)
Lemma firstn_repeat_ge (a : Z) n m : (n <= m)%nat -> firstn n (repeat a m) = repeat a n.
Proof. revert m. induction n as [|n IH]; intros [|m] H; try lia; [reflexivity|reflexivity|]. cbn [repeat firstn]. f_equal. apply IH. lia. Qed.
Lemma repeat_bytes n : all_bytes (repeat 0 n).
Proof. induction n as [|n IH]; [constructor|]. cbn [repeat]. constructor; [unfold is_byte; lia|exact IH]. Qed.
Lemma OS2IP_zeros n : OS2IP (repeat 0 n) = 0.
Proof. induction n as [|n IH]; [reflexivity|]. cbn [repeat]. rewrite OS2IP_cons, IH. ring. Qed.
Lemma be64_OS2IP l : be64 l = OS2IP l.
Proof. unfold be64, OS2IP. generalize 0 at 1 2. induction l as [|x l IH]; intros a; [reflexivity|]. cbn [fold_left]. rewrite IH. f_equal. ring. Qed.
Lemma pow256_Bn k : 256 ^ Z.of_nat (4 * k) = Bn k.
Proof. rewrite Bn_pow2. change 256 with (2 ^ 8). rewrite <- Z.pow_mul_r by lia. f_equal. lia. Qed.

Section Key.
Variables (mod_ : list Z) (L : nat).
Hypothesis Hm : all_bytes mod_.
Hypothesis Hz : no_leading_zero mod_.
Hypothesis HL : length mod_ = (4 * L)%nat.
Hypothesis HB : Z.of_nat (length mod_) < 2 ^ 27.
Let N := OS2IP mod_.
Lemma L_pos : (1 <= L)%nat.
Proof. destruct mod_; [destruct Hz|]. cbn in HL. lia. Qed.
Lemma N_bounds : 2 ^ (32 * Z.of_nat L - 8) <= N < 2 ^ (32 * Z.of_nat L).
Proof.
  pose proof L_pos as LP. split.
  - unfold N. destruct mod_ as [|b t]; [destruct Hz|]. cbn in Hz. pose proof (top_lower b t Hz (proj1 (OS2IP_range t (Forall_inv_tail Hm)))) as T. cbn [length] in HL.
    replace (2 ^ (32 * Z.of_nat L - 8)) with (256 ^ Z.of_nat (length t)); [exact T|]. change 256 with (2 ^ 8). rewrite <- Z.pow_mul_r by lia. f_equal. lia.
  - pose proof (OS2IP_range mod_ Hm) as R. rewrite HL, pow256_Bn, Bn_pow2 in R. apply R.
Qed.
Lemma N_bits : 32 * Z.of_nat L - 8 < bits N <= 32 * Z.of_nat L.
Proof.
  pose proof L_pos as LP. pose proof N_bounds as NB. assert (0 < 2 ^ (32 * Z.of_nat L - 8)) by (apply Z.pow_pos_nonneg; lia). assert (N0 : 0 < N) by lia. pose proof (bits_range N N0) as BR. split.
  - apply (Z.pow_lt_mono_r_iff 2); [lia|apply bits_nonneg|]. lia.
  - apply bits_upper; lia.
Qed.
Lemma key_prop_any exp : all_bytes exp -> (length exp <= 8)%nat ->
  exists prop ws, rsa_gen_key_prop mod_ exp = Ok prop /\ p_modulus prop = mod_ /\ p_num_bits prop = (32 * L)%nat /\
    be64 (p_exponent prop) = OS2IP exp /\ be_words L mod_ = Ok ws /\ all_words ws /\ length ws = L /\ eval ws = N /\
    p_n0inv prop = br_i32_ninv32 (nth 0 ws 0) /\
    exists rr, be_words L (p_rr prop) = Ok rr /\ all_words rr /\ length rr = L /\ eval rr = (Bn L * Bn L) mod N.
Proof.
  intros Hexp Lexp. pose proof L_pos as LP. pose proof N_bounds as NB. pose proof N_bits as NBt. change (2 ^ 27) with 134217728 in HB.
  assert (P0 : 0 < 2 ^ (32 * Z.of_nat L - 8)) by (apply Z.pow_pos_nonneg; lia). assert (N0 : 0 < N) by lia.
  unfold rsa_gen_key_prop. cbv zeta. assert (LZ : leading_zeros mod_ = 0%nat). { destruct mod_ as [|b t]; [destruct Hz|]. cbn in Hz. destruct b; [lia|reflexivity|lia]. }
  rewrite LZ. cbn [skipn]. unfold zlen. change (2 ^ 27) with 134217728. rewrite (proj2 (Z.leb_gt _ _)) by exact HB. rewrite (proj2 (Nat.ltb_ge 8 _)) by exact Lexp.
  replace (length mod_ * 8 / 32)%nat with L by (rewrite HL; replace (4 * L * 8)%nat with (L * 32)%nat by lia; rewrite Nat.div_mul by lia; reflexivity).
  replace (length mod_ * 8 * 2 / 32)%nat with (2 * L)%nat by (rewrite HL; replace (4 * L * 8 * 2)%nat with (2 * L * 32)%nat by lia; rewrite Nat.div_mul by lia; reflexivity).
  rewrite !repeat_length.
  (* decode the modulus *)
  unfold br_i32_decode at 1. destruct (decode_words_spec (length mod_) mod_ (length mod_) Hm (le_n _) (le_n _)) as (ws & D1 & D2 & D3 & D4). rewrite D1. cbn [bind].
  rewrite firstn_all in D4. fold N in D4. assert (Lws : length ws = L). { rewrite D3, HL. symmetry. apply (Nat.div_unique _ _ _ 3); lia. }
  rewrite Lws, repeat_length, Nat.leb_refl. cbn [bind snd]. rewrite (skipn_all2 (repeat 0 L)) by (rewrite repeat_length; lia). rewrite app_nil_r.
  rewrite at_ok by lia. cbn [bind].
  rewrite br_i32_bit_length_spec by (try exact D2; rewrite Lws, B_val; lia). rewrite D4.
  (* R^2 *)
  rewrite (proj2 (Nat.ltb_ge (2 * L) _)).
  2:{ rewrite HL. replace (4 * L * 8 * 2 + 31)%nat with (31 + 2 * L * 32)%nat by lia. rewrite Nat.div_add by lia. cbn. lia. }
  replace ((length mod_ * 8 * 2 + 7) / 8 + 1)%nat with (8 * L + 1)%nat by (rewrite HL; replace (4 * L * 8 * 2 + 7)%nat with (7 + 8 * L * 8)%nat by lia; rewrite Nat.div_add by lia; cbn; lia).
  unfold br_i32_decode at 1. set (buf := [1; 0; 0; 0] ++ repeat 0 (4 * (2 * L))).
  assert (Hbuf : all_bytes buf) by (unfold buf; apply Forall_app; split; [repeat constructor; unfold is_byte; lia|apply repeat_bytes]).
  assert (Lbuf : length buf = (4 + 8 * L)%nat) by (unfold buf; rewrite app_length, repeat_length; cbn [length]; lia).
  destruct (decode_words_spec (8 * L + 1) buf (8 * L + 1) Hbuf ltac:(lia) ltac:(lia)) as (ts & T1 & T2 & T3 & T4). rewrite T1. cbn [bind].
  assert (Lts : length ts = (1 + 2 * L)%nat). { rewrite T3. symmetry. apply (Nat.div_unique _ _ _ 0); lia. }
  assert (Ets : eval ts = Bn L * Bn L).
  { rewrite T4. assert (Eb : buf = 1 :: repeat 0 (3 + 8 * L)). { unfold buf. replace (4 * (2 * L))%nat with (8 * L)%nat by lia. rewrite repeat_app. reflexivity. }
    rewrite Eb. replace (8 * L + 1)%nat with (S (8 * L)) by lia. cbn [firstn]. rewrite firstn_repeat_ge by lia. rewrite OS2IP_cons, OS2IP_zeros, repeat_length. replace (8 * L)%nat with (4 * (L + L))%nat by lia. rewrite pow256_Bn, Bn_add. ring. }
  rewrite Lts, repeat_length, Nat.leb_refl. cbn [bind]. rewrite (skipn_all2 (repeat 0 (1 + 2 * L))) by (rewrite repeat_length; lia). rewrite app_nil_r.
  rewrite br_i32_bit_length_spec by (try exact T2; rewrite Lts, B_val; lia). rewrite Ets.
  assert (Eh : bits (Bn L * Bn L) = 64 * Z.of_nat L + 1).
  { apply bits_unique; [lia|]. rewrite !Bn_pow2, <- Z.pow_add_r by lia. replace (64 * Z.of_nat L + 1 - 1) with (32 * Z.of_nat L + 32 * Z.of_nat L) by lia. split; [lia|]. apply Z.pow_lt_mono_r; lia. }
  rewrite Eh.
  assert (MO : modulus_ok (bits N) ws).
  { split; [lia|]. split; [rewrite B_val; lia|]. split; [exact D2|]. split; [|rewrite D4; apply bits_range; exact N0]. rewrite Lws. unfold nwords.
    replace ((bits N + 31) / 32) with (Z.of_nat L); [rewrite Nat2Z.id; reflexivity|]. apply (Z.div_unique _ _ _ (bits N + 31 - 32 * Z.of_nat L)); lia. }
  destruct (br_i32_reduce_spec (bits N) ws (repeat 0 (2 * L)) (64 * Z.of_nat L + 1) ts MO T2 (words_repeat0 _)) as (r & R1 & R2 & R3 & R4).
  { rewrite repeat_length. lia. } { lia. } { rewrite B_val. lia. }
  { rewrite Lts. unfold nwords. replace ((64 * Z.of_nat L + 1 + 31) / 32) with (Z.of_nat (1 + 2 * L)); [rewrite Nat2Z.id; reflexivity|]. apply (Z.div_unique _ _ _ 0); lia. }
  rewrite R1. cbn [bind]. rewrite Ets, D4 in R4. rewrite Lws in R3.
  (* encode *)
  unfold br_i32_encode. cbn [fst snd]. cbv zeta.
  replace ((length mod_ * 8 + 7) / 8)%nat with (4 * L)%nat by (rewrite HL; replace (4 * L * 8 + 7)%nat with (7 + 4 * L * 8)%nat by lia; rewrite Nat.div_add by lia; cbn; lia).
  rewrite Z.mod_small by (rewrite B_val; lia). rewrite Z.shiftr_div_pow2 by lia. change (2 ^ 3) with 8.
  replace ((bits N + 7) / 8) with (Z.of_nat (4 * L)) by (apply (Z.div_unique _ _ _ (bits N + 7 - 8 * Z.of_nat (4 * L))); lia). rewrite Nat2Z.id, Nat.min_id, Nat.sub_diag.
  replace ((4 * L) mod 4)%nat with 0%nat by (symmetry; rewrite Nat.mul_comm; apply Nat.mod_mul; lia). replace ((4 * L + 3) / 4)%nat with L by (apply (Nat.div_unique _ _ _ 3); lia).
  rewrite encode_words_spec by (rewrite app_length; lia). cbn [bind repeat app].
  rewrite firstn_app, R3, Nat.sub_diag. cbn [firstn]. rewrite app_nil_r, firstn_all2 by lia.
  eexists. exists ws. split; [reflexivity|]. cbn [p_modulus p_num_bits p_exponent p_n0inv p_rr]. split; [reflexivity|]. split; [lia|]. split; [rewrite be64_OS2IP, OS2IP_app, OS2IP_zeros; ring|].
  (* the words of the modulus as loaded by rsa_mod_exp_sw *)
  destruct (be_words_spec L mod_ Hm ltac:(lia)) as (wm & M1 & M2 & M3 & M4). rewrite firstn_all2 in M4 by lia.
  assert (Ewm : eval wm = N) by (rewrite <- bytes_of_value, M4 by exact M2; reflexivity).
  assert (Ews : wm = ws) by (apply eval_inj; [exact M2|exact D2|congruence|congruence]). subst wm.
  split; [exact M1|]. split; [exact D2|]. split; [exact Lws|]. split; [exact D4|]. split.
  - reflexivity.
  - destruct (be_words_spec L (bytes_of r) (bytes_of_bytes r) ltac:(rewrite bytes_of_length; lia)) as (rw & Q1 & Q2 & Q3 & Q4). rewrite firstn_all2 in Q4 by (rewrite bytes_of_length; lia).
    exists rw. split; [exact Q1|]. split; [exact Q2|]. split; [exact Q3|]. rewrite <- R4, <- (bytes_of_value rw Q2), Q4. apply bytes_of_value. exact R2.
Qed.
Lemma key_prop_spec exp : all_bytes exp -> (length exp <= 8)%nat -> Z.odd N = true ->
  exists prop ws, rsa_gen_key_prop mod_ exp = Ok prop /\ p_modulus prop = mod_ /\ p_num_bits prop = (32 * L)%nat /\
    be64 (p_exponent prop) = OS2IP exp /\ be_words L mod_ = Ok ws /\ all_words ws /\ length ws = L /\ eval ws = N /\
    (w32 (p_n0inv prop) /\ (nth 0 ws 0 * p_n0inv prop + 1) mod B = 0) /\
    exists rr, be_words L (p_rr prop) = Ok rr /\ all_words rr /\ length rr = L /\ eval rr = (Bn L * Bn L) mod N.
Proof.
  intros Hexp Lexp Hodd. pose proof L_pos as LP. destruct (key_prop_any exp Hexp Lexp) as (prop & ws & K1 & K2 & K3 & K4 & K5 & D2 & Lws & D4 & K9 & K10). exists prop, ws. do 8 (split; [assumption|]). split; [|exact K10].
  rewrite K9. apply ninv32_spec; [apply nth_word; exact D2|]. destruct ws as [|w0 wt]; [cbn in Lws; lia|]. cbn [nth]. rewrite <- D4, eval_cons in Hodd. rewrite Z.odd_add, Z.odd_mul in Hodd. change (Z.odd B) with false in Hodd. cbn [andb] in Hodd. rewrite xorb_false_r in Hodd. exact Hodd.
Qed.
Lemma mod_exp_sw_total base exp : all_bytes exp -> (length exp <= 8)%nat -> Z.odd (OS2IP exp) = true -> 3 <= OS2IP exp < 2 ^ 64 ->
  Z.odd N = true -> all_bytes base -> length base = length mod_ ->
  exists v, mod_exp_sw base exp mod_ = Ok (Some (I2OSP v (length mod_))) /\ 0 <= v < 2 ^ (8 * Z.of_nat (length mod_)) /\ cong N v (OS2IP base ^ effective (OS2IP exp)) /\
    (OS2IP base < N \/ 2 ^ (8 * Z.of_nat (length mod_)) <= 2 * N -> v = OS2IP base ^ effective (OS2IP exp) mod N).
Proof.
  intros Hexp Lexp Oexp Rexp HoddN Hbase Lbase. pose proof L_pos as LP. destruct (key_prop_spec exp Hexp Lexp HoddN) as (prop & ws & K1 & K2 & K3 & K4 & K5 & K6 & K7 & K8 & K9 & rr & K10 & K11 & K12 & K13).
  unfold mod_exp_sw. rewrite K1. cbn [bind]. unfold rsa_mod_exp_sw. rewrite K3. rewrite (proj2 (Nat.eqb_neq _ 0)) by lia. cbv zeta.
  replace (32 * L / 32)%nat with L by (rewrite Nat.mul_comm; symmetry; apply Nat.div_mul; lia). rewrite K2, K5. cbn [bind]. rewrite K10. cbn [bind]. rewrite K4.
  replace (length base mod 4)%nat with 0%nat by (rewrite Lbase, HL, Nat.mul_comm, Nat.mod_mul by lia; reflexivity). cbn [Nat.eqb negb].
  assert (N0 : 0 < N) by (pose proof N_bounds; assert (0 < 2 ^ (32 * Z.of_nat L - 8)) by (apply Z.pow_pos_nonneg; lia); lia).
  destruct (pow_mod_total (mkkey L (p_n0inv prop) ws rr (OS2IP exp)) K6 K9 ltac:(cbn [k_modulus]; rewrite K8; exact N0) K7 ltac:(cbn [k_modulus]; rewrite K8; exact HoddN) base) as (v & V1 & V2 & V3 & V4); cbn [k_modulus k_n0inv k_len k_rr k_exponent] in *; try assumption.
  { rewrite K8, K13. apply mod_cong. exact N0. } { lia. }
  rewrite K8 in V3, V4. replace (2 ^ (8 * Z.of_nat (length mod_))) with (Bn L) by (rewrite Bn_pow2; f_equal; lia). rewrite Lbase in V1.
  exists v. split; [exact V1|]. split; [exact V2|]. split; [exact V3|exact V4].
Qed.
Lemma mod_exp_sw_spec base exp : all_bytes exp -> (length exp <= 8)%nat -> Z.odd (OS2IP exp) = true -> 3 <= OS2IP exp < 2 ^ 33 ->
  Z.odd N = true -> all_bytes base -> length base = length mod_ -> (OS2IP base < N \/ 2 ^ (8 * Z.of_nat (length mod_)) <= 2 * N) ->
  mod_exp_sw base exp mod_ = Ok (Some (I2OSP (OS2IP base ^ OS2IP exp mod N) (length mod_))).
Proof.
  intros Hexp Lexp Oexp Rexp HoddN Hbase Lbase Hs. assert (R64 : 3 <= OS2IP exp < 2 ^ 64) by (change (2 ^ 33) with 8589934592 in Rexp; change (2 ^ 64) with 18446744073709551616; lia).
  destruct (mod_exp_sw_total base exp Hexp Lexp Oexp R64 HoddN Hbase Lbase) as (v & V1 & _ & _ & V4). rewrite V1, (V4 Hs). unfold effective. rewrite (proj2 (Z.ltb_lt _ _)) by apply Rexp. reflexivity.
Qed.
End Key.
