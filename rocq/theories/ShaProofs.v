(** Proofs for C05. *)
From Coq Require Import List ZArith Bool Lia.
From Verif Require Import Outcome UtilsModel UtilsSpec UtilsProofs RsaModel RsaSpec RsaProofs ShaModel ShaSpec.
Import ListNotations.
Open Scope Z_scope.

Definition is_w (x : Z) : Prop := 0 <= x < 2 ^ 64.

(** ** bits *)
Lemma bits_small a n i : 0 <= a < 2 ^ n -> 0 <= n <= i -> Z.testbit a i = false.
Proof.
  intros Ha Hi. apply Z.testbit_false; [lia|]. rewrite Z.div_small; [reflexivity|]. pose proof (Z.pow_le_mono_r 2 n i ltac:(lia) ltac:(lia)). lia.
Qed.
Lemma top_bit a n i : 0 <= a < 2 ^ n -> 0 <= n -> 0 <= i -> Z.testbit (a + 2 ^ n) i = if i =? n then true else Z.testbit a i.
Proof.
  intros Ha Hn Hi. destruct (Z.eqb_spec i n) as [->|N].
  - apply Z.testbit_true; [lia|]. replace (a + 2 ^ n) with (a + 1 * 2 ^ n) by lia. rewrite Z.div_add by lia. rewrite Z.div_small by lia. reflexivity.
  - destruct (Z.lt_ge_cases i n).
    + rewrite <- (Z.mod_pow2_bits_low (a + 2 ^ n) n i) by lia. replace (a + 2 ^ n) with (a + 1 * 2 ^ n) by lia. rewrite Z.mod_add by lia. rewrite Z.mod_small by lia. reflexivity.
    + rewrite (bits_small a n i) by lia. apply (bits_small _ (n + 1)); [rewrite Z.pow_add_r by lia; lia|lia].
Qed.
Lemma of_bits_range n f : 0 <= of_bits n f < 2 ^ Z.of_nat n.
Proof.
  induction n as [|n IH]; [cbn; lia|]. cbn [of_bits]. rewrite Nat2Z.inj_succ, Z.pow_succ_r by lia. destruct (f (Z.of_nat n)); lia.
Qed.
Lemma of_bits_testbit n f i : 0 <= i -> Z.testbit (of_bits n f) i = (i <? Z.of_nat n) && f i.
Proof.
  intros Hi. induction n as [|n IH]; [cbn [of_bits]; rewrite Z.bits_0; destruct (Z.ltb_spec i (Z.of_nat 0)); [lia|reflexivity]|].
  cbn [of_bits]. pose proof (of_bits_range n f) as R. rewrite Nat2Z.inj_succ.
  destruct (f (Z.of_nat n)) eqn:Fn.
  - rewrite top_bit by (try exact R; lia). destruct (Z.eqb_spec i (Z.of_nat n)) as [->|N].
    + rewrite Fn. rewrite (proj2 (Z.ltb_lt _ _)) by lia. reflexivity.
    + rewrite IH. destruct (Z.ltb_spec i (Z.of_nat n)); destruct (Z.ltb_spec i (Z.succ (Z.of_nat n))); try lia; reflexivity.
  - rewrite Z.add_0_r, IH. destruct (Z.ltb_spec i (Z.of_nat n)); destruct (Z.ltb_spec i (Z.succ (Z.of_nat n))); try lia; try reflexivity.
    replace i with (Z.of_nat n) by lia. rewrite Fn. reflexivity.
Qed.
Lemma word_w f : is_w (word f).
Proof. apply of_bits_range. Qed.
Lemma word_ext a f : is_w a -> (forall i, 0 <= i < 64 -> Z.testbit a i = f i) -> a = word f.
Proof.
  intros Ha H. apply Z.bits_inj'. intros i Hi. unfold word. rewrite of_bits_testbit by exact Hi. change (Z.of_nat 64) with 64.
  destruct (Z.ltb_spec i 64) as [L|L]; cbn [andb]; [apply H; lia|]. apply (bits_small _ 64); [exact Ha|lia].
Qed.
Lemma word_bit f i : 0 <= i < 64 -> Z.testbit (word f) i = f i.
Proof. intros Hi. unfold word. rewrite of_bits_testbit by lia. rewrite (proj2 (Z.ltb_lt _ _)) by lia. reflexivity. Qed.

Lemma is_w_lxor a b : is_w a -> is_w b -> is_w (Z.lxor a b).
Proof.
  intros Ha Hb. assert (P : 0 <= Z.lxor a b) by (apply Z.lxor_nonneg; unfold is_w in *; lia). split; [exact P|].
  destruct (Z.eq_dec (Z.lxor a b) 0) as [->|N]; [lia|]. apply Z.log2_lt_pow2; [lia|]. pose proof (Z.log2_lxor a b ltac:(apply Ha) ltac:(apply Hb)).
  assert (forall x, is_w x -> Z.log2 x < 64). { intros x Hx. destruct (Z.eq_dec x 0) as [->|]; [reflexivity|]. apply Z.log2_lt_pow2; unfold is_w in *; lia. }
  pose proof (H0 a Ha). pose proof (H0 b Hb). lia.
Qed.
Lemma is_w_lor a b : is_w a -> is_w b -> is_w (Z.lor a b).
Proof.
  intros Ha Hb. assert (P : 0 <= Z.lor a b) by (apply Z.lor_nonneg; unfold is_w in *; lia). split; [exact P|].
  destruct (Z.eq_dec (Z.lor a b) 0) as [->|N]; [lia|]. apply Z.log2_lt_pow2; [lia|]. rewrite Z.log2_lor by (unfold is_w in *; lia).
  assert (forall x, is_w x -> Z.log2 x < 64). { intros x Hx. destruct (Z.eq_dec x 0) as [->|]; [reflexivity|]. apply Z.log2_lt_pow2; unfold is_w in *; lia. }
  pose proof (H a Ha). pose proof (H b Hb). lia.
Qed.
Lemma is_w_land a b : is_w a -> is_w b -> is_w (Z.land a b).
Proof.
  intros Ha Hb. assert (P : 0 <= Z.land a b) by (apply Z.land_nonneg; unfold is_w in *; lia). split; [exact P|].
  destruct (Z.eq_dec (Z.land a b) 0) as [->|N]; [lia|]. apply Z.log2_lt_pow2; [lia|]. pose proof (Z.log2_land a b ltac:(apply Ha) ltac:(apply Hb)).
  assert (Z.log2 a < 64). { destruct (Z.eq_dec a 0) as [->|]; [reflexivity|]. apply Z.log2_lt_pow2; unfold is_w in *; lia. } lia.
Qed.
Lemma is_w_shiftr a n : is_w a -> 0 <= n -> is_w (Z.shiftr a n).
Proof.
  intros Ha Hn. rewrite Z.shiftr_div_pow2 by lia. unfold is_w in *. pose proof (Z.pow_pos_nonneg 2 n ltac:(lia) ltac:(lia)). split; [apply Z.div_pos; lia|].
  apply Z.div_lt_upper_bound; [lia|]. nia.
Qed.
Lemma is_w_add64 a b : is_w (add64 a b).
Proof. apply Z.mod_pos_bound. lia. Qed.
Lemma is_w_shl64 a n : is_w (shl64 a n).
Proof. apply Z.mod_pos_bound. lia. Qed.
Lemma is_w_not64 a : is_w a -> is_w (not64 a).
Proof. unfold is_w, not64. lia. Qed.

(** ** functions of 4.1.3 *)
Lemma ROTR_rotr x n : is_w x -> 0 < n < 64 -> ROTR x n = rotr n x.
Proof.
  intros Hx Hn. apply word_ext; [apply is_w_lor; [apply is_w_shiftr; [exact Hx|lia]|apply is_w_shl64]|]. intros i Hi.
  unfold ROTR. rewrite Z.lor_spec, Z.shiftr_spec by lia.
  assert (E : Z.land ((- n) mod 2 ^ 64) 63 = 64 - n).
  { change 63 with (Z.ones 6). rewrite Z.land_ones by lia. rewrite (Z.mod_opp_l_nz n (2 ^ 64)) by (rewrite ?Z.mod_small; lia). rewrite (Z.mod_small n) by lia.
    replace (2 ^ 64 - n) with (64 - n + (2 ^ 58 - 1) * 2 ^ 6) by lia. rewrite Z.mod_add by lia. apply Z.mod_small. lia. }
  rewrite E. unfold shl64. rewrite Z.mod_pow2_bits_low by lia. rewrite Z.shiftl_spec by lia.
  destruct (Z.lt_ge_cases (i + n) 64).
  - rewrite (Z.mod_small (i + n)) by lia. rewrite (Z.testbit_neg_r x (i - (64 - n))) by lia. apply orb_false_r.
  - replace ((i + n) mod 64) with (i - (64 - n)) by (replace (i + n) with (i - (64 - n) + 1 * 64) by lia; rewrite Z.mod_add by lia; rewrite Z.mod_small; lia).
    rewrite (bits_small x 64) by (try exact Hx; lia). reflexivity.
Qed.
Lemma shiftr_shr x n : is_w x -> 0 <= n -> Z.shiftr x n = shr n x.
Proof.
  intros Hx Hn. apply word_ext; [apply is_w_shiftr; assumption|]. intros i Hi. rewrite Z.shiftr_spec by lia.
  destruct (Z.ltb_spec (i + n) 64); [reflexivity|]. apply (bits_small x 64); [exact Hx|lia].
Qed.
Lemma lxor_xor3 x y z : is_w x -> is_w y -> is_w z -> Z.lxor (Z.lxor x y) z = xor3 x y z.
Proof.
  intros. apply word_ext; [apply is_w_lxor; [apply is_w_lxor|]; assumption|]. intros i Hi. rewrite !Z.lxor_spec. apply xorb_assoc.
Qed.
Lemma Ch_ch x y z : is_w x -> is_w y -> is_w z -> Ch x y z = ch x y z.
Proof.
  intros Hx Hy Hz. apply word_ext; [apply is_w_lxor; apply is_w_land; try assumption; apply is_w_not64; assumption|]. intros i Hi.
  unfold Ch. rewrite Z.lxor_spec, !Z.land_spec.
  replace (not64 x) with (Z.lnot x mod 2 ^ 64).
  2:{ unfold not64, Z.lnot. unfold is_w in Hx. symmetry. apply Z.mod_unique with (-1); lia. }
  rewrite Z.mod_pow2_bits_low by lia. rewrite Z.lnot_spec by lia. destruct (Z.testbit x i), (Z.testbit y i), (Z.testbit z i); reflexivity.
Qed.
Lemma Maj_maj x y z : is_w x -> is_w y -> is_w z -> Maj x y z = maj x y z.
Proof.
  intros Hx Hy Hz. apply word_ext; [apply is_w_lxor; [apply is_w_lxor|]; apply is_w_land; assumption|]. intros i Hi.
  unfold Maj. rewrite !Z.lxor_spec, !Z.land_spec. destruct (Z.testbit x i), (Z.testbit y i), (Z.testbit z i); reflexivity.
Qed.
Lemma is_w_ROTR x n : is_w x -> 0 < n < 64 -> is_w (ROTR x n).
Proof. intros. rewrite ROTR_rotr by assumption. apply word_w. Qed.
Lemma SIG0_eq x : is_w x -> SIG0 x = Sigma0 x.
Proof. intros Hx. unfold SIG0, Sigma0. rewrite lxor_xor3 by (apply is_w_ROTR; [exact Hx|lia]). rewrite !ROTR_rotr by (try exact Hx; lia). reflexivity. Qed.
Lemma SIG1_eq x : is_w x -> SIG1 x = Sigma1 x.
Proof. intros Hx. unfold SIG1, Sigma1. rewrite lxor_xor3 by (apply is_w_ROTR; [exact Hx|lia]). rewrite !ROTR_rotr by (try exact Hx; lia). reflexivity. Qed.
Lemma sig0_eq x : is_w x -> sig0 x = sigma0 x.
Proof. intros Hx. unfold sig0, sigma0. rewrite lxor_xor3 by first [apply is_w_ROTR; [exact Hx|lia] | apply is_w_shiftr; [exact Hx|lia]]. rewrite !ROTR_rotr, shiftr_shr by (try exact Hx; lia). reflexivity. Qed.
Lemma sig1_eq x : is_w x -> sig1 x = sigma1 x.
Proof. intros Hx. unfold sig1, sigma1. rewrite lxor_xor3 by first [apply is_w_ROTR; [exact Hx|lia] | apply is_w_shiftr; [exact Hx|lia]]. rewrite !ROTR_rotr, shiftr_shr by (try exact Hx; lia). reflexivity. Qed.

(** ** reading and writing words *)
Lemma lor_shl a b n : 0 <= a -> 0 <= n -> 0 <= b < 2 ^ n -> Z.lor (Z.shiftl a n) b = a * 2 ^ n + b.
Proof.
  intros Ha Hn Hb. rewrite <- Z.shiftl_mul_pow2 by lia. symmetry. rewrite Z.add_nocarry_lxor.
  2:{ apply Z.bits_inj'. intros i Hi. rewrite Z.land_spec, Z.bits_0. destruct (Z.lt_ge_cases i n).
      - rewrite Z.shiftl_spec_low by lia. reflexivity.
      - rewrite (bits_small b n i) by lia. apply andb_false_r. }
  apply Z.bits_inj'. intros i Hi. rewrite Z.lor_spec, Z.lxor_spec. destruct (Z.lt_ge_cases i n).
  - rewrite Z.shiftl_spec_low by lia. destruct (Z.testbit b i); reflexivity.
  - rewrite (bits_small b n i) by lia. destruct (Z.testbit (Z.shiftl a n) i); reflexivity.
Qed.
Lemma nth_byte l i : all_bytes l -> is_byte (nth i l 0).
Proof. intros F. destruct (nth_in_or_default i l 0) as [H| ->]; [exact (proj1 (Forall_forall _ _) F _ H)|unfold is_byte; lia]. Qed.
Lemma read_u32be_ok l o : all_bytes l -> (o + 4 <= length l)%nat ->
  read_u32be l o = Ok (((nth o l 0 * 256 + nth (o + 1) l 0) * 256 + nth (o + 2) l 0) * 256 + nth (o + 3) l 0).
Proof.
  intros F L. unfold read_u32be. rewrite !at_ok by lia. cbn [bind].
  pose proof (nth_byte l o F) as B0. pose proof (nth_byte l (o + 1) F) as B1. pose proof (nth_byte l (o + 2) F) as B2. pose proof (nth_byte l (o + 3) F) as B3.
  unfold is_byte in *. set (a := nth o l 0) in *. set (b := nth (o + 1) l 0) in *. set (c := nth (o + 2) l 0) in *. set (d := nth (o + 3) l 0) in *.
  assert (S : forall x n, 0 <= n -> Z.shiftl x n = x * 2 ^ n) by (intros; apply Z.shiftl_mul_pow2; lia).
  assert (E1 : Z.lor (Z.shiftl a 24) (Z.shiftl b 16) = Z.shiftl (a * 256 + b) 16).
  { rewrite lor_shl by (rewrite ?S by lia; lia). rewrite !S by lia. lia. }
  rewrite E1. assert (E2 : Z.lor (Z.shiftl (a * 256 + b) 16) (Z.shiftl c 8) = Z.shiftl ((a * 256 + b) * 256 + c) 8).
  { rewrite lor_shl by (rewrite ?S by lia; lia). rewrite !S by lia. lia. }
  rewrite E2, lor_shl by lia. rewrite Z.mod_small by lia. f_equal.
Qed.
Lemma read_u64be_ok l o : all_bytes l -> (o + 8 <= length l)%nat -> read_u64be l o = Ok (OS2IP (firstn 8 (skipn o l))).
Proof.
  intros F L. unfold read_u64be. rewrite !read_u32be_ok by (try exact F; lia). cbn [bind].
  assert (EL : firstn 8 (skipn o l) = [nth o l 0; nth (o + 1) l 0; nth (o + 2) l 0; nth (o + 3) l 0; nth (o + 4) l 0; nth (o + 5) l 0; nth (o + 6) l 0; nth (o + 7) l 0]).
  { assert (G : forall k, nth k (skipn o l) 0 = nth (o + k) l 0) by (intros k; apply nth_skipn').
    pose proof (G 0%nat) as G0. rewrite Nat.add_0_r in G0. rewrite <- G0, <- !G. assert (LL : (8 <= length (skipn o l))%nat) by (rewrite skipn_length; lia).
    destruct (skipn o l) as [|b0 [|b1 [|b2 [|b3 [|b4 [|b5 [|b6 [|b7 t]]]]]]]]; cbn in LL; try lia. reflexivity. }
  rewrite EL. pose proof (fun i => nth_byte l i F) as B. unfold is_byte in B.
  replace (o + 4 + 1)%nat with (o + 5)%nat by lia. replace (o + 4 + 2)%nat with (o + 6)%nat by lia. replace (o + 4 + 3)%nat with (o + 7)%nat by lia.
  pose proof (B o) as H0. pose proof (B (o + 1)%nat) as H1. pose proof (B (o + 2)%nat) as H2. pose proof (B (o + 3)%nat) as H3.
  pose proof (B (o + 4)%nat) as H4. pose proof (B (o + 5)%nat) as H5. pose proof (B (o + 6)%nat) as H6. pose proof (B (o + 7)%nat) as H7. clear B EL.
  change 0xffffffff with (Z.ones 32). rewrite !Z.land_ones by lia. rewrite !Z.mod_small by lia. unfold shl64. rewrite Z.mod_small by (rewrite Z.shiftl_mul_pow2 by lia; lia).
  rewrite lor_shl by lia. unfold OS2IP. cbn [fold_left]. f_equal. lia.
Qed.
Lemma I2OSP_S x n : I2OSP x (S n) = I2OSP (x / 256) n ++ [x mod 256].
Proof. reflexivity. Qed.
Lemma u64_bytes_ok x : u64_bytes x = I2OSP x 8.
Proof.
  unfold u64_bytes. cbn [map].
  assert (E : forall s, 0 <= s -> Z.land (Z.shiftr x s) 255 = (x / 2 ^ s) mod 256).
  { intros s Hs. change 255 with (Z.ones 8). rewrite Z.land_ones by lia. rewrite Z.shiftr_div_pow2 by lia. reflexivity. }
  rewrite !E by lia. change (2 ^ 0) with 1. rewrite Z.div_1_r. cbn [I2OSP app].
  rewrite !Z.div_div by lia. reflexivity.
Qed.

(** ** loops *)
Lemma put_mid P v0 R v : put (P ++ v0 :: R) (length P) v = Ok (P ++ v :: R).
Proof.
  unfold put. rewrite app_length. cbn [length]. rewrite (proj2 (Nat.ltb_lt _ _)) by lia.
  rewrite firstn_app, firstn_all, Nat.sub_diag. cbn [firstn]. rewrite app_nil_r. rewrite skipn_app, skipn_all2 by lia. replace (length P + 1 - length P)%nat with 1%nat by lia. reflexivity.
Qed.
Lemma loop_grow (f : nat -> list Z -> outcome (list Z)) (e : list Z -> Z) (I : list Z -> Prop) n : forall P R,
  (forall P' v R', (length P <= length P' < length P + n)%nat -> I P' -> f (length P') (P' ++ v :: R') = Ok ((P' ++ [e P']) ++ R') /\ I (P' ++ [e P'])) ->
  I P -> (n <= length R)%nat ->
  for_each f (seq (length P) n) (P ++ R) = Ok (Nat.iter n (fun P => P ++ [e P]) P ++ skipn n R) /\ I (Nat.iter n (fun P => P ++ [e P]) P).
Proof.
  induction n as [|n IH]; intros P R Hf HI HR; [split; [reflexivity|exact HI]|].
  destruct R as [|v R]; [cbn in HR; lia|]. cbn [seq for_each]. destruct (Hf P v R ltac:(lia) HI) as [E I']. rewrite E. cbn [bind].
  assert (L1 : length (P ++ [e P]) = S (length P)) by (rewrite app_length; cbn; lia).
  rewrite <- L1. destruct (IH (P ++ [e P]) R) as [E2 I2].
  - intros P' v' R' H HI'. apply Hf; [lia|exact HI'].
  - exact I'.
  - cbn in HR. lia.
  - replace (Nat.iter (S n) (fun P => P ++ [e P]) P) with (Nat.iter n (fun P => P ++ [e P]) (P ++ [e P])).
    + split; [exact E2|exact I2].
    + clear. induction n as [|n IHn]; [reflexivity|]. cbn [Nat.iter nat_rect]. cbn [Nat.iter nat_rect] in IHn. unfold Nat.iter in *. cbn [nat_rect] in *. rewrite IHn. reflexivity.
Qed.
Lemma iter_length (e : list Z -> Z) n P : length (Nat.iter n (fun P => P ++ [e P]) P) = (n + length P)%nat.
Proof. induction n as [|n IH]; [reflexivity|]. unfold Nat.iter in *. cbn [nat_rect]. rewrite app_length, IH. cbn. lia. Qed.

Definition schedule_word (P : list Z) : Z :=
  add (add (add (sigma1 (nth (length P - 2) P 0)) (nth (length P - 7) P 0)) (sigma0 (nth (length P - 15) P 0))) (nth (length P - 16) P 0).
Definition words (l : list Z) : Prop := Forall is_w l.
Lemma nth_w l i : words l -> is_w (nth i l 0).
Proof. intros F. destruct (nth_in_or_default i l 0) as [H| ->]; [exact (proj1 (Forall_forall _ _) F _ H)|unfold is_w; lia]. Qed.
Lemma add_w a b : is_w (add a b).
Proof. apply Z.mod_pos_bound. lia. Qed.
Lemma extend_eq : extend = (fun P => P ++ [schedule_word P]).
Proof. unfold extend, schedule_word. reflexivity. Qed.
Lemma add64_add : add64 = add.
Proof. reflexivity. Qed.
Lemma add_comm' a b : add a b = add b a.
Proof. unfold add. rewrite Z.add_comm. reflexivity. Qed.
Lemma add_add3 a b c d : add (add (add a b) c) d = (a + b + c + d) mod 2 ^ 64.
Proof. unfold add. rewrite (Zplus_mod_idemp_l (a + b)). rewrite Zplus_mod_idemp_l. reflexivity. Qed.
Lemma add_add4 a b c d e : add (add (add (add a b) c) d) e = (a + b + c + d + e) mod 2 ^ 64.
Proof. rewrite (add_add3 a b c d). unfold add. apply Zplus_mod_idemp_l. Qed.
Lemma prepare_ok P v R : (16 <= length P)%nat -> words P ->
  sha512_prepare (length P) (P ++ v :: R) = Ok ((P ++ [schedule_word P]) ++ R).
Proof.
  intros HP F. unfold sha512_prepare. rewrite !at_ok by (rewrite app_length; lia). cbn [bind]. rewrite !app_nth1 by lia. rewrite put_mid. rewrite <- app_assoc. cbn [app]. do 3 f_equal.
  unfold schedule_word. rewrite sig0_eq, sig1_eq by (apply nth_w; exact F). rewrite add64_add, !add_add3. f_equal. lia.
Qed.

Lemma chunks_length k n l : length (chunks k n l) = n.
Proof. revert l. induction n; intros l; cbn; [reflexivity|rewrite IHn; reflexivity]. Qed.
Lemma chunks_snoc k n l : chunks k (S n) l = chunks k n l ++ [firstn k (skipn (n * k) l)].
Proof.
  revert l. induction n as [|n IH]; intros l; [reflexivity|].
  change (chunks k (S (S n)) l) with (firstn k l :: chunks k (S n) (skipn k l)). rewrite IH. cbn [chunks app]. f_equal. f_equal. rewrite skipn_skipn'. do 3 f_equal. lia.
Qed.
Lemma load_words data o n : forall R, all_bytes data -> (o + n * 8 <= length data)%nat -> (n <= length R)%nat ->
  for_each (fun t W => let* x := read_u64be data (o + t * 8) in put W t x) (seq 0 n) R = Ok (map OS2IP (chunks 8 n (skipn o data)) ++ skipn n R).
Proof.
  intros R F L HR.
  assert (G : forall n, (o + n * 8 <= length data)%nat -> (n <= length R)%nat ->
     for_each (fun t W => let* x := read_u64be data (o + t * 8) in put W t x) (seq 0 n) R = Ok (map OS2IP (chunks 8 n (skipn o data)) ++ skipn n R)); [|apply G; assumption].
  clear L HR n. assert (A : forall f l1 l2 (a : list Z), for_each f (l1 ++ l2) a = bind (for_each f l1 a) (for_each f l2)).
  { intros f l1 l2. induction l1 as [|x l1 IH]; intros a; [reflexivity|]. cbn [app for_each]. destruct (f x a); cbn [bind]; [apply IH|reflexivity..]. }
  induction n as [|n IH]; intros L HR; [reflexivity|]. rewrite seq_S, A, IH by lia. cbn [bind for_each]. rewrite Nat.add_0_l. rewrite read_u64be_ok; [|exact F|lia]. cbn [bind].
  assert (LC : length (map OS2IP (chunks 8 n (skipn o data))) = n) by (rewrite map_length; apply chunks_length).
  destruct (skipn n R) as [|v t] eqn:ER.
  { apply (f_equal (@length Z)) in ER. rewrite skipn_length in ER. cbn in ER. lia. }
  rewrite <- LC at 1 3. rewrite LC.
  replace n with (length (map OS2IP (chunks 8 n (skipn o data)))) at 2 by exact LC. rewrite put_mid. cbn [bind].
  rewrite chunks_snoc, map_app, <- app_assoc. cbn [map app]. rewrite skipn_skipn'. replace (n * 8 + o)%nat with (o + n * 8)%nat by lia. do 3 f_equal.
  change (S n) with (1 + n)%nat. rewrite <- skipn_skipn', ER. reflexivity.
Qed.

(** ** rounds *)
Definition vlist (s : vars) : list Z := [va s; vb s; vc s; vd s; ve s; vf s; vg s; vh s].
Lemma round_ok W t s : (t < length W)%nat -> (t < 80)%nat -> words (vlist s) ->
  exists s', sha512_round W t s = Ok s' /\ vlist s' = round (vlist s) (nth t K_512 0, nth t W 0) /\ words (vlist s').
Proof.
  intros HW Ht F. unfold sha512_round. rewrite !at_ok by (try exact HW; exact Ht). cbn [bind].
  destruct s as [a b c d e f g h]. cbn [va vb vc vd ve vf vg vh vlist] in *.
  unfold words, vlist in *. cbn [va vb vc vd ve vf vg vh] in *. repeat match type of F with Forall _ (_ :: _) => let H := fresh "Hw" in pose proof (Forall_inv F) as H; apply Forall_inv_tail in F end.
  eexists. split; [reflexivity|]. cbn [va vb vc vd ve vf vg vh round fst snd]. split.
  - rewrite Ch_ch, Maj_maj, SIG0_eq, SIG1_eq by assumption.
    rewrite add64_add.
    assert (T : add (add (add (add (ch e f g) (nth t W 0)) (nth t K_512 0)) h) (Sigma1 e) = add (add (add (add h (Sigma1 e)) (ch e f g)) (nth t K_512 0)) (nth t W 0)).
    { rewrite !add_add4. f_equal. lia. }
    rewrite T. rewrite (add_comm' (maj a b c)). reflexivity.
  - repeat first [assumption | apply Forall_nil | apply Forall_cons; [first [assumption|apply is_w_add64]|]].
Qed.
Lemma skipn_cons {A} k (l : list A) d : (k < length l)%nat -> skipn k l = nth k l d :: skipn (S k) l.
Proof. revert l. induction k as [|k IH]; intros [|x l] H; cbn in H; try lia; [reflexivity|]. cbn [skipn nth]. apply IH. lia. Qed.
Lemma rounds_ok W n : length W = 80%nat -> forall t s, (t + n = 80)%nat -> words (vlist s) ->
  exists s', for_each (sha512_round W) (seq t n) s = Ok s' /\ vlist s' = fold_left round (combine (skipn t K_512) (skipn t W)) (vlist s) /\ words (vlist s').
Proof.
  intros LW. induction n as [|n IH]; intros t s Ht F.
  - exists s. rewrite !skipn_all2 by (rewrite ?LW; change (length K_512) with 80%nat; lia). auto.
  - destruct (round_ok W t s) as (s1 & E1 & V1 & F1); [lia|lia|exact F|]. cbn [seq for_each]. rewrite E1. cbn [bind].
    destruct (IH (S t) s1) as (s2 & E2 & V2 & F2); [lia|exact F1|]. exists s2. split; [exact E2|]. split; [|exact F2].
    rewrite (skipn_cons t K_512 0) by (change (length K_512) with 80%nat; lia). rewrite (skipn_cons t W 0) by lia. cbn [combine fold_left]. rewrite <- V1. exact V2.
Qed.

Lemma chunks_words k n l : k = 8%nat -> all_bytes l -> words (map OS2IP (chunks k n l)).
Proof.
  intros ->. revert l. induction n as [|n IH]; intros l F; [constructor|]. cbn [chunks map]. constructor.
  - pose proof (OS2IP_range (firstn 8 l) (Forall_firstn _ 8 l F)) as R. pose proof (firstn_le_length 8 l) as L. unfold is_w.
    pose proof (Z.pow_le_mono_r 256 (Z.of_nat (length (firstn 8 l))) 8 ltac:(lia) ltac:(lia)). change (256 ^ 8) with (2 ^ 64) in *. lia.
  - apply IH. apply Forall_skipn. exact F.
Qed.
Lemma chunks_firstn k n m l : (n * k <= m)%nat -> chunks k n (firstn m l) = chunks k n l.
Proof.
  revert m l. induction n as [|n IH]; intros m l H; [reflexivity|]. cbn [chunks]. f_equal; [rewrite firstn_firstn; f_equal; lia|].
  rewrite skipn_firstn_comm. apply IH. lia.
Qed.
Lemma sched_ok P : length P = 16%nat -> words P -> exists W, for_each sha512_prepare (unrolled 16) (P ++ repeat 0 64) = Ok W /\
  W = Nat.iter 64 extend P /\ length W = 80%nat.
Proof.
  intros LP FP. destruct (loop_grow sha512_prepare schedule_word words 64 P (repeat 0 64)) as [E FW]; [|exact FP|rewrite repeat_length; lia|].
  { intros P' v R' HP FP'. split; [apply prepare_ok; [lia|exact FP']|]. apply Forall_app. split; [exact FP'|]. constructor; [apply add_w|constructor]. }
  exists (Nat.iter 64 extend P). rewrite extend_eq. split; [|split; [reflexivity|]].
  - replace (unrolled 16) with (seq (length P) 64) by (rewrite LP; reflexivity). rewrite E. rewrite skipn_all2 by (rewrite repeat_length; lia). rewrite app_nil_r. reflexivity.
  - rewrite iter_length, LP. reflexivity.
Qed.
Lemma compress_ok data o H : all_bytes data -> (o + 128 <= length data)%nat -> words (vlist H) ->
  exists H', sha512_compress data o H = Ok H' /\ vlist H' = compress K_512 (vlist H) (firstn 128 (skipn o data)) /\ words (vlist H').
Proof.
  intros F L FH. unfold sha512_compress. rewrite (load_words data o 16 (repeat 0 80)) by (try exact F; rewrite ?repeat_length; lia). cbn [bind].
  replace (skipn 16 (repeat 0 80)) with (repeat 0 64) by reflexivity.
  destruct (sched_ok (map OS2IP (chunks 8 16 (skipn o data)))) as (W & EW & VW & LW).
  { rewrite map_length; apply chunks_length. } { apply chunks_words; [reflexivity|apply Forall_skipn; exact F]. }
  rewrite EW. cbn [bind]. replace (unrolled 0) with (seq 0 80) by reflexivity.
  destruct (rounds_ok W 80 LW 0 H eq_refl FH) as (s & Es & Vs & Fs). rewrite Es. cbn [bind].
  eexists. split; [reflexivity|]. split.
  - unfold compress, schedule. rewrite chunks_firstn by lia. rewrite <- VW.
    rewrite !skipn_O in Vs. rewrite <- Vs. clear. destruct H as [h0 h1 h2 h3 h4 h5 h6 h7]. destruct s as [s0 s1 s2 s3 s4 s5 s6 s7]. unfold vlist. cbn [va vb vc vd ve vf vg vh map combine fst snd]. rewrite add64_add. reflexivity.
  - clear. unfold vlist. cbn [va vb vc vd ve vf vg vh]. repeat first [apply Forall_nil | apply Forall_cons; [apply is_w_add64|]].
Qed.

(** ** the message *)
Lemma chunks_app k a b l : chunks k (a + b) l = chunks k a l ++ chunks k b (skipn (a * k) l).
Proof.
  revert l. induction a as [|a IH]; intros l; [reflexivity|]. cbn [Nat.add chunks app Nat.mul]. rewrite IH, skipn_skipn'. do 3 f_equal. f_equal. lia.
Qed.
Lemma chunks_front k a b A X : length A = (a * k)%nat -> chunks k (a + b) (A ++ X) = chunks k a A ++ chunks k b X.
Proof.
  intros L. rewrite chunks_app. rewrite <- (chunks_firstn k a (a * k) (A ++ X)) by lia. rewrite <- L.
  rewrite firstn_app, Nat.sub_diag, firstn_O, app_nil_r, firstn_all. rewrite skipn_app, Nat.sub_diag, skipn_all. reflexivity.
Qed.
Lemma chunks_S k n l : chunks k (S n) l = firstn k l :: chunks k n (skipn k l).
Proof. reflexivity. Qed.
Lemma fold_cons {A B} (f : A -> B -> A) x l a : fold_left f (x :: l) a = fold_left f l (f a x).
Proof. reflexivity. Qed.
Lemma fold_nil {A B} (f : A -> B -> A) a : fold_left f [] a = a.
Proof. reflexivity. Qed.
Lemma whole_S fuel data pos size H : whole_blocks (S fuel) data pos size H =
  if Nat.leb 128 size then let* H := sha512_compress data pos H in whole_blocks fuel data (pos + 128) (size - 128) H else Ok (pos, size, H).
Proof. reflexivity. Qed.
Lemma whole_0 fuel data pos size H : (size < 128)%nat -> whole_blocks fuel data pos size H = Ok (pos, size, H).
Proof. intros L. destruct fuel; unfold whole_blocks; fold whole_blocks; rewrite (proj2 (Nat.leb_gt 128 size)) by lia; reflexivity. Qed.
Lemma whole_ok data n : all_bytes data -> forall fuel pos size H, (n * 128 <= size < n * 128 + 128)%nat -> (n <= fuel)%nat -> (pos + size = length data)%nat -> words (vlist H) ->
  exists H', whole_blocks fuel data pos size H = Ok ((pos + n * 128)%nat, (size - n * 128)%nat, H') /\
    vlist H' = fold_left (compress K_512) (chunks 128 n (skipn pos data)) (vlist H) /\ words (vlist H').
Proof.
  intros F. induction n as [|n IH]; intros fuel pos size H Hs Hf Hp FH.
  - exists H. split; [|split; [reflexivity|exact FH]]. rewrite Nat.add_0_r, Nat.sub_0_r.
    apply whole_0. lia.
  - destruct fuel as [|fuel]; [lia|]. rewrite whole_S. rewrite (proj2 (Nat.leb_le 128 size)) by lia.
    destruct (compress_ok data pos H F ltac:(lia) FH) as (H1 & E1 & V1 & F1). rewrite E1. cbn [bind].
    destruct (IH fuel (pos + 128)%nat (size - 128)%nat H1) as (H2 & E2 & V2 & F2); [lia|lia|lia|exact F1|]. exists H2. rewrite E2.
    split; [do 3 f_equal; lia|]. split; [|exact F2]. rewrite chunks_S, fold_cons, skipn_skipn'. replace (128 + pos)%nat with (pos + 128)%nat by lia. rewrite <- V1. exact V2.
Qed.
Lemma put_seq (g : nat -> Z) o n : forall k P R, length P = (o + k)%nat -> (n <= length R)%nat ->
  for_each (fun k b => put b (o + k) (g k)) (seq k n) (P ++ R) = Ok (P ++ map g (seq k n) ++ skipn n R).
Proof.
  induction n as [|n IH]; intros k P R HP HR; [reflexivity|]. destruct R as [|v R]; [cbn in HR; lia|]. cbn [seq for_each map].
  rewrite <- HP, put_mid. cbn [bind]. replace (P ++ g k :: R) with ((P ++ [g k]) ++ R) by (rewrite <- app_assoc; reflexivity).
  rewrite IH; [|rewrite app_length; cbn; lia|cbn in HR; lia]. rewrite <- app_assoc. reflexivity.
Qed.
Lemma map_const_seq n : forall k, map (fun _ => 0) (seq k n) = repeat 0 n.
Proof. induction n as [|n IH]; intros k; [reflexivity|]. cbn [seq map repeat]. rewrite IH. reflexivity. Qed.
Lemma zero_to_ok P R n : (length P <= n)%nat -> (n <= length P + length R)%nat -> zero_to (length P) n (P ++ R) = Ok (P ++ repeat 0 (n - length P) ++ skipn (n - length P) R).
Proof.
  intros H1 H2. unfold zero_to. pose proof (put_seq (fun _ => 0) 0 (n - length P) (length P) P R eq_refl ltac:(lia)) as E. cbn [Nat.add] in E. rewrite E, map_const_seq. reflexivity.
Qed.
Lemma write_ok P R x : (8 <= length R)%nat -> write_u64 x (length P) (P ++ R) = Ok (P ++ I2OSP x 8 ++ skipn 8 R).
Proof.
  intros H. unfold write_u64. rewrite put_seq by lia. do 3 f_equal. rewrite <- u64_bytes_ok. reflexivity.
Qed.
Lemma I2OSP_app b : forall a x, I2OSP x (a + b) = I2OSP (x / 256 ^ Z.of_nat b) a ++ I2OSP x b.
Proof.
  induction b as [|b IH]; intros a x; [rewrite Nat.add_0_r; cbn [I2OSP]; change (256 ^ Z.of_nat 0) with 1; rewrite Z.div_1_r, app_nil_r; reflexivity|].
  rewrite Nat.add_succ_r, !I2OSP_S, IH, <- app_assoc. do 2 f_equal. rewrite Nat2Z.inj_succ, Z.pow_succ_r by lia. rewrite Z.div_div by lia. reflexivity.
Qed.
Lemma I2OSP_mod b : forall x, I2OSP (x mod 256 ^ Z.of_nat b) b = I2OSP x b.
Proof.
  induction b as [|b IH]; intros x; [reflexivity|]. rewrite !I2OSP_S. rewrite Nat2Z.inj_succ, Z.pow_succ_r by lia. pose proof (Z.pow_pos_nonneg 256 (Z.of_nat b) ltac:(lia) ltac:(lia)).
  rewrite Z.rem_mul_r by lia. f_equal.
  - replace (x mod 256 + 256 * ((x / 256) mod 256 ^ Z.of_nat b)) with (x mod 256 + ((x / 256) mod 256 ^ Z.of_nat b) * 256) by lia. rewrite Z.div_add by lia.
    rewrite Z.div_small by (apply Z.mod_pos_bound; lia). rewrite Z.add_0_l. apply IH.
  - f_equal. rewrite (Z.mul_comm 256), Z.mod_add by lia. apply Z.mod_mod. lia.
Qed.
Lemma chunks_one l : length l = 128%nat -> chunks 128 1 l = [l].
Proof. intros L. cbn [chunks]. rewrite firstn_all2 by lia. reflexivity. Qed.
Lemma length_bits len : I2OSP (8 * len) 16 = I2OSP (Z.shiftr len (64 - 3)) 8 ++ I2OSP (shl64 len 3) 8.
Proof.
  replace 16%nat with (8 + 8)%nat by reflexivity. rewrite I2OSP_app. replace (256 ^ Z.of_nat 8) with (2 ^ 64) by reflexivity. f_equal.
  - f_equal. rewrite Z.shiftr_div_pow2 by lia. replace (64 - 3) with 61 by lia. replace (2 ^ 64) with (8 * 2 ^ 61) by reflexivity. rewrite Z.div_mul_cancel_l by lia. reflexivity.
  - unfold shl64. rewrite Z.shiftl_mul_pow2 by lia. replace (len * 2 ^ 3) with (8 * len) by lia. replace (2 ^ 64) with (256 ^ Z.of_nat 8) by reflexivity. rewrite I2OSP_mod. reflexivity.
Qed.
Lemma final_block len H Q R : words (vlist H) -> all_bytes Q -> length Q = 112%nat -> length R = 16%nat ->
  (let* b := write_u64 (Z.shiftr len (64 - 3)) 112 (Q ++ R) in let* b := write_u64 (shl64 len 3) (112 + 8) b in
   let* H := sha512_compress b 0 H in Ok (flat_map u64_bytes [va H; vb H; vc H; vd H; ve H; vf H; vg H; vh H])) =
  Ok (flat_map (fun w => I2OSP w 8) (compress K_512 (vlist H) (Q ++ I2OSP (8 * len) 16))) /\
  length (compress K_512 (vlist H) (Q ++ I2OSP (8 * len) 16)) = 8%nat.
Proof.
  intros F2 FQ LQ LR. rewrite <- LQ. rewrite write_ok by lia. cbn [bind]. set (hi := Z.shiftr len (64 - 3)). set (lo := shl64 len 3).
  replace (Q ++ I2OSP hi 8 ++ skipn 8 R) with ((Q ++ I2OSP hi 8) ++ skipn 8 R) by (rewrite <- app_assoc; reflexivity).
  replace (length Q + 8)%nat with (length (Q ++ I2OSP hi 8)) by (rewrite app_length, I2OSP_length; reflexivity).
  rewrite write_ok by (rewrite skipn_length; lia). cbn [bind]. rewrite (skipn_all2 (skipn 8 R)) by (rewrite skipn_length; lia). rewrite app_nil_r, <- app_assoc. unfold hi, lo. rewrite <- length_bits. clear hi lo.
  set (B := Q ++ I2OSP (8 * len) 16). assert (LB : length B = 128%nat) by (unfold B; rewrite app_length, I2OSP_length; lia).
  assert (FB : all_bytes B) by (apply Forall_app; split; [exact FQ|apply I2OSP_bytes]).
  destruct (compress_ok B 0 H FB ltac:(lia) F2) as (H3 & E3 & V3 & _). rewrite E3. cbn [bind]. rewrite skipn_O, firstn_all2 in V3 by lia. rewrite <- V3.
  split; [|reflexivity]. unfold vlist. cbn [flat_map]. rewrite !u64_bytes_ok. reflexivity.
Qed.
Lemma out_48 ws : length ws = 8%nat -> slice (flat_map (fun w => I2OSP w 8) ws) 0 48 = Ok (firstn 48 (flat_map (fun w => I2OSP w 8) ws)).
Proof.
  intros L. assert (LO : length (flat_map (fun w => I2OSP w 8) ws) = (8 * length ws)%nat).
  { clear. induction ws as [|w ws IH]; [reflexivity|]. cbn [flat_map length]. rewrite app_length, I2OSP_length, IH. lia. }
  rewrite slice_ok by lia. rewrite skipn_O. reflexivity.
Qed.

Lemma sha384_claim junk m : length junk = 128%nat -> all_bytes junk -> all_bytes m -> Z.of_nat (length m) < 2 ^ 64 ->
  sha384 junk m = Ok (SHA384 K_512 sha384_initial m).
Proof.
  intros LJ FJ F Hm. unfold sha384, sha512_compute. unfold sha384_initial at 1.
  set (n := (length m / 128)%nat). set (r := (length m mod 128)%nat).
  assert (Hr : (r < 128)%nat) by (apply Nat.mod_upper_bound; lia). assert (Hn : length m = (n * 128 + r)%nat) by (pose proof (Nat.div_mod (length m) 128 ltac:(lia)); unfold n, r; lia).
  clearbody n r.
  set (H0 := mkvars _ _ _ _ _ _ _ _). assert (V0 : vlist H0 = sha384_initial) by reflexivity.
  assert (F0 : words (vlist H0)) by (rewrite V0; repeat (apply Forall_cons; [split; [discriminate|reflexivity]|]); apply Forall_nil).
  clearbody H0.
  destruct (whole_ok m n F (length m) 0 (length m) H0 ltac:(lia) ltac:(lia) ltac:(lia) F0) as (H1 & E1 & V1 & F1). rewrite E1. cbn [bind]. rewrite Nat.add_0_l.
  replace (length m - n * 128)%nat with r by lia. rewrite slice_ok by lia. cbn [bind].
  rewrite (firstn_all2 (n := r)) by (rewrite skipn_length; lia).
  set (T := skipn (n * 128) m). assert (LT : length T = r) by (unfold T; rewrite skipn_length; lia). assert (FT : all_bytes T) by (apply Forall_skipn; exact F).
  assert (Em : m = firstn (n * 128) m ++ T) by (symmetry; apply firstn_skipn).
  set (A := firstn (n * 128) m) in *. assert (EP : forall X, A ++ T ++ X = m ++ X) by (intros X; rewrite app_assoc, <- Em; reflexivity). assert (LA : length A = (n * 128)%nat) by (unfold A; rewrite firstn_length; lia).
  assert (VA : vlist H1 = fold_left (compress K_512) (chunks 128 n A) sha384_initial).
  { rewrite V1, V0. rewrite skipn_O. unfold A. rewrite chunks_firstn by lia. reflexivity. }
  (* the remaining bytes to hash *)
  destruct (skipn r junk) as [|j0 J] eqn:EJ.
  { apply (f_equal (@length Z)) in EJ. rewrite skipn_length in EJ. cbn in EJ. lia. }
  assert (LJ' : length J = (127 - r)%nat) by (apply (f_equal (@length Z)) in EJ; rewrite skipn_length in EJ; cbn in EJ; lia).
  assert (FJ' : all_bytes J) by (apply Forall_skipn with (n := r) in FJ; rewrite EJ in FJ; apply (Forall_inv_tail FJ)).
  replace (put (T ++ j0 :: J) r 0x80) with (put (T ++ j0 :: J) (length T) 0x80) by (rewrite LT; reflexivity). rewrite put_mid. cbn [bind].
  set (P := T ++ [128]). assert (LP : length P = (r + 1)%nat) by (unfold P; rewrite app_length; cbn; lia).
  replace (T ++ 128 :: J) with (P ++ J) by (unfold P; rewrite <- app_assoc; reflexivity).
  assert (FP : all_bytes P) by (apply Forall_app; split; [exact FT|]; constructor; [unfold is_byte; lia|constructor]).
  assert (FZ : forall k, all_bytes (repeat 0 k)) by (intros k; apply Forall_forall; intros x Hx; apply repeat_spec in Hx; rewrite Hx; unfold is_byte; lia).
  (* the specification *)
  unfold SHA384, pad. set (z := Z.to_nat _).
  assert (LPd : length (m ++ [128] ++ repeat 0 z ++ I2OSP (8 * Z.of_nat (length m)) 16) = (length m + z + 17)%nat).
  { rewrite !app_length, repeat_length, I2OSP_length. cbn [length]. lia. }
  destruct (Nat.ltb_spec (128 - 16) (r + 1)) as [C|C].
  - assert (Ez : z = (239 - r)%nat).
    { unfold z. replace (- (Z.of_nat (length m) + 17)) with (239 - Z.of_nat r + (- Z.of_nat n - 2) * 128) by lia. rewrite Z.mod_add by lia. rewrite Z.mod_small by lia. lia. }
    replace (r + 1)%nat with (length P) at 1 by exact LP. rewrite zero_to_ok by lia. cbn [bind]. rewrite LP.
    rewrite (skipn_all2 J) by lia. rewrite app_nil_r.
    set (B := P ++ repeat 0 (128 - (r + 1))). assert (LB : length B = 128%nat) by (unfold B; rewrite app_length, repeat_length; lia).
    assert (FB : all_bytes B) by (apply Forall_app; split; [exact FP|apply FZ]).
    destruct (compress_ok B 0 H1 FB ltac:(lia) F1) as (H2 & E2 & V2 & F2). rewrite E2. cbn [bind]. rewrite skipn_O, firstn_all2 in V2 by lia.
    pose proof (zero_to_ok [] B 112 ltac:(cbn; lia) ltac:(cbn; lia)) as Ez0. cbn [app length] in Ez0. rewrite Nat.sub_0_r in Ez0. change (128 - 16)%nat with 112%nat. rewrite Ez0. cbn [bind].
    destruct (final_block (Z.of_nat (length m)) H2 (repeat 0 112) (skipn 112 B) F2 (FZ _) (repeat_length _ _) ltac:(rewrite skipn_length; lia)) as [EF LF]. rewrite EF. cbn [bind]. rewrite out_48 by exact LF.
    rewrite LPd. replace ((length m + z + 17) / 128)%nat with (n + (1 + 1))%nat by (apply Nat.div_unique with 0%nat; lia).
    replace (m ++ [128] ++ repeat 0 z ++ I2OSP (8 * Z.of_nat (length m)) 16) with (A ++ (B ++ (repeat 0 112 ++ I2OSP (8 * Z.of_nat (length m)) 16))).
    2:{ unfold B, P. rewrite <- !app_assoc, EP. f_equal. f_equal. rewrite app_assoc, <- repeat_app. replace (128 - (r + 1) + 112)%nat with z by lia. reflexivity. }
    rewrite chunks_front by exact LA. rewrite (chunks_front 128 1 1) by exact LB.
    rewrite !chunks_one by (try exact LB; rewrite app_length, repeat_length, I2OSP_length; reflexivity).
    rewrite !fold_left_app, <- VA. rewrite !fold_cons, !fold_nil. rewrite <- V2. reflexivity.
  - assert (Ez : z = (111 - r)%nat).
    { unfold z. replace (- (Z.of_nat (length m) + 17)) with (111 - Z.of_nat r + (- Z.of_nat n - 1) * 128) by lia. rewrite Z.mod_add by lia. rewrite Z.mod_small by lia. lia. }
    cbn [bind]. replace (r + 1)%nat with (length P) at 1 by exact LP. rewrite zero_to_ok by lia. cbn [bind]. rewrite LP.
    replace (P ++ repeat 0 (128 - 16 - (r + 1)) ++ skipn (128 - 16 - (r + 1)) J) with ((P ++ repeat 0 z) ++ skipn z J) by (rewrite <- app_assoc, Ez; do 3 f_equal; lia).
    assert (LQ : length (P ++ repeat 0 z) = 112%nat) by (rewrite app_length, repeat_length; lia).
    destruct (final_block (Z.of_nat (length m)) H1 (P ++ repeat 0 z) (skipn z J) F1 ltac:(apply Forall_app; split; [exact FP|apply FZ]) LQ ltac:(rewrite skipn_length; lia)) as [EF LF].
    rewrite EF. cbn [bind]. rewrite out_48 by exact LF.
    rewrite LPd. replace ((length m + z + 17) / 128)%nat with (n + 1)%nat by (apply Nat.div_unique with 0%nat; lia).
    replace (m ++ [128] ++ repeat 0 z ++ I2OSP (8 * Z.of_nat (length m)) 16) with (A ++ ((P ++ repeat 0 z) ++ I2OSP (8 * Z.of_nat (length m)) 16)).
    2:{ unfold P. rewrite <- !app_assoc, EP. reflexivity. }
    rewrite chunks_front by exact LA.
    rewrite chunks_one by (rewrite app_length, LQ, I2OSP_length; reflexivity).
    rewrite fold_left_app, <- VA. rewrite fold_cons, fold_nil. reflexivity.
Qed.

(** ** the constants *)
Definition int_root (e p : Z) : Z := fold_left (fun t c => if c ^ e <=? p then c else t) [1; 2; 3; 4; 5; 6; 7; 8; 9] 0.
Definition root_check (e p k : Z) : bool :=
  let r := int_root e p * 2 ^ 64 + k in
  (0 <=? k) && (k <? 2 ^ 64) && (0 <=? int_root e p) && (r ^ e <=? p * 2 ^ (64 * e)) && (p * 2 ^ (64 * e) <? (r + 1) ^ e).
Fixpoint all_roots (e : Z) (ps ks : list Z) : bool :=
  match ps, ks with
  | [], [] => true
  | p :: ps, k :: ks => root_check e p k && all_roots e ps ks
  | _, _ => false
  end.
Lemma all_roots_ok e (R : Z -> Z -> Prop) : (forall p k, root_check e p k = true -> R p k) -> forall ps ks, all_roots e ps ks = true -> Forall2 R ps ks.
Proof.
  intros HR. induction ps as [|p ps IH]; intros [|k ks] H; try discriminate; constructor; cbn [all_roots] in H; apply andb_true_iff in H; [apply HR|apply IH]; tauto.
Qed.
Lemma root_split e p k : root_check e p k = true ->
  exists r, r ^ e <= p * 2 ^ (64 * e) < (r + 1) ^ e /\ 0 <= r /\ k = r mod 2 ^ 64.
Proof.
  unfold root_check. cbv zeta. rewrite !andb_true_iff. intros ((((A & B) & C) & D) & E). exists (int_root e p * 2 ^ 64 + k).
  split; [split; lia|]. split; [lia|]. rewrite Z.add_comm, Z.mod_add by lia. symmetry. apply Z.mod_small. lia.
Qed.
Lemma sha384_constants : round_constants K_512 /\ initial_value sha384_initial /\ length primes = 80%nat.
Proof.
  split; [|split].
  - apply (all_roots_ok 3); [intros p k H; exact (root_split 3 p k H)|vm_compute; reflexivity].
  - apply (all_roots_ok 2); [intros p k H; exact (root_split 2 p k H)|vm_compute; reflexivity].
  - vm_compute. reflexivity.
Qed.
Lemma sha384_total junk m : length junk = 128%nat -> all_bytes junk -> all_bytes m -> Z.of_nat (length m) < 2 ^ 64 ->
  exists K H0, round_constants K /\ initial_value H0 /\ sha384 junk m = Ok (SHA384 K H0 m).
Proof.
  intros. exists K_512, sha384_initial. destruct sha384_constants as (A & B & _). split; [exact A|]. split; [exact B|]. apply sha384_claim; assumption.
Qed.
