From Coq Require Import List ZArith Bool Lia PeanoNat.
From Coq Require Import ZifyBool ZifyNat ZifyN.
From Verif Require Import Outcome LoopModel LoopProofs BitLemmas WordsModel WordsSpec WordsProofs DivProofs
  BigintModel BigintSpec BigintProofs.
Import ListNotations.
Open Scope Z_scope.

Lemma testbit_low a e k i : 0 <= k -> 0 <= a < 2 ^ k -> 0 <= i < k -> Z.testbit (a + 2 ^ k * e) i = Z.testbit a i.
Proof.
  intros Hk Ha Hi. rewrite Z.mul_comm, Z.add_comm, <- lor_mul_add by lia.
  rewrite Z.lor_spec, Z.mul_pow2_bits_low by lia. reflexivity.
Qed.
Lemma testbit_high a e k i : 0 <= k -> 0 <= a < 2 ^ k -> k <= i -> Z.testbit (a + 2 ^ k * e) i = Z.testbit e (i - k).
Proof.
  intros Hk Ha Hi. rewrite Z.mul_comm, Z.add_comm, <- lor_mul_add by lia.
  rewrite Z.lor_spec, Z.mul_pow2_bits by lia. rewrite (testbit_above a k i) by lia. apply orb_false_r.
Qed.

Lemma eval_testbit l : all_words l -> forall i, 0 <= i ->
  Z.testbit (eval l) i = Z.testbit (nth (Z.to_nat (i / 32)) l 0) (i mod 32).
Proof.
  induction l as [|a t IH]; intros W i Hi.
  - rewrite eval_nil, Z.bits_0. destruct (Z.to_nat (i / 32)); symmetry; apply Z.bits_0.
  - apply words_cons in W as [Wa Wt]. rewrite eval_cons. rewrite <- B_eq in *.
    destruct (Z_lt_le_dec i 32) as [H|H].
    + rewrite testbit_low by lia. rewrite Z.div_small, Z.mod_small by lia. reflexivity.
    + rewrite testbit_high by lia. rewrite (IH Wt (i - 32)) by lia.
      assert (E1 : (i - 32) / 32 = i / 32 - 1) by (replace (i - 32) with (i + (-1) * 32) by lia; rewrite Z.div_add by lia; lia).
      assert (E2 : (i - 32) mod 32 = i mod 32) by (replace (i - 32) with (i + (-1) * 32) by lia; rewrite Z.mod_add by lia; reflexivity).
      rewrite E1, E2. assert (1 <= i / 32) by (apply Z.div_le_lower_bound; lia).
      replace (Z.to_nat (i / 32)) with (S (Z.to_nat (i / 32 - 1))) by lia. reflexivity.
Qed.

Lemma word_nth l n : all_words l -> 0 <= nth n l 0 < B.
Proof.
  intros W. revert n. induction l as [|a t IH]; intros n.
  - destruct n; cbn; pose proof B_pos; lia.
  - apply words_cons in W as [Wa Wt]. destruct n; [assumption|]. cbn. apply IH; assumption.
Qed.

Lemma nth_words x n : (n < size x)%nat -> (size x <= length (mem x))%nat -> nth n (words x) 0 = nth n (mem x) 0.
Proof.
  intros. unfold words. rewrite <- (firstn_skipn (size x) (mem x)) at 2. rewrite app_nth1; [reflexivity|].
  rewrite firstn_length_le; lia.
Qed.

Lemma nth_words_above x n : (size x <= n)%nat -> nth n (words x) 0 = 0.
Proof. intros. unfold words. apply nth_overflow. rewrite firstn_length. lia. Qed.

(** *** test_bit, bit_length, byte_length *)
Lemma test_bit_spec c x i : valid c x -> 0 <= i -> test_bit x i = Z.testbit (magnitude x) i.
Proof.
  intros Hx Hi. unfold test_bit. destruct (words_valid c x Hx) as (Wx & Lx & Nx). pose proof Hx as (_ & Hs & _).
  rewrite magnitude_words, eval_testbit by assumption.
  destruct (Nat.leb_spec (size x) (Z.to_nat (i / 32))) as [H|H].
  - rewrite nth_words_above by assumption. rewrite Z.bits_0. reflexivity.
  - rewrite nth_words by lia. set (w := nth _ (mem x) 0).
    pose proof (Z.mod_pos_bound i 32 ltac:(lia)) as Hm. set (r := i mod 32) in *.
    assert (E : Z.shiftl 1 r mod B = 2 ^ r).
    { rewrite Z.shiftl_1_l. apply Z.mod_small. split; [apply Z.pow_nonneg; lia|]. rewrite <- B_eq. apply Z.pow_lt_mono_r; lia. }
    rewrite E. destruct (Z.testbit w r) eqn:Et.
    + destruct (Z.eqb_spec (Z.land w (2 ^ r)) 0) as [E0|E0]; [|reflexivity].
      apply (f_equal (fun v => Z.testbit v r)) in E0. rewrite Z.land_spec, Et, Z.pow2_bits_true, Z.bits_0 in E0 by lia. discriminate.
    + replace (Z.land w (2 ^ r)) with 0; [reflexivity|]. symmetry. apply Z.bits_inj'; intros n Hn.
      rewrite Z.land_spec, Z.bits_0. destruct (Z.eq_dec r n) as [->|Hne]; [rewrite Et; reflexivity|].
      rewrite Z.pow2_bits_false by lia. apply andb_false_r.
Qed.

Lemma bit_length_spec c x : valid c x -> bit_length x = if value x =? 0 then 1 else Z.log2 (magnitude x) + 1.
Proof.
  intros Hx. unfold bit_length. rewrite (is_zero_spec c x Hx).
  assert (Ez : (value x =? 0) = (magnitude x =? 0)) by (pose proof (value_zero_iff x); lia). rewrite Ez.
  destruct (Z.eqb_spec (magnitude x) 0) as [|Hnz]; [reflexivity|].
  destruct (words_valid c x Hx) as (Wx & Lx & Nx). destruct (last_bounds _ Wx Nx) as (R0 & R1).
  rewrite Lx, (nth_last_words c x Hx), <- magnitude_words in *. pose proof Hx as (_ & Hs & Ht).
  set (w := nth (size x - 1) (mem x) 0) in *.
  assert (Hw : w <> 0).
  { destruct (Nat.eq_dec (size x) 1) as [E|E]; [|apply Ht; lia].
    rewrite (size1 c x Hx E) in Hnz. unfold w. rewrite E. exact Hnz. }
  unfold bsr32. destruct (Z.eqb_spec w 0); [contradiction|].
  assert (El : Z.log2 (magnitude x) = 32 * (Z.of_nat (size x) - 1) + Z.log2 w).
  { apply Z.log2_unique.
    - pose proof (Z.log2_nonneg w). lia.
    - pose proof (Z.log2_spec w ltac:(lia)) as (L1 & L2). pose proof (Z.log2_nonneg w).
      pose proof (Bn_pos (size x - 1)) as Hb. rewrite Bn_pow2 in *.
      replace (32 * Z.of_nat (size x - 1)) with (32 * (Z.of_nat (size x) - 1)) in * by lia.
      rewrite <- Z.add_succ_r, !Z.pow_add_r by lia. split; nia. }
  rewrite El. lia.
Qed.

(** the least number of bits (bytes) that holds |x|, but at least one *)
Lemma bit_length_bounds c x : valid c x ->
  1 <= bit_length x /\ magnitude x < 2 ^ bit_length x /\ (1 < bit_length x -> 2 ^ (bit_length x - 1) <= magnitude x).
Proof.
  intros Hx. rewrite (bit_length_spec c x Hx). pose proof (magnitude_range c x Hx). pose proof (value_zero_iff x).
  destruct (Z.eqb_spec (value x) 0) as [E|E].
  - rewrite (proj1 H0 E). repeat split; try lia.
  - assert (0 < magnitude x) by lia. pose proof (Z.log2_spec (magnitude x) ltac:(lia)) as (A & C). pose proof (Z.log2_nonneg (magnitude x)).
    split; [lia|]. split; [exact C|]. intros _. replace (Z.log2 (magnitude x) + 1 - 1) with (Z.log2 (magnitude x)) by lia. exact A.
Qed.

Lemma byte_length_bounds c x : valid c x ->
  1 <= byte_length x /\ magnitude x < 256 ^ byte_length x /\ (1 < byte_length x -> 256 ^ (byte_length x - 1) <= magnitude x).
Proof.
  intros Hx. destruct (bit_length_bounds c x Hx) as (H1 & H2 & H3). unfold byte_length.
  set (b := bit_length x) in *. pose proof (Z.div_mod (b + 7) 8 ltac:(lia)) as E. pose proof (Z.mod_pos_bound (b + 7) 8 ltac:(lia)) as Hm.
  set (q := (b + 7) / 8) in *.
  change 256 with (2 ^ 8). split; [lia|]. split.
  - rewrite <- Z.pow_mul_r by lia. pose proof (Z.pow_le_mono_r 2 b (8 * q) ltac:(lia) ltac:(lia)). lia.
  - intros. rewrite <- Z.pow_mul_r by lia. specialize (H3 ltac:(lia)). pose proof (Z.pow_le_mono_r 2 (8 * (q - 1)) (b - 1) ltac:(lia) ltac:(lia)). lia.
Qed.

(** *** set_bit inside the current size *)
Lemma set_word_length l n w : length (set_word l n w) = length l.
Proof. revert n; induction l as [|a t IH]; intros [|n]; cbn; auto. Qed.
Lemma set_word_nth l n w k : (n < length l)%nat -> nth k (set_word l n w) 0 = if Nat.eqb k n then w else nth k l 0.
Proof.
  revert n k; induction l as [|a t IH]; intros [|n] k H; cbn in *; try lia; destruct k; cbn; try reflexivity.
  apply IH. lia.
Qed.
Lemma set_word_words l n w : all_words l -> 0 <= w < B -> all_words (set_word l n w).
Proof.
  revert n; induction l as [|a t IH]; intros [|n] W Hw; cbn; try assumption; apply words_cons in W as [Wa Wt]; apply words_cons; split; auto.
Qed.

Lemma nth_firstn_lt (l : list Z) n k : (k < n)%nat -> nth k (firstn n l) 0 = nth k l 0.
Proof.
  revert n k; induction l as [|a t IH]; intros [|n] [|k] H; cbn; try lia; try reflexivity. apply IH; lia.
Qed.
Lemma nth_firstn_ge (l : list Z) n k : (n <= k)%nat -> nth k (firstn n l) 0 = 0.
Proof. intros. apply nth_overflow. rewrite firstn_length. lia. Qed.

Lemma mask_spec r : 0 <= r < 32 -> Z.shiftl 1 r mod B = 2 ^ r.
Proof.
  intros. rewrite Z.shiftl_1_l. apply Z.mod_small. split; [apply Z.pow_nonneg; lia|]. rewrite <- B_eq. apply Z.pow_lt_mono_r; lia.
Qed.

Lemma lnot_mask r i : 0 <= r < 32 -> 0 <= i < 32 -> Z.testbit (B - 1 - 2 ^ r) i = negb (i =? r).
Proof.
  intros Hr Hi.
  assert (E : B - 1 - 2 ^ r = Z.lxor (Z.ones 32) (2 ^ r)).
  { assert (Hs : B - 1 - 2 ^ r = Z.ones 32 - 2 ^ r) by (rewrite Z.ones_equiv, B_eq; lia). rewrite Hs.
    rewrite Z.sub_nocarry_ldiff; [|].
    - apply Z.bits_inj'; intros n Hn. rewrite Z.ldiff_spec, Z.lxor_spec.
      destruct (Z.eq_dec r n) as [<-|Hne].
      + rewrite Z.pow2_bits_true, Z.ones_spec_low by lia. reflexivity.
      + rewrite Z.pow2_bits_false by lia. rewrite andb_true_r, xorb_false_r. reflexivity.
    - apply Z.bits_inj'; intros n Hn. rewrite Z.ldiff_spec, Z.bits_0.
      destruct (Z.eq_dec r n) as [<-|Hne].
      + rewrite Z.ones_spec_low by lia. apply andb_false_r.
      + rewrite Z.pow2_bits_false by lia. reflexivity. }
  rewrite E, Z.lxor_spec, Z.ones_spec_low by lia.
  destruct (Z.eqb_spec i r) as [->|Hne]; [rewrite Z.pow2_bits_true by lia; reflexivity|].
  rewrite Z.pow2_bits_false by lia. reflexivity.
Qed.

Lemma set_bit_word w r v : 0 <= w < B -> 0 <= r < 32 ->
  let w' := if v : bool then Z.lor w (2 ^ r) else Z.land w (B - 1 - 2 ^ r) in
  0 <= w' < B /\ forall i, 0 <= i < 32 -> Z.testbit w' i = if i =? r then v else Z.testbit w i.
Proof.
  intros Hw Hr w'. rewrite <- B_eq in Hw. assert (0 < 2 ^ r < 2 ^ 32) by (split; [apply Z.pow_pos_nonneg; lia|apply Z.pow_lt_mono_r; lia]).
  split.
  - rewrite <- B_eq. unfold w'. destruct v; [apply lor_range; lia|apply land_range; rewrite <- ?B_eq; lia].
  - intros i Hi. unfold w'. destruct v.
    + rewrite Z.lor_spec. destruct (Z.eqb_spec i r) as [->|Hne]; [rewrite Z.pow2_bits_true by lia; apply orb_true_r|].
      rewrite Z.pow2_bits_false by lia. apply orb_false_r.
    + rewrite Z.land_spec, lnot_mask by lia. destruct (i =? r); [apply andb_false_r|apply andb_true_r].
Qed.

Lemma eval_set_bit l q r v : all_words l -> (q < length l)%nat -> 0 <= r < 32 ->
  let w := nth q l 0 in
  let l' := set_word l q (if v : bool then Z.lor w (2 ^ r) else Z.land w (B - 1 - 2 ^ r)) in
  all_words l' /\ forall i, 0 <= i -> Z.testbit (eval l') i = if i =? 32 * Z.of_nat q + r then v else Z.testbit (eval l) i.
Proof.
  intros W Hq Hr w l'. destruct (set_bit_word w r v (word_nth l q W) Hr) as (Rw & Bw).
  assert (W' : all_words l') by (apply set_word_words; assumption).
  split; [exact W'|]. intros i Hi. rewrite !eval_testbit by assumption. unfold l'. rewrite set_word_nth by assumption.
  pose proof (Z.div_mod i 32 ltac:(lia)) as E. pose proof (Z.mod_pos_bound i 32 ltac:(lia)) as Hm.
  pose proof (Z.div_pos i 32 Hi ltac:(lia)).
  destruct (Nat.eqb_spec (Z.to_nat (i / 32)) q) as [Eq|Ne].
  - rewrite Bw by lia. rewrite Eq. fold w. destruct (Z.eqb_spec (i mod 32) r), (Z.eqb_spec i (32 * Z.of_nat q + r)); try lia; reflexivity.
  - destruct (Z.eqb_spec i (32 * Z.of_nat q + r)); [exfalso; apply Ne; lia|reflexivity].
Qed.

Lemma firstn_set_word l n q w : firstn n (set_word l q w) = set_word (firstn n l) q w.
Proof. revert n q; induction l as [|a t IH]; intros [|n] [|q]; cbn; try reflexivity. f_equal. apply IH. Qed.

Lemma set_bit_spec c x i v : valid c x -> 0 <= i < 32 * Z.of_nat (size x) ->
  exists r, set_bit c x i v = Ok r /\ valid c r /\
    (forall j, 0 <= j -> Z.testbit (magnitude r) j = if j =? i then v else Z.testbit (magnitude x) j) /\
    (magnitude r <> 0 -> neg r = neg x).
Proof.
  intros Hx Hi. pose proof Hx as ((Wm & Hc) & Hs & Ht). unfold set_bit.
  pose proof (Z.div_mod i 32 ltac:(lia)) as E. pose proof (Z.mod_pos_bound i 32 ltac:(lia)) as Hm.
  pose proof (Z.div_pos i 32 ltac:(lia) ltac:(lia)) as Hd.
  set (q := Z.to_nat (i / 32)) in *. set (r := i mod 32) in *.
  assert (Hq : (q < size x)%nat) by lia.
  replace (Nat.ltb (size x) (S q)) with false by (symmetry; apply Nat.ltb_ge; lia).
  replace (Nat.ltb (length (mem x)) (S q)) with false by (symmetry; apply Nat.ltb_ge; lia). cbn [andb].
  rewrite mask_spec by assumption.
  set (w' := if v then Z.lor (nth q (mem x) 0) (2 ^ r) else Z.land (nth q (mem x) 0) (B - 1 - 2 ^ r)).
  destruct (set_bit_word (nth q (mem x) 0) r v (word_nth _ _ Wm) Hm) as (Rw & Bw). fold w' in Rw, Bw.
  set (x' := mk (set_word (mem x) q w') (size x) (neg x)).
  assert (Hst : storage_ok c x').
  { unfold x'. split; cbn [mem]; [apply set_word_words; assumption|]. destruct c; rewrite set_word_length; assumption. }
  assert (Hbits : forall j, 0 <= j -> Z.testbit (magnitude x') j = if j =? i then v else Z.testbit (magnitude x) j).
  { intros j Hj. unfold magnitude, x'. cbn [mem size]. rewrite firstn_set_word. unfold w'.
    assert (En : nth q (mem x) 0 = nth q (firstn (size x) (mem x)) 0) by (symmetry; apply nth_firstn_lt; assumption).
    rewrite En. destruct (eval_set_bit (firstn (size x) (mem x)) q r v) as (_ & Hb).
    - apply words_firstn; assumption.
    - rewrite firstn_length_le; lia.
    - assumption.
    - rewrite Hb by assumption. replace (32 * Z.of_nat q + r) with i by lia. reflexivity. }
  eexists; split; [reflexivity|].
  pose proof (bit_length_spec c x Hx) as Ebl.
  destruct (Z.leb_spec (bit_length x) (i + 1)) as [Hle|Hgt].
  - (* the touched word is the top one *)
    assert (Hqs : S q = size x).
    { destruct (Nat.eq_dec (size x) 1) as [E1|E1]; [lia|].
      pose proof (magnitude_lower c x Hx ltac:(lia)) as Hl. destruct (bit_length_bounds c x Hx) as (Hu0 & Hu & _).
      rewrite Bn_pow2 in Hl.
      assert (32 * Z.of_nat (size x - 1) < bit_length x).
      { apply (Z.pow_lt_mono_r_iff 2); [lia|lia|]. apply Z.le_lt_trans with (magnitude x); assumption. }
      lia. }
    rewrite Hqs. destruct (trim_spec c x' (size x) Hst) as (Hv & Hmag & Hn & _).
    { unfold x'; cbn [mem]. rewrite set_word_length. lia. }
    change (eval (firstn (size x) (mem x'))) with (magnitude x') in *.
    split; [exact Hv|]. rewrite Hmag, Hn. split; [exact Hbits|].
    destruct (Z.eqb_spec (magnitude x') 0); [congruence|reflexivity].
  - split; [|split; [exact Hbits|reflexivity]].
    split; [exact Hst|]. unfold x'; cbn [mem size]. rewrite set_word_length. split; [lia|]. intros H1.
    rewrite set_word_nth by lia. destruct (Nat.eqb_spec (size x - 1) q) as [Eq|Ne]; [|apply Ht; lia].
    (* the top bit of the top word is untouched *)
    intros C. destruct (Z.eqb_spec (value x) 0) as [E0|E0]; [lia|].
    assert (0 < magnitude x) by (pose proof (magnitude_range c x Hx); pose proof (value_zero_iff x); lia).
    assert (Htop : Z.testbit (magnitude x) (Z.log2 (magnitude x)) = true) by (apply Z.bit_log2; assumption).
    pose proof (Z.log2_nonneg (magnitude x)) as Hlog.
    assert (Hj : 32 * Z.of_nat q <= Z.log2 (magnitude x)).
    { pose proof (magnitude_lower c x Hx ltac:(lia)) as Hl. rewrite Bn_pow2 in Hl.
      replace (Z.of_nat (size x - 1)) with (Z.of_nat q) in Hl by lia. apply Z.log2_le_pow2; lia. }
    assert (Hj2 : Z.log2 (magnitude x) < 32 * Z.of_nat (size x)).
    { apply Z.log2_lt_pow2; [assumption|]. rewrite <- Bn_pow2. apply (magnitude_range c x Hx). }
    set (j := Z.log2 (magnitude x)) in *.
    assert (Htw : Z.testbit w' (j - 32 * Z.of_nat q) = true).
    { rewrite Bw by lia. destruct (Z.eqb_spec (j - 32 * Z.of_nat q) r); [lia|].
      rewrite magnitude_words, eval_testbit in Htop by (try assumption; apply words_firstn; assumption).
      assert (Ejq : j / 32 = Z.of_nat q) by (symmetry; apply Z.div_unique with (j - 32 * Z.of_nat q); lia).
      assert (Ejr : j mod 32 = j - 32 * Z.of_nat q) by (symmetry; apply Z.mod_unique with (Z.of_nat q); lia).
      rewrite Ejq, Ejr, Nat2Z.id in Htop. rewrite nth_words in Htop by lia. exact Htop. }
    rewrite C, Z.bits_0 in Htw. discriminate.
Qed.

(** *** and / or *)
Lemma zip_words_nth f x y n : length (zip_words f x y) = Nat.min (length x) (length y) /\
  nth n (zip_words f x y) 0 = if Nat.ltb n (Nat.min (length x) (length y)) then f (nth n x 0) (nth n y 0) else 0.
Proof.
  revert y n. induction x as [|a x IH]; intros [|b y] n; cbn; split; try reflexivity; try (destruct n; reflexivity).
  - f_equal. apply (IH y n).
  - destruct n as [|n]; [reflexivity|]. destruct (IH y n) as (_ & ->). reflexivity.
Qed.
Lemma zip_words_words f x y : all_words x -> all_words y -> (forall a b, 0 <= a < B -> 0 <= b < B -> 0 <= f a b < B) ->
  all_words (zip_words f x y).
Proof.
  revert y; induction x as [|a x IH]; intros [|b y] Wx Wy Hf; cbn; try constructor.
  - apply words_cons in Wx as [? _]. apply words_cons in Wy as [? _]. unfold is_word. rewrite B_eq. apply Hf; assumption.
  - apply words_cons in Wx as [_ ?]. apply words_cons in Wy as [_ ?]. apply IH; assumption.
Qed.

Lemma lor_word a b : 0 <= a < B -> 0 <= b < B -> 0 <= Z.lor a b < B.
Proof. rewrite <- B_eq. intros. apply lor_range; lia. Qed.
Lemma land_word a b : 0 <= a < B -> 0 <= b < B -> 0 <= Z.land a b < B.
Proof. rewrite <- B_eq. intros. apply land_range; lia. Qed.

Lemma and_bit_spec c z x y : storage_ok c z -> valid c x -> valid c y ->
  valid c (and_bit z x y) /\ magnitude (and_bit z x y) = Z.land (magnitude x) (magnitude y) /\
  neg (and_bit z x y) = (if magnitude (and_bit z x y) =? 0 then false else neg z).
Proof.
  intros Hz Hx Hy. unfold and_bit. destruct (words_valid c x Hx) as (Wx & Lx & Nx). destruct (words_valid c y Hy) as (Wy & Ly & Ny).
  set (ws := zip_words Z.land (words x) (words y)).
  assert (W : all_words ws) by (apply zip_words_words; try assumption; apply land_word).
  assert (L : length ws = Nat.min (size x) (size y)) by (unfold ws; rewrite (proj1 (zip_words_nth _ _ _ 0)); congruence).
  pose proof Hx as (_ & Hsx & _). pose proof Hy as (_ & Hsy & _).
  destruct (store_spec c z ws Hz W) as (Hv & Hm & Hn & _).
  { apply nonempty_length. lia. }
  { rewrite L. apply room_le with (size x); [apply valid_size_room; assumption|lia]. }
  split; [exact Hv|]. rewrite Hn, Hm. split; [|reflexivity].
  apply Z.bits_inj'; intros i Hi. rewrite Z.land_spec, !magnitude_words, !eval_testbit by assumption.
  unfold ws. rewrite (proj2 (zip_words_nth _ _ _ _)), Lx, Ly.
  destruct (Nat.ltb_spec (Z.to_nat (i / 32)) (Nat.min (size x) (size y))) as [H|H]; [apply Z.land_spec|].
  rewrite Z.bits_0. destruct (Nat.le_gt_cases (size x) (Z.to_nat (i / 32))) as [H1|H1].
  - rewrite (nth_words_above x) by assumption. rewrite Z.bits_0. reflexivity.
  - rewrite (nth_words_above y) by lia. rewrite Z.bits_0. symmetry. apply andb_false_r.
Qed.

Lemma or_bit_core wx wy : all_words wx -> all_words wy -> (length wy <= length wx)%nat ->
  let ws := zip_words Z.lor wx wy ++ skipn (length wy) wx in
  all_words ws /\ length ws = length wx /\ eval ws = Z.lor (eval wx) (eval wy).
Proof.
  intros Wx Wy HL ws.
  assert (Lz : length (zip_words Z.lor wx wy) = length wy) by (rewrite (proj1 (zip_words_nth _ _ _ 0)); lia).
  assert (W : all_words ws).
  { apply words_app; split; [apply zip_words_words; try assumption; apply lor_word|apply words_skipn; assumption]. }
  split; [exact W|]. split; [unfold ws; rewrite app_length, skipn_length; lia|].
  apply Z.bits_inj'; intros i Hi. rewrite Z.lor_spec, !eval_testbit by assumption. unfold ws.
  set (n := Z.to_nat (i / 32)). destruct (Nat.le_gt_cases (length wy) n) as [H|H].
  - rewrite app_nth2 by lia. rewrite Lz.
    assert (E : nth (n - length wy) (skipn (length wy) wx) 0 = nth n wx 0).
    { rewrite <- (firstn_skipn (length wy) wx) at 2. rewrite app_nth2; rewrite firstn_length_le by lia; [reflexivity|lia]. }
    rewrite E, (nth_overflow wy) by lia. rewrite Z.bits_0. symmetry. apply orb_false_r.
  - rewrite app_nth1 by lia. rewrite (proj2 (zip_words_nth _ _ _ _)). rewrite Nat.min_r by lia.
    destruct (Nat.ltb_spec n (length wy)); [apply Z.lor_spec|lia].
Qed.

Lemma zip_words_comm f x y : (forall a b, f a b = f b a) -> zip_words f x y = zip_words f y x.
Proof. intros Hf. revert y; induction x as [|a x IH]; intros [|b y]; cbn; try reflexivity. rewrite Hf, IH. reflexivity. Qed.

Lemma or_bit_spec c z x y : storage_ok c z -> valid c x -> valid c y ->
  valid c (or_bit z x y) /\ magnitude (or_bit z x y) = Z.lor (magnitude x) (magnitude y) /\
  neg (or_bit z x y) = (if magnitude (or_bit z x y) =? 0 then false else neg z).
Proof.
  intros Hz Hx Hy. unfold or_bit. destruct (words_valid c x Hx) as (Wx & Lx & Nx). destruct (words_valid c y Hy) as (Wy & Ly & Ny).
  set (ws := let '(px, py) := if Nat.ltb (size x) (size y) then (y, x) else (x, y) in
    zip_words Z.lor (words x) (words y) ++ skipn (size py) (words px)).
  assert (E : (let '(px, py) := if Nat.ltb (size x) (size y) then (y, x) else (x, y) in
    store z (zip_words Z.lor (words x) (words y) ++ skipn (size py) (words px))) = store z ws).
  { unfold ws. destruct (Nat.ltb (size x) (size y)); reflexivity. }
  rewrite E.
  assert (H : all_words ws /\ length ws = Nat.max (size x) (size y) /\ eval ws = Z.lor (magnitude x) (magnitude y)).
  { unfold ws. destruct (Nat.ltb_spec (size x) (size y)) as [H|H].
    - rewrite (zip_words_comm Z.lor) by apply Z.lor_comm. rewrite <- Lx.
      destruct (or_bit_core (words y) (words x) Wy Wx ltac:(lia)) as (A & L & Ee). cbv zeta in *.
      split; [exact A|]. split; [lia|]. rewrite Ee, Z.lor_comm. reflexivity.
    - rewrite <- Ly. destruct (or_bit_core (words x) (words y) Wx Wy ltac:(lia)) as (A & L & Ee). cbv zeta in *.
      split; [exact A|]. split; [lia|]. rewrite Ee. reflexivity. }
  destruct H as (W & L & Ev). pose proof Hx as (_ & Hsx & _).
  destruct (store_spec c z ws Hz W) as (Hv & Hm & Hn & _).
  { apply nonempty_length. lia. }
  { rewrite L. destruct (Nat.max_spec (size x) (size y)) as [[_ ->]|[_ ->]]; apply valid_size_room; assumption. }
  split; [exact Hv|]. rewrite Hn, Hm, Ev. auto.
Qed.

Lemma or_bitu1_spec c x y : valid c x -> 0 <= y < B ->
  valid c (or_bitu1 x y) /\ magnitude (or_bitu1 x y) = Z.lor (magnitude x) y /\ neg (or_bitu1 x y) = neg x.
Proof.
  intros Hx Hy. pose proof Hx as ((Wm & Hc) & Hs & Ht). pose proof (word0_range c x Hx) as Hw.
  destruct (mem x) as [|a m] eqn:Em; [cbn in Hs; lia|].
  assert (Ew : word0 x = a) by (unfold word0; rewrite Em; reflexivity).
  unfold or_bitu1. rewrite Em, Ew in *. cbn [skipn]. apply words_cons in Wm as [Wa Wt].
  split; [|split; [|reflexivity]].
  - split; cbn [mem size neg].
    + split; cbn [mem]; [apply words_cons; split; [apply lor_word; assumption|assumption]|]. destruct c; cbn [length] in *; assumption.
    + split; [cbn [length] in *; lia|]. intros H. specialize (Ht H).
      destruct (size x - 1)%nat eqn:E; [lia|]. exact Ht.
  - unfold magnitude. cbn [mem size]. rewrite Em. destruct (size x) as [|k]; [lia|]. cbn [firstn]. rewrite !eval_cons.
    rewrite <- B_eq in *.
    pose proof (lor_split a y (eval (firstn k m)) 0 32 ltac:(lia) ltac:(lia) ltac:(lia)) as H.
    rewrite Z.mul_0_r, Z.add_0_r, Z.lor_0_r in H. symmetry. exact H.
Qed.

Lemma and_bitu1_spec c z x y : storage_ok c z -> valid c x -> 0 <= y < B ->
  canonical c (and_bitu1 z x y) /\ value (and_bitu1 z x y) = Z.land (magnitude x) y.
Proof.
  intros (Wz & Hcz) Hx Hy. pose proof (word0_range c x Hx) as Hw. pose proof (valid_room1 c x Hx) as Hr1.
  assert (Hl : 0 <= Z.land (word0 x) y < B) by (apply land_word; assumption).
  unfold and_bitu1. split; [split; [|reflexivity]|].
  - split; [split|]; cbn [mem size].
    + apply words_cons; split; [assumption|apply words_skipn; assumption].
    + cbn [length]. rewrite skipn_length. destruct c; cbn in *; lia.
    + split; [cbn [length]; lia|intros; lia].
  - unfold value, magnitude. cbn [neg mem size firstn]. rewrite eval_single.
    rewrite (word0_mod c x Hx). rewrite <- B_eq in *. rewrite <- Z.land_ones by lia.
    apply Z.bits_inj'; intros i Hi. rewrite !Z.land_spec. fold (magnitude x).
    destruct (Z_lt_le_dec i 32).
    + rewrite Z.ones_spec_low by lia. rewrite andb_true_r. reflexivity.
    + rewrite (testbit_above y 32 i) by lia. rewrite !andb_false_r. reflexivity.
Qed.

(** *** get_int32 *)
Lemma get_int32_spec c x : valid c x -> - 2 ^ 31 < value x < 2 ^ 31 -> get_int32 x = Some (value x).
Proof.
  intros Hx Hr. pose proof (magnitude_range c x Hx) as Rm. unfold get_int32. pose proof Hx as (_ & Hs & _).
  assert (Hm : magnitude x < 2 ^ 31) by (rewrite value_sgn in Hr; destruct (neg x); cbn [sgn] in Hr; lia).
  assert (H1 : size x = 1%nat).
  { assert ((size x <= 1)%nat); [|lia]. apply (size_le_iff c x 1 Hx); [lia|]. rewrite Bn_1, <- B_eq. change (2 ^ 31) with 2147483648 in *. lia. }
  rewrite H1. cbn [Nat.ltb Nat.leb Nat.eqb]. rewrite <- (size1 c x Hx H1). rewrite (is_negative_spec c x Hx). unfold to_int32.
  destruct (Z.ltb_spec (magnitude x) (2 ^ 31)); [|lia]. f_equal. rewrite value_sgn. destruct (neg x); cbn [sgn]; dif; lia.
Qed.
