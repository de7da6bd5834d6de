From Coq Require Import List ZArith Bool Lia PeanoNat.
From Coq Require Import ZifyBool ZifyNat ZifyN.
From Verif Require Import Outcome LoopModel LoopProofs BitLemmas WordsModel WordsSpec WordsProofs DivProofs
  BigintModel BigintSpec.
Import ListNotations.
Open Scope Z_scope.

Ltac dif := repeat match goal with |- context [if ?b then _ else _] => let E := fresh "Eb" in destruct b eqn:E end.

Definition sgn (s : bool) (v : Z) : Z := if s then - v else v.
Lemma value_sgn x : value x = sgn (neg x) (magnitude x). Proof. reflexivity. Qed.

Lemma room_can c n : room c n <-> can_resize c n = true.
Proof. destruct c; cbn; [rewrite Nat.leb_le; reflexivity|split; auto]. Qed.

Lemma room_le c n m : room c n -> (m <= n)%nat -> room c m.
Proof. destruct c; cbn; [lia|auto]. Qed.

Lemma valid_storage c x : valid c x -> storage_ok c x.
Proof. intros [H _]; exact H. Qed.

Lemma words_valid c x : valid c x -> all_words (words x) /\ length (words x) = size x /\ words x <> [].
Proof.
  intros ((Hw & _) & Hs & _). unfold words. repeat split.
  - apply words_firstn; assumption.
  - apply firstn_length_le; lia.
  - intros C. apply (f_equal (@length Z)) in C. rewrite firstn_length_le in C by lia. cbn in C. lia.
Qed.

Lemma magnitude_words x : magnitude x = eval (words x). Proof. reflexivity. Qed.

Lemma magnitude_range c x : valid c x -> 0 <= magnitude x < Bn (size x).
Proof.
  intros H. destruct (words_valid c x H) as (W & L & _). rewrite magnitude_words, <- L. apply eval_range; assumption.
Qed.

Lemma nth_last_words c x : valid c x -> last (words x) 0 = nth (size x - 1) (mem x) 0.
Proof.
  intros H. destruct (words_valid c x H) as (W & L & N). destruct (exists_snoc _ N) as (l & a & E).
  rewrite E, last_snoc. assert (Ll : size x = S (length l)) by (rewrite <- L, E, app_length; cbn; lia).
  rewrite <- (firstn_skipn (size x) (mem x)). change (firstn (size x) (mem x)) with (words x).
  rewrite E, <- app_assoc. rewrite app_nth2 by lia. replace (size x - 1 - length l)%nat with 0%nat by lia. reflexivity.
Qed.

Lemma magnitude_lower c x : valid c x -> (1 < size x)%nat -> Bn (size x - 1) <= magnitude x.
Proof.
  intros H Hs. destruct (words_valid c x H) as (W & L & N). destruct (last_bounds _ W N) as (R & R1).
  rewrite (nth_last_words c x H) in *. destruct H as (_ & _ & Ht). specialize (Ht Hs).
  rewrite magnitude_words. rewrite L in R1. pose proof (Bn_pos (size x - 1)). nia.
Qed.

Lemma word0_words c x : valid c x -> exists t, words x = word0 x :: t.
Proof.
  intros H. destruct (words_valid c x H) as (W & L & N). unfold words, word0 in *.
  destruct H as (_ & Hs & _). destruct (mem x) as [|a m]; [cbn in Hs; lia|].
  destruct (size x); [lia|]. cbn. eauto.
Qed.

Lemma word0_range c x : valid c x -> 0 <= word0 x < B.
Proof.
  intros H. destruct (word0_words c x H) as (t & E). destruct (words_valid c x H) as (W & _).
  rewrite E in W. apply words_cons in W. tauto.
Qed.

Lemma word0_mod c x : valid c x -> word0 x = magnitude x mod B.
Proof.
  intros H. pose proof (word0_range c x H). destruct (word0_words c x H) as (t & E).
  rewrite magnitude_words, E, eval_cons. rewrite Z.mul_comm, Z_mod_plus_full. symmetry. apply Z.mod_small. assumption.
Qed.

Lemma size1 c x : valid c x -> (size x = 1)%nat -> magnitude x = word0 x.
Proof.
  intros H Hs. rewrite (word0_mod c x H). symmetry. apply Z.mod_small.
  pose proof (magnitude_range c x H). rewrite Hs, Bn_1 in *. assumption.
Qed.

Lemma size_gt1 c x : valid c x -> (1 < size x)%nat -> B <= magnitude x.
Proof.
  intros H Hs. pose proof (magnitude_lower c x H Hs). rewrite <- Bn_1.
  pose proof (Bn_mono 1 (size x - 1) ltac:(lia)). lia.
Qed.

Lemma size_le_iff c x k : valid c x -> (1 <= k)%nat -> ((size x <= k)%nat <-> magnitude x < Bn k).
Proof.
  intros H Hk. pose proof (magnitude_range c x H). split; intros Hs.
  - pose proof (Bn_mono _ _ Hs). lia.
  - destruct (Nat.le_gt_cases (size x) k) as [|Hgt]; [assumption|].
    pose proof (magnitude_lower c x H ltac:(lia)).
    pose proof (Bn_mono k (size x - 1) ltac:(lia)). lia.
Qed.

Lemma valid_size_room c x : valid c x -> room c (size x).
Proof. intros ((_ & Hc) & Hs & _). destruct c; cbn in *; [lia|exact I]. Qed.

(** *** predicates *)
Lemma is_zero_spec c x : valid c x -> is_zero x = (magnitude x =? 0).
Proof.
  intros H. unfold is_zero. destruct (Nat.eqb_spec (size x) 1) as [E|E]; cbn [andb].
  - rewrite (size1 c x H E). reflexivity.
  - pose proof (size_gt1 c x H). pose proof B_pos. destruct H as (_ & Hs & _). lia.
Qed.

Lemma is_one_spec c x : valid c x -> is_one x = (value x =? 1).
Proof.
  intros H. unfold is_one. rewrite value_sgn. destruct (Nat.eqb_spec (size x) 1) as [E|E]; cbn [andb].
  - rewrite <- (size1 c x H E). pose proof (magnitude_range c x H). destruct (neg x); cbn; lia.
  - pose proof (size_gt1 c x H). pose proof B_pos. destruct H as (_ & Hs & _). destruct (neg x); cbn; lia.
Qed.

Lemma is_negative_spec c x : valid c x -> is_negative x = (value x <? 0).
Proof.
  intros H. unfold is_negative. rewrite (is_zero_spec c x H), value_sgn. pose proof (magnitude_range c x H).
  destruct (neg x); cbn; lia.
Qed.

Lemma B_even_mod v : v mod B mod 2 = v mod 2.
Proof.
  rewrite B_val. pose proof (Z.div_mod v 4294967296 ltac:(lia)) as E. 
  rewrite E at 2. rewrite Z.add_comm. replace (4294967296 * (v / 4294967296)) with ((2147483648 * (v / 4294967296)) * 2) by lia.
  rewrite Z_mod_plus_full. reflexivity.
Qed.

Lemma is_odd_spec c x : valid c x -> is_odd x = Z.odd (value x).
Proof.
  intros H. unfold is_odd. rewrite (word0_mod c x H).
  change 1 with (Z.ones 1) at 1. rewrite Z.land_ones by lia. change (2 ^ 1) with 2. rewrite B_even_mod.
  assert (E : Z.odd (value x) = Z.odd (magnitude x)).
  { rewrite value_sgn. unfold sgn. destruct (neg x); [apply Z.odd_opp|reflexivity]. }
  rewrite E, Zmod_odd. destruct (Z.odd (magnitude x)); reflexivity.
Qed.

(** *** trim / put / store *)
Lemma nth0_firstn (l : list Z) n : (1 <= n)%nat -> nth 0 (firstn n l) 0 = nth 0 l 0.
Proof. destruct l, n; intros; try lia; reflexivity. Qed.

Lemma trim_spec c x n : storage_ok c x -> (1 <= n <= length (mem x))%nat ->
  valid c (trim x n) /\ magnitude (trim x n) = eval (firstn n (mem x)) /\
  neg (trim x n) = (if eval (firstn n (mem x)) =? 0 then false else neg x) /\ mem (trim x n) = mem x /\
  (size (trim x n) <= n)%nat.
Proof.
  intros (Hw & Hc) Hn. destruct n as [|n']; [lia|]. set (n := S n') in *.
  change (trim x n) with (let k := get_real_size (firstn n (mem x)) in
      mk (mem x) k (if Nat.eqb k 1 && (word0 x =? 0) then false else neg x)). cbv zeta.
  assert (Ln : length (firstn n (mem x)) = n) by (apply firstn_length_le; lia).
  assert (Nn : firstn n (mem x) <> []) by (intros C; rewrite C in Ln; cbn in Ln; lia).
  destruct (get_real_size_spec _ Nn) as (Hr & Ex & Ht & Er). rewrite Ln in *.
  set (k := get_real_size (firstn n (mem x))) in *.
  assert (Ek : firstn k (firstn n (mem x)) = firstn k (mem x)) by (rewrite firstn_firstn, Nat.min_l by lia; reflexivity).
  assert (Hv : valid c (mk (mem x) k (if Nat.eqb k 1 && (word0 x =? 0) then false else neg x))).
  { split; [split; assumption|]. cbn [mem size]. split; [lia|]. intros Hk. specialize (Ht ltac:(lia)).
    intros C. apply Ht. etransitivity; [|exact C].
    rewrite <- (firstn_skipn n (mem x)) at 2. rewrite app_nth1 by lia. reflexivity. }
  assert (Em : magnitude (mk (mem x) k (if Nat.eqb k 1 && (word0 x =? 0) then false else neg x)) = eval (firstn n (mem x))).
  { unfold magnitude. cbn [mem size]. rewrite Er, Ek. reflexivity. }
  split; [assumption|]. split; [assumption|]. split; [|split; [reflexivity|cbn [size]; lia]].
  cbn [neg]. rewrite <- Em, <- (is_zero_spec c _ Hv). reflexivity.
Qed.

Lemma put_mem x ws : mem (put x ws) = ws ++ skipn (length ws) (mem x). Proof. reflexivity. Qed.

Lemma put_storage c x ws : storage_ok c x -> all_words ws -> room c (length ws) ->
  storage_ok c (put x ws) /\ firstn (length ws) (mem (put x ws)) = ws /\ (length ws <= length (mem (put x ws)))%nat.
Proof.
  intros (Hw & Hc) Hws Hr. rewrite put_mem. repeat split.
  - rewrite put_mem. apply words_app; split; [assumption|apply words_skipn; assumption].
  - rewrite put_mem, app_length, skipn_length. destruct c; cbn in *; lia.
  - rewrite firstn_app, Nat.sub_diag, firstn_O, app_nil_r. apply firstn_all.
  - rewrite app_length; lia.
Qed.

Lemma set_neg_storage c x s : storage_ok c (set_neg x s) <-> storage_ok c x. Proof. reflexivity. Qed.
Lemma set_neg_valid c x s : valid c (set_neg x s) <-> valid c x. Proof. reflexivity. Qed.
Lemma set_neg_mag x s : magnitude (set_neg x s) = magnitude x. Proof. reflexivity. Qed.
Lemma set_neg_neg x s : neg (set_neg x s) = s. Proof. reflexivity. Qed.
Lemma set_neg_value x s : value (set_neg x s) = sgn s (magnitude x). Proof. reflexivity. Qed.

(** [trim (set_neg (put z ws) s) (length ws)] *)
Lemma put_trim_spec c z ws s : storage_ok c z -> all_words ws -> ws <> [] -> room c (length ws) ->
  let r := trim (set_neg (put z ws) s) (length ws) in
  valid c r /\ magnitude r = eval ws /\ neg r = (if eval ws =? 0 then false else s) /\ (size r <= length ws)%nat.
Proof.
  intros Hz Hws Hn Hr r. destruct (put_storage c z ws Hz Hws Hr) as (Hs & Hf & Hl).
  assert (1 <= length ws)%nat by (destruct ws; [congruence|cbn; lia]).
  destruct (trim_spec c (set_neg (put z ws) s) (length ws) Hs) as (Hv & Hm & Hg & _ & Hsz).
  { cbn [mem set_neg]. lia. }
  cbn [mem set_neg neg] in *. change (ws ++ skipn (length ws) (mem z)) with (mem (put z ws)) in *. rewrite Hf in *.
  subst r. repeat split; try assumption; try apply Hv. 
Qed.

Lemma put_set_neg z ws : put z ws = set_neg (put z ws) (neg z). Proof. reflexivity. Qed.

Lemma store_spec c z ws : storage_ok c z -> all_words ws -> ws <> [] -> room c (length ws) ->
  valid c (store z ws) /\ magnitude (store z ws) = eval ws /\
  neg (store z ws) = (if eval ws =? 0 then false else neg z) /\ (size (store z ws) <= length ws)%nat.
Proof.
  intros. unfold store. rewrite put_set_neg. apply put_trim_spec; assumption.
Qed.

(** *** assignment *)
Lemma storage_nonempty c z : storage_ok c z -> room c 1 -> match c with Fixed _ => (1 <= length (mem z))%nat | Flex _ => True end.
Proof. intros (_ & H) Hr. destruct c; cbn in *; lia. Qed.

Lemma assign_word_spec c z w : storage_ok c z -> room c 1 -> 0 <= w < B ->
  valid c (assign_word z w) /\ magnitude (assign_word z w) = w /\ neg (assign_word z w) = false /\ size (assign_word z w) = 1%nat.
Proof.
  intros (Hw & Hc) Hr Hb. unfold assign_word. repeat split; cbn [mem size].
  - apply words_cons; split; [assumption|apply words_skipn; assumption].
  - cbn [length]. rewrite skipn_length. destruct c; cbn in *; lia.
  - lia.
  - cbn [length]; lia.
  - intros C; lia.
  - unfold magnitude. cbn [mem size firstn]. apply eval_single.
Qed.

Lemma cabs32_spec x : cabs32 x = Z.abs x.
Proof. unfold cabs32. destruct (0 <=? x) eqn:E1, (x =? -2147483648) eqn:E2; lia. Qed.
Lemma cabs64_spec x : cabs64 x = Z.abs x.
Proof. unfold cabs64. destruct (0 <=? x) eqn:E1, (x =? -9223372036854775808) eqn:E2; lia. Qed.

Definition int32 (x : Z) : Prop := - 2 ^ 31 <= x < 2 ^ 31.
Lemma int32_abs x : int32 x -> 0 <= Z.abs x < B.
Proof. unfold int32. rewrite B_val. change (2 ^ 31) with 2147483648. lia. Qed.

Lemma assign_int_spec c z x : storage_ok c z -> room c 1 -> Z.abs x < B ->
  valid c (assign_int z x) /\ value (assign_int z x) = x /\ canonical c (assign_int z x) /\ size (assign_int z x) = 1%nat /\
  neg (assign_int z x) = (x <? 0) /\ magnitude (assign_int z x) = Z.abs x.
Proof.
  intros Hz Hr Hx. unfold assign_int. rewrite cabs32_spec.
  destruct (assign_word_spec c z (Z.abs x) Hz Hr) as (Hv & Hm & Hn & Hs). { lia. }
  assert (Ev : value (set_neg (assign_word z (Z.abs x)) (x <? 0)) = x).
  { rewrite set_neg_value, Hm. unfold sgn. destruct (Z.ltb_spec x 0); lia. }
  split; [exact Hv|]. split; [exact Ev|]. split; [split; [exact Hv|]|].
  - rewrite Ev. intros ->. reflexivity.
  - split; [exact Hs|]. split; [reflexivity|]. rewrite set_neg_mag. exact Hm.
Qed.

Lemma clear_spec c z : storage_ok c z -> room c 1 ->
  valid c (clear z) /\ value (clear z) = 0 /\ canonical c (clear z) /\ neg (clear z) = false /\ magnitude (clear z) = 0.
Proof.
  intros Hz Hr. pose proof B_pos. destruct (assign_int_spec c z 0 Hz Hr) as (? & ? & ? & ? & ? & ?); [lia|].
  unfold clear. repeat split; try assumption; try apply H0; try apply H1; try apply H2.
Qed.

Lemma storage0_ok c : storage_ok c (fresh c).
Proof.
  unfold fresh, storage_ok. cbn [mem]. destruct c; cbn [storage0]; rewrite repeat_length; split; auto using words_repeat0.
Qed.

Lemma zero_spec c : room c 1 -> valid c (zero c) /\ value (zero c) = 0 /\ neg (zero c) = false /\ magnitude (zero c) = 0.
Proof.
  intros Hr. pose proof B_pos. unfold zero, of_int. destruct (assign_int_spec c (fresh c) 0 (storage0_ok c) Hr) as (? & ? & ? & ? & ? & ?); [lia|].
  auto.
Qed.

Lemma assign_u64_spec c z x : storage_ok c z -> room c 2 -> 0 <= x < W64 ->
  exists r, assign_u64 c z x = Ok r /\ valid c r /\ value r = x /\ neg r = false /\ magnitude r = x.
Proof.
  intros Hz Hr Hx. unfold assign_u64. rewrite (proj1 (room_can c 2) Hr). rewrite W64_val in Hx. pose proof B_pos.
  eexists; split; [reflexivity|].
  assert (Hd : 0 <= x / B < B) by (split; [apply Z.div_pos; lia|apply Z.div_lt_upper_bound; lia]).
  pose proof (Z.mod_pos_bound x B ltac:(lia)). pose proof (Z.div_mod x B ltac:(lia)).
  assert (Hws : all_words [x mod B; x / B]) by (apply words_cons; split; [assumption|apply words_cons; split; [assumption|constructor]]).
  set (r := trim _ _).
  assert (Hcore : valid c r /\ magnitude r = x /\ neg r = false).
  { subst r. destruct (Z.eqb_spec (x / B) 0) as [E|E].
    - destruct (put_storage c z _ Hz Hws Hr) as (Hs & Hf & Hl). cbn [length] in Hl.
      destruct (trim_spec c (set_neg (put z [x mod B; x / B]) false) 1 Hs) as (Hv & Hm & Hg & _ & _).
      { cbn [set_neg mem]. lia. }
      split; [exact Hv|]. split.
      + rewrite Hm. cbn [set_neg mem put app firstn]. rewrite eval_single. rewrite E in *. lia.
      + rewrite Hg. cbn [set_neg neg]. destruct (_ =? 0); reflexivity.
    - destruct (put_trim_spec c z _ false Hz Hws ltac:(discriminate) Hr) as (Hv & Hm & Hg & _). cbn [length] in *.
      split; [exact Hv|]. split.
      + rewrite Hm, eval_cons, eval_single. lia.
      + rewrite Hg. destruct (_ =? 0); reflexivity. }
  destruct Hcore as (Hv & Hm & Hg). repeat split; try apply Hv; try assumption. rewrite value_sgn, Hg, Hm. reflexivity.
Qed.

Lemma assign_i64_spec c z x : storage_ok c z -> room c 2 -> - 2 ^ 63 <= x < 2 ^ 63 ->
  exists r, assign_i64 c z x = Ok r /\ valid c r /\ value r = x /\ neg r = (x <? 0) /\ magnitude r = Z.abs x.
Proof.
  intros Hz Hr Hx. unfold assign_i64. rewrite cabs64_spec.
  destruct (assign_u64_spec c z (Z.abs x) Hz Hr) as (r & -> & Hv & Hval & Hn & Hm).
  { rewrite W64_val, B_val. change (2 ^ 63) with 9223372036854775808 in Hx. lia. }
  cbn [bind]. eexists; split; [reflexivity|]. split; [exact Hv|]. rewrite set_neg_value, Hm. repeat split; try assumption.
  unfold sgn. destruct (Z.ltb_spec x 0); lia.
Qed.

(** *** magnitude comparison *)
Lemma ucompare_spec c x y : valid c x -> valid c y -> cmp_result (ucompare x y) (magnitude x) (magnitude y).
Proof.
  intros Hx Hy. unfold ucompare, cmp_result. destruct (words_valid c x Hx) as (Wx & Lx & _). destruct (words_valid c y Hy) as (Wy & Ly & _).
  pose proof (magnitude_range c x Hx). pose proof (magnitude_range c y Hy).
  destruct (Nat.eqb_spec (size x) (size y)) as [E|E].
  - rewrite cmp_n_spec by (try assumption; congruence). rewrite <- !magnitude_words.
    destruct (Z.compare_spec (magnitude x) (magnitude y)); lia.
  - destruct (Nat.ltb_spec (size y) (size x)) as [E1|E1].
    + left. split; [reflexivity|]. destruct Hy as (_ & Hs & _).
      pose proof (magnitude_lower c x Hx ltac:(lia)). pose proof (Bn_mono (size y) (size x - 1) ltac:(lia)). lia.
    + right; right. split; [reflexivity|]. destruct Hx as (_ & Hs & _).
      pose proof (magnitude_lower c y Hy ltac:(lia)). pose proof (Bn_mono (size x) (size y - 1) ltac:(lia)). lia.
Qed.

Lemma compare_spec c x y : valid c x -> valid c y -> cmp_result (compare x y) (value x) (value y).
Proof.
  intros Hx Hy. unfold compare. rewrite (is_zero_spec c x Hx), (is_zero_spec c y Hy), (is_one_spec c x Hx), (is_one_spec c y Hy).
  pose proof (ucompare_spec c x y Hx Hy) as Hu. unfold cmp_result in *. rewrite !value_sgn in *.
  pose proof (magnitude_range c x Hx). pose proof (magnitude_range c y Hy).
  destruct (neg x), (neg y); cbn [xorb sgn] in *; dif; lia.
Qed.

Lemma compares1_spec c x y : valid c x -> int32 y -> cmp_result (compares1 x y) (value x) y.
Proof.
  intros Hx Hy. unfold compares1. rewrite (is_zero_spec c x Hx), (is_one_spec c x Hx), cabs32_spec.
  pose proof (int32_abs y Hy) as Hab. pose proof (magnitude_range c x Hx).
  assert (Hc : cmp_result (if Nat.ltb 1 (size x) then 1 else cmp_n [word0 x] [Z.abs y]) (magnitude x) (Z.abs y)).
  { unfold cmp_result. destruct (Nat.ltb_spec 1 (size x)).
    - pose proof (size_gt1 c x Hx ltac:(lia)). lia.
    - destruct Hx as (H1 & H2 & H3). pose proof (word0_range c x (conj H1 (conj H2 H3))).
      rewrite (size1 c x (conj H1 (conj H2 H3)) ltac:(lia)).
      rewrite cmp_n_spec by (try reflexivity; apply words_cons; (split; [lia|constructor])).
      rewrite !eval_single. destruct (Z.compare_spec (word0 x) (Z.abs y)); lia. }
  unfold cmp_result in *. rewrite !value_sgn. destruct (neg x), (Z.ltb_spec y 0); cbn [xorb sgn] in *; revert Hc; dif; lia.
Qed.

Lemma compareu1_spec c x y : valid c x -> 0 <= y < B -> (value x = 0 -> neg x = false) -> cmp_result (compareu1 x y) (value x) y.
Proof.
  intros Hx Hy Hnz. unfold compareu1, cmp_result. rewrite value_sgn in *. pose proof (magnitude_range c x Hx).
  destruct (neg x); cbn [sgn] in *.
  - destruct (Z.eq_dec (magnitude x) 0); [lia|]. lia.
  - destruct (Nat.ltb_spec 1 (size x)).
    + pose proof (size_gt1 c x Hx ltac:(lia)). lia.
    + destruct Hx as (H1 & H2 & H3). rewrite (size1 c x (conj H1 (conj H2 H3)) ltac:(lia)).
      destruct (Z.gtb_spec (word0 x) y), (Z.eqb_spec (word0 x) y); lia.
Qed.

(** *** addition and subtraction of magnitudes *)
Lemma uadd_words_spec x y : all_words x -> all_words y -> x <> [] -> y <> [] ->
  all_words (uadd_words x y) /\ length (uadd_words x y) = (Nat.max (length x) (length y) + 1)%nat /\
  eval (uadd_words x y) = eval x + eval y.
Proof.
  assert (Hcore : forall x y, all_words x -> all_words y -> (length y <= length x)%nat -> y <> [] ->
    let r := (let yn := length y in
      let '(lo, c) := add_n (firstn yn x) y in
      if Nat.ltb yn (length x) then let '(hi, c') := add_word (skipn yn x) c in lo ++ hi ++ [c'] else lo ++ [c]) in
    all_words r /\ length r = (length x + 1)%nat /\ eval r = eval x + eval y).
  { clear. intros x y Wx Wy HL Ny. cbv zeta. pose proof B_pos.
    assert (Lf : length (firstn (length y) x) = length y) by (apply firstn_length_le; assumption).
    pose proof (add_n_spec (firstn (length y) x) y (words_firstn _ _ Wx) Wy Lf) as Ha.
    destruct (add_n (firstn (length y) x) y) as [lo c]. destruct Ha as (Wl & Ll & Hc & E). rewrite Lf in *.
    pose proof (eval_split (length y) x HL) as Es.
    destruct (Nat.ltb_spec (length y) (length x)) as [H1|H1].
    - pose proof (add_word_spec (skipn (length y) x) c (words_skipn _ _ Wx) ltac:(lia)) as Hb.
      destruct (add_word (skipn (length y) x) c) as [hi c'].
      destruct Hb as (Wh & Lh & Hc' & E2).
      { intros C. apply (f_equal (@length Z)) in C. rewrite skipn_length in C. cbn in C. lia. }
      rewrite skipn_length in *. repeat split.
      + apply words_app; split; [assumption|]. apply words_app; split; [assumption|]. apply words_cons; split; [lia|constructor].
      + rewrite !app_length. cbn [length]. lia.
      + rewrite eval_app, eval_snoc, Ll, Lh. rewrite Es.
        assert (Bn (length y) * (eval hi + Bn (length x - length y) * c') = Bn (length y) * (eval (skipn (length y) x) + c)) by (rewrite E2; reflexivity).
        lia.
    - assert (E0 : skipn (length y) x = []) by (apply skipn_all2; lia). rewrite E0, eval_nil in Es.
      repeat split.
      + apply words_app; split; [assumption|]. apply words_cons; split; [lia|constructor].
      + rewrite app_length. cbn [length]. lia.
      + rewrite eval_snoc, Ll. lia. }
  intros Wx Wy Nx Ny. unfold uadd_words. destruct (Nat.ltb_spec (length x) (length y)) as [H|H].
  - destruct (Hcore y x Wy Wx ltac:(lia) Nx) as (A & L & E). cbv zeta in *. repeat split; [exact A|lia|lia].
  - destruct (Hcore x y Wx Wy ltac:(lia) Ny) as (A & L & E). cbv zeta in *. repeat split; [exact A|lia|lia].
Qed.

Lemma nonempty_length {A} (l : list A) : (1 <= length l)%nat -> l <> [].
Proof. destruct l; cbn; [lia|discriminate]. Qed.

Lemma uadd_spec c z x y : storage_ok c z -> valid c x -> valid c y -> room c (Nat.max (size x) (size y) + 1) ->
  valid c (uadd c z x y) /\ magnitude (uadd c z x y) = magnitude x + magnitude y.
Proof.
  intros Hz Hx Hy Hr. unfold uadd. rewrite (proj1 (room_can c _) Hr).
  destruct (words_valid c x Hx) as (Wx & Lx & Nx). destruct (words_valid c y Hy) as (Wy & Ly & Ny).
  destruct (uadd_words_spec _ _ Wx Wy Nx Ny) as (W & L & E). rewrite Lx, Ly in L.
  destruct (store_spec c z _ Hz W) as (Hv & Hm & _).
  - apply nonempty_length. lia.
  - rewrite L. assumption.
  - split; [assumption|]. rewrite Hm, E. reflexivity.
Qed.

Lemma uadd1_spec c z x y : storage_ok c z -> valid c x -> 0 <= y < B -> room c (size x + 1) ->
  valid c (uadd1 c z x y) /\ magnitude (uadd1 c z x y) = magnitude x + y /\
  neg (uadd1 c z x y) = (if magnitude x + y =? 0 then false else neg z).
Proof.
  intros Hz Hx Hy Hr. unfold uadd1. rewrite (proj1 (room_can c _) Hr).
  destruct (words_valid c x Hx) as (Wx & Lx & Nx). pose proof B_pos.
  pose proof (add_word_spec (words x) y Wx Hy Nx) as Ha. destruct (add_word (words x) y) as [r cy].
  destruct Ha as (Wr & Lr & Hc & E).
  assert (W : all_words (r ++ [cy])) by (apply words_app; split; [assumption|apply words_cons; split; [lia|constructor]]).
  assert (L : length (r ++ [cy]) = (size x + 1)%nat) by (rewrite app_length; cbn [length]; lia).
  destruct (store_spec c z _ Hz W) as (Hv & Hm & Hn & _).
  - apply nonempty_length. lia.
  - rewrite L. assumption.
  - rewrite eval_snoc, Lr, E in Hm, Hn. rewrite Hm, Hn. split; [assumption|]. rewrite magnitude_words. auto.
Qed.

Lemma usub_words_spec x y : all_words x -> all_words y -> (length y <= length x)%nat -> x <> [] -> eval y <= eval x ->
  all_words (usub_words x y) /\ length (usub_words x y) = length x /\ eval (usub_words x y) = eval x - eval y.
Proof.
  intros Wx Wy HL Nx Hle. unfold usub_words. pose proof B_pos.
  assert (Lf : length (firstn (length y) x) = length y) by (apply firstn_length_le; assumption).
  pose proof (sub_n_spec (firstn (length y) x) y (words_firstn _ _ Wx) Wy Lf) as Ha.
  destruct (sub_n (firstn (length y) x) y) as [lo c]. destruct Ha as (Wl & Ll & Hc & E). rewrite Lf in *.
  pose proof (eval_split (length y) x HL) as Es. pose proof (eval_range lo Wl) as Rl. rewrite Ll in Rl.
  pose proof (Bn_pos (length y)) as Hb.
  destruct (Nat.ltb_spec (length y) (length x)) as [H1|H1].
  - pose proof (sub_word_spec (skipn (length y) x) c (words_skipn _ _ Wx) ltac:(lia)) as Hs.
    destruct (sub_word (skipn (length y) x) c) as [hi c']. cbn [fst].
    destruct Hs as (Wh & Lh & Hc' & E2).
    { intros C. apply (f_equal (@length Z)) in C. rewrite skipn_length in C. cbn in C. lia. }
    rewrite skipn_length in *.
    assert (E3 : Bn (length y) * (eval hi - Bn (length x - length y) * c') = Bn (length y) * (eval (skipn (length y) x) - c)) by (rewrite E2; reflexivity).
    assert (c' = 0).
    { destruct (Z.eq_dec c' 0) as [|Hne]; [assumption|]. exfalso. assert (c' = 1) by lia. subst c'.
      pose proof (eval_range hi Wh) as Rh. rewrite Lh in Rh.
      assert (Bn (length y) * (eval hi - Bn (length x - length y) * 1) <= Bn (length y) * (-1)) by (apply Z.mul_le_mono_nonneg_l; lia).
      lia. }
    subst c'. repeat split.
    + apply words_app; split; assumption.
    + rewrite app_length. lia.
    + rewrite eval_app, Ll. lia.
  - assert (E0 : skipn (length y) x = []) by (apply skipn_all2; lia). rewrite E0, eval_nil in Es.
    assert (c = 0) by nia. subst c. repeat split; [assumption|lia|lia].
Qed.

Lemma usub_spec c z x y : storage_ok c z -> valid c x -> valid c y -> magnitude y <= magnitude x ->
  valid c (usub c z x y) /\ magnitude (usub c z x y) = magnitude x - magnitude y /\
  neg (usub c z x y) = (if magnitude x =? magnitude y then false else neg z).
Proof.
  intros Hz Hx Hy Hle. unfold usub. pose proof (valid_size_room c x Hx) as Hr. rewrite (proj1 (room_can c _) Hr).
  destruct (words_valid c x Hx) as (Wx & Lx & Nx). destruct (words_valid c y Hy) as (Wy & Ly & Ny).
  assert (HL : (size y <= size x)%nat).
  { destruct Hx as (H1 & H2 & H3). apply (size_le_iff c y _ Hy); [lia|].
    pose proof (magnitude_range c x (conj H1 (conj H2 H3))). lia. }
  destruct (usub_words_spec _ _ Wx Wy ltac:(lia) Nx Hle) as (W & L & E).
  destruct (store_spec c z _ Hz W) as (Hv & Hm & Hn & _).
  - apply nonempty_length. destruct Hx as (_ & ? & _). lia.
  - rewrite L, Lx. assumption.
  - rewrite E in Hm, Hn. split; [assumption|]. split; [assumption|]. rewrite Hn.
    rewrite !magnitude_words. destruct (Z.eqb_spec (eval (words x) - eval (words y)) 0), (Z.eqb_spec (eval (words x)) (eval (words y))); try lia; reflexivity.
Qed.

Lemma usub1_spec c z x y : storage_ok c z -> valid c x -> 0 <= y < B -> y <= magnitude x ->
  valid c (usub1 c z x y) /\ magnitude (usub1 c z x y) = magnitude x - y /\
  neg (usub1 c z x y) = (if magnitude x =? y then false else neg z).
Proof.
  intros Hz Hx Hy Hle. unfold usub1. pose proof (valid_size_room c x Hx) as Hr. rewrite (proj1 (room_can c _) Hr).
  destruct (words_valid c x Hx) as (Wx & Lx & Nx).
  pose proof (sub_word_spec (words x) y Wx Hy Nx) as Ha. destruct (sub_word (words x) y) as [r cy]. cbn [fst].
  destruct Ha as (Wr & Lr & Hc & E).
  pose proof (eval_range r Wr) as Rr. rewrite Lr in Rr. pose proof (Bn_pos (length (words x))).
  rewrite (magnitude_words x) in *.
  assert (cy = 0) by nia. subst cy.
  destruct (store_spec c z _ Hz Wr) as (Hv & Hm & Hn & _).
  - apply nonempty_length. destruct Hx as (_ & ? & _). lia.
  - rewrite Lr, Lx. assumption.
  - split; [assumption|]. split; [lia|]. rewrite Hn.
    destruct (Z.eqb_spec (eval r) 0), (Z.eqb_spec (eval (words x)) y); try lia; reflexivity.
Qed.

(** *** signed addition *)
Lemma add_signed_spec c z x xN y yN : storage_ok c z -> valid c x -> valid c y ->
  (xN = yN -> room c (Nat.max (size x) (size y) + 1)) ->
  valid c (add_signed c z x xN y yN) /\
  value (add_signed c z x xN y yN) = sgn xN (magnitude x) + sgn yN (magnitude y).
Proof.
  intros Hz Hx Hy Hr. unfold add_signed.
  pose proof (ucompare_spec c x y Hx Hy) as Hu. unfold cmp_result in Hu.
  destruct (xorb xN yN) eqn:Ex; cbn [negb].
  - assert (Hy' : yN = negb xN) by (destruct xN, yN; cbn in *; congruence). subst yN.
    destruct (Z.leb_spec 0 (ucompare x y)).
    + destruct (usub_spec c z x y Hz Hx Hy ltac:(lia)) as (Hv & Hm & _).
      split; [exact Hv|]. rewrite set_neg_value, Hm. destruct xN; cbn; lia.
    + destruct (usub_spec c z y x Hz Hy Hx ltac:(lia)) as (Hv & Hm & _).
      split; [exact Hv|]. rewrite set_neg_value, Hm. destruct xN; cbn; lia.
  - assert (Hy' : yN = xN) by (destruct xN, yN; cbn in *; congruence). subst yN.
    destruct (uadd_spec c z x y Hz Hx Hy (Hr eq_refl)) as (Hv & Hm).
    split; [exact Hv|]. rewrite set_neg_value, Hm. destruct xN; cbn; lia.
Qed.

Lemma add_spec c z x y : storage_ok c z -> valid c x -> valid c y -> room c (Nat.max (size x) (size y) + 1) ->
  valid c (add c z x y) /\ value (add c z x y) = value x + value y.
Proof. intros. unfold add. rewrite !value_sgn. apply add_signed_spec; auto. Qed.

Lemma sgn_negb s v : sgn (negb s) v = - sgn s v.
Proof. destruct s; cbn; lia. Qed.

Lemma sub_spec c z x y : storage_ok c z -> valid c x -> valid c y -> room c (Nat.max (size x) (size y) + 1) ->
  valid c (sub c z x y) /\ value (sub c z x y) = value x - value y.
Proof.
  intros. unfold sub. destruct (add_signed_spec c z x (neg x) y (negb (neg y))) as (Hv & E); auto.
  split; [assumption|]. rewrite E, sgn_negb, !value_sgn. lia.
Qed.

Lemma add1_signed_spec c same z x y yN : storage_ok c z -> valid c x -> 0 <= y < B ->
  (neg x = yN -> room c (size x + 1)) -> (same = true -> z = x) ->
  valid c (add1_signed c same z x y yN) /\ value (add1_signed c same z x y yN) = value x + sgn yN y.
Proof.
  intros Hz Hx Hy Hr Hsame. unfold add1_signed. rewrite (value_sgn x).
  pose proof (magnitude_range c x Hx) as Rm.
  destruct (xorb (neg x) yN) eqn:Ex; cbn [negb].
  - assert (Hy' : yN = negb (neg x)) by (destruct (neg x), yN; cbn in *; congruence). subst yN.
    destruct (Nat.ltb_spec 1 (size x)) as [H1|H1]; cbn [orb].
    2: destruct (Z.geb_spec (word0 x) y) as [H2|H2].
    1,2: assert (Hle : y <= magnitude x) by
      (first [pose proof (size_gt1 c x Hx H1); lia | rewrite (size1 c x Hx) by (destruct Hx as (_ & ? & _); lia); lia]);
      destruct (usub1_spec c z x y Hz Hx Hy Hle) as (Hv & Hm & Hn);
      (split; [exact Hv|]); rewrite set_neg_value, Hm; destruct same;
      [ rewrite Hn, (Hsame eq_refl); destruct (Z.eqb_spec (magnitude x) y); destruct (neg x); cbn; lia
      | destruct (neg x); cbn; lia ].
    assert (Hs1 : size x = 1%nat) by (destruct Hx as (_ & ? & _); lia).
    pose proof (word0_range c x Hx). rewrite (size1 c x Hx Hs1) in *.
    rewrite Z.mod_small by lia.
    destruct (assign_word_spec c z (y - word0 x) Hz) as (Hv & Hm & _).
    { apply room_le with (size x); [apply valid_size_room; assumption|lia]. }
    { lia. }
    split; [exact Hv|]. rewrite set_neg_value, Hm. destruct (neg x); cbn; lia.
  - assert (Hy' : yN = neg x) by (destruct (neg x), yN; cbn in *; congruence). subst yN.
    destruct (uadd1_spec c z x y Hz Hx Hy (Hr eq_refl)) as (Hv & Hm & _).
    split; [exact Hv|]. rewrite set_neg_value, Hm. destruct (neg x); cbn; lia.
Qed.

Lemma valid_room1 c x : valid c x -> room c 1.
Proof. intros H. apply room_le with (size x); [apply valid_size_room; assumption|destruct H as (_ & ? & _); lia]. Qed.

Lemma adds1_spec c same z x y : storage_ok c z -> valid c x -> int32 y -> room c (size x + 1) -> (same = true -> z = x) ->
  valid c (adds1 c same z x y) /\ value (adds1 c same z x y) = value x + y.
Proof.
  intros Hz Hx Hy Hr Hs. unfold adds1. rewrite cabs32_spec. pose proof (int32_abs y Hy).
  destruct (add1_signed_spec c same z x (Z.abs y) (y <? 0) Hz Hx ltac:(lia) ltac:(auto) Hs) as (Hv & E).
  split; [assumption|]. rewrite E. destruct (Z.ltb_spec y 0); cbn; lia.
Qed.
Lemma subs1_spec c same z x y : storage_ok c z -> valid c x -> int32 y -> room c (size x + 1) -> (same = true -> z = x) ->
  valid c (subs1 c same z x y) /\ value (subs1 c same z x y) = value x - y.
Proof.
  intros Hz Hx Hy Hr Hs. unfold subs1. rewrite cabs32_spec. pose proof (int32_abs y Hy).
  destruct (add1_signed_spec c same z x (Z.abs y) (negb (y <? 0)) Hz Hx ltac:(lia) ltac:(auto) Hs) as (Hv & E).
  split; [assumption|]. rewrite E. destruct (Z.ltb_spec y 0); cbn; lia.
Qed.
Lemma addu1_spec c same z x y : storage_ok c z -> valid c x -> 0 <= y < B -> room c (size x + 1) -> (same = true -> z = x) ->
  valid c (addu1 c same z x y) /\ value (addu1 c same z x y) = value x + y.
Proof.
  intros Hz Hx Hy Hr Hs. destruct (add1_signed_spec c same z x y false Hz Hx Hy ltac:(auto) Hs) as (Hv & E). auto.
Qed.
Lemma subu1_spec c same z x y : storage_ok c z -> valid c x -> 0 <= y < B -> room c (size x + 1) -> (same = true -> z = x) ->
  valid c (subu1 c same z x y) /\ value (subu1 c same z x y) = value x - y.
Proof.
  intros Hz Hx Hy Hr Hs. destruct (add1_signed_spec c same z x y true Hz Hx Hy ltac:(auto) Hs) as (Hv & E).
  split; [assumption|]. unfold subu1. rewrite E. cbn [sgn]. lia.
Qed.

(** *** multiplication *)
Lemma sgn_xor a b u v : sgn (xorb a b) (u * v) = sgn a u * sgn b v.
Proof. destruct a, b; cbn [xorb sgn]; lia. Qed.

Lemma mul_spec c sX sY z x y : storage_ok c z -> valid c x -> valid c y -> room c (size x + size y) ->
  (sX = true -> z = x) -> (sY = true -> z = y) ->
  exists r, mul c sX sY z x y = (true, r) /\ valid c r /\ value r = value x * value y.
Proof.
  intros Hz Hx Hy Hr HsX HsY. unfold mul. rewrite (proj1 (room_can c _) Hr).
  destruct (words_valid c x Hx) as (Wx & Lx & Nx). destruct (words_valid c y Hy) as (Wy & Ly & Ny).
  destruct (mul_nm_spec _ _ Wx Wy Nx Ny) as (W & L & E). rewrite Lx, Ly in L.
  destruct (store_spec c z _ Hz W) as (Hv & Hm & Hn & _).
  - apply nonempty_length. destruct Hx as (_ & ? & _). lia.
  - rewrite L. assumption.
  - eexists; split; [reflexivity|]. split; [exact Hv|]. rewrite set_neg_value, Hm, E. rewrite Hn, E, !value_sgn, !magnitude_words.
    destruct (Z.eqb_spec (eval (words x) * eval (words y)) 0) as [E0|E0].
    + rewrite <- sgn_xor, E0. unfold sgn. destruct (xorb _ _), (xorb _ _); reflexivity.
    + rewrite <- sgn_xor. f_equal.
      destruct sX, sY; rewrite ?(HsX eq_refl) in *; rewrite ?(HsY eq_refl) in *; try reflexivity.
      all: try rewrite <- (HsX eq_refl); try rewrite <- (HsY eq_refl); reflexivity.
Qed.

Lemma mul_sound c sX sY z x y r : storage_ok c z -> valid c x -> valid c y ->
  (sX = true -> z = x) -> (sY = true -> z = y) ->
  mul c sX sY z x y = (true, r) -> valid c r /\ value r = value x * value y.
Proof.
  intros Hz Hx Hy H1 H2 Hm.
  assert (Hr : room c (size x + size y)).
  { apply room_can. unfold mul in Hm. destruct (can_resize c (size x + size y)); [reflexivity|discriminate Hm]. }
  destruct (mul_spec c sX sY z x y Hz Hx Hy Hr H1 H2) as (r' & E & Hv & HV). rewrite E in Hm. injection Hm as <-. auto.
Qed.

Lemma mulu1_spec c z x y : storage_ok c z -> valid c x -> 0 <= y < B -> room c (size x + 1) ->
  valid c (mulu1 c z x y) /\ value (mulu1 c z x y) = value x * y /\
  neg (mulu1 c z x y) = (if value x * y =? 0 then false else neg x).
Proof.
  intros Hz Hx Hy Hr. unfold mulu1. rewrite (proj1 (room_can c _) Hr).
  destruct (words_valid c x Hx) as (Wx & Lx & Nx).
  pose proof (mul_word_n_spec (words x) y Wx Hy) as Hm. destruct (mul_word_n (words x) y) as [r h].
  destruct Hm as (Wr & Lr & Hh & E).
  assert (W : all_words (r ++ [h])) by (apply words_app; split; [assumption|apply words_cons; split; [lia|constructor]]).
  assert (L : length (r ++ [h]) = (size x + 1)%nat) by (rewrite app_length; cbn [length]; lia).
  destruct (put_trim_spec c z (r ++ [h]) (neg x) Hz W) as (Hv & Hm & Hn & _).
  - apply nonempty_length. lia.
  - rewrite L. assumption.
  - rewrite eval_snoc, Lr, E, <- magnitude_words in Hm, Hn.
    split; [exact Hv|]. rewrite !value_sgn. rewrite Hm, Hn.
    destruct (Z.eqb_spec (magnitude x * y) 0) as [E0|E0].
    + assert (E1 : sgn (neg x) (magnitude x) * y = 0) by (destruct (neg x); cbn; lia).
      rewrite E1, E0. cbn. auto.
    + assert (E1 : sgn (neg x) (magnitude x) * y <> 0) by (destruct (neg x); cbn; lia).
      split; [destruct (neg x); cbn; lia|]. destruct (Z.eqb_spec (sgn (neg x) (magnitude x) * y) 0); [congruence|reflexivity].
Qed.

Lemma muls1_spec c z x y : storage_ok c z -> valid c x -> int32 y -> room c (size x + 1) ->
  valid c (muls1 c z x y) /\ value (muls1 c z x y) = value x * y.
Proof.
  intros Hz Hx Hy Hr. unfold muls1. rewrite cabs32_spec. pose proof (int32_abs y Hy).
  destruct (mulu1_spec c z x (Z.abs y) Hz Hx ltac:(lia) Hr) as (Hv & E & _).
  split; [exact Hv|]. rewrite set_neg_value. rewrite value_sgn in E.
  destruct (neg (mulu1 c z x (Z.abs y))), (Z.ltb_spec y 0); cbn [xorb sgn] in *; lia.
Qed.

(** *** division *)
Lemma quot_of_euclid X Y q r : 0 <= X -> 0 < Y -> 0 <= r < Y -> q * Y + r = X -> q = X / Y /\ r = X mod Y.
Proof.
  intros. assert (q = X / Y) by (apply Z.div_unique with r; [left; lia|lia]).
  split; [assumption|]. subst q. rewrite Z.mod_eq by lia. lia.
Qed.

Lemma udiv_spec c q r x y : storage_ok c r -> valid c x -> valid c y -> magnitude y <> 0 ->
  match q with Some q => storage_ok c q | None => True end ->
  exists q' r', udiv c q r x y = Ok (true, q', r') /\
    valid c r' /\ magnitude r' = magnitude x mod magnitude y /\
    match q, q' with
    | Some _, Some q' => valid c q' /\ magnitude q' = magnitude x / magnitude y
    | None, None => True
    | _, _ => False
    end.
Proof.
  intros Hr Hx Hy Hnz Hq. unfold udiv.
  pose proof (magnitude_range c x Hx) as Rx. pose proof (magnitude_range c y Hy) as Ry.
  pose proof (valid_room1 c x Hx) as Hr1.
  destruct (Nat.ltb_spec (size x) (size y)) as [H1|H1].
  - eexists; eexists; split; [reflexivity|].
    assert (Hlt : magnitude x < magnitude y).
    { destruct Hx as (? & ? & ?). pose proof (magnitude_lower c y Hy ltac:(lia)).
      pose proof (Bn_mono (size x) (size y - 1) ltac:(lia)). lia. }
    rewrite Z.mod_small, Z.div_small by lia.
    destruct (trim_spec c (mk (mem x) (size r) (neg r)) (size x)) as (Hv & Hm & _).
    { apply valid_storage in Hx. exact Hx. }
    { cbn [mem]. destruct Hx as (_ & ? & _). lia. }
    split; [exact Hv|]. split; [exact Hm|]. destruct q as [q|]; cbn [option_map]; [|exact I].
    destruct (clear_spec c q Hq Hr1) as (? & _ & _ & _ & ?). auto.
  - destruct (words_valid c x Hx) as (Wx & Lx & Nx). destruct (words_valid c y Hy) as (Wy & Ly & Ny).
    assert (Hl : last (words y) 0 <> 0).
    { rewrite (nth_last_words c y Hy). destruct Hy as (G1 & G2 & G3).
      destruct (Nat.eq_dec (size y) 1) as [E1|E1]; [|apply G3; lia].
      rewrite E1. change (nth (1 - 1) (mem y) 0) with (word0 y).
      rewrite <- (size1 c y (conj G1 (conj G2 G3)) E1). assumption. }
    assert (Hqr : match q with Some _ => can_resize c (size x - size y + 1) | None => true end = true).
    { destruct q; [|reflexivity]. apply room_can. apply room_le with (size x); [apply valid_size_room; assumption|].
      destruct Hy as (_ & ? & _). lia. }
    rewrite Hqr.
    destruct (div_spec (size x - size y + 1) (words x) (words y) Wx Wy Nx Ny Hl ltac:(lia) ltac:(lia)) as (d & Ed & Hok).
    rewrite Ed. cbn [bind]. destruct d as [[qw xw] rn]. destruct Hok as (Wq & Lq & Wxw & Hrn & E & Rr & Hlen & Hrny).
    rewrite <- !magnitude_words in *.
    destruct (quot_of_euclid (magnitude x) (magnitude y) (eval qw) (eval (firstn rn xw)) ltac:(lia) ltac:(lia) Rr E) as (Eq & Er).
    assert (Lfr : length (firstn rn xw) = rn) by (apply firstn_length_le; lia).
    (* the remainder occupies at most size y words *)
    assert (Hroomr : room c rn) by (apply room_le with (size y); [apply valid_size_room; assumption|lia]).
    rewrite (proj1 (room_can c rn) Hroomr).
    eexists; eexists; split; [reflexivity|].
    destruct (store_spec c r (firstn rn xw) Hr (words_firstn _ _ Wxw)) as (Hv & Hm & _).
    { apply nonempty_length. lia. }
    { rewrite Lfr. assumption. }
    split; [assumption|]. split; [rewrite Hm; assumption|].
    destruct q as [q|]; cbn [option_map]; [|exact I].
    destruct (store_spec c q qw Hq Wq) as (Hvq & Hmq & _).
    { apply nonempty_length. lia. }
    { rewrite Lq. apply room_can. exact Hqr. }
    split; [assumption|]. rewrite Hmq. assumption.
Qed.

Lemma udiv_by_zero c q r x y : valid c x -> valid c y -> magnitude y = 0 -> udiv c q r x y = Abort.
Proof.
  intros Hx Hy Hz. pose proof (is_zero_spec c y Hy) as E. rewrite Hz in E. cbn in E. unfold is_zero in E.
  apply andb_prop in E as [Es Ew]. apply Nat.eqb_eq in Es.
  unfold udiv. pose proof Hx as (_ & Hs & _). replace (Nat.ltb (size x) (size y)) with false by (symmetry; apply Nat.ltb_ge; lia).
  assert (Hqr : match q with Some _ => can_resize c (size x - size y + 1) | None => true end = true).
  { destruct q; [|reflexivity]. apply room_can. apply room_le with (size x); [apply valid_size_room; assumption|]. lia. }
  rewrite Hqr. unfold div. destruct (words_valid c y Hy) as (_ & Ly & _). rewrite Ly, Es. cbn [Nat.eqb].
  destruct (word0_words c y Hy) as (t & ->). cbn [hd]. unfold div1, div_word. rewrite Ew. reflexivity.
Qed.

Lemma quot_sgn a b X Y : 0 <= X -> 0 < Y -> Z.quot (sgn a X) (sgn b Y) = sgn (xorb a b) (X / Y).
Proof.
  intros. pose proof (Z.quot_div_nonneg X Y ltac:(lia) ltac:(lia)).
  destruct a, b; cbn [xorb sgn]; rewrite ?Z.quot_opp_opp, ?Z.quot_opp_l, ?Z.quot_opp_r by lia; congruence.
Qed.
Lemma rem_sgn a b X Y : 0 <= X -> 0 < Y -> Z.rem (sgn a X) (sgn b Y) = sgn a (X mod Y).
Proof.
  intros. pose proof (Z.rem_mod_nonneg X Y ltac:(lia) ltac:(lia)).
  destruct a, b; cbn [xorb sgn]; rewrite ?Z.rem_opp_opp, ?Z.rem_opp_l, ?Z.rem_opp_r by lia; congruence.
Qed.

Lemma value_zero_iff x : value x = 0 <-> magnitude x = 0.
Proof. rewrite value_sgn. destruct (neg x); cbn; lia. Qed.

Lemma div_mod_spec c q r x y : storage_ok c r -> valid c x -> valid c y -> value y <> 0 ->
  match q with Some q => storage_ok c q | None => True end ->
  exists q' r', div_mod c q r x y = Ok (true, q', r') /\
    valid c r' /\ value r' = Z.rem (value x) (value y) /\
    match q, q' with
    | Some _, Some q' => valid c q' /\ value q' = Z.quot (value x) (value y)
    | None, None => True
    | _, _ => False
    end.
Proof.
  intros Hr Hx Hy Hnz Hq. unfold div_mod. rewrite value_zero_iff in Hnz.
  pose proof (magnitude_range c x Hx). pose proof (magnitude_range c y Hy).
  destruct (udiv_spec c q r x y Hr Hx Hy Hnz Hq) as (q' & r' & -> & Hv & Hm & Hqq). cbn [bind negb].
  eexists; eexists; split; [reflexivity|]. rewrite !set_neg_value, !(value_sgn x), !(value_sgn y), rem_sgn by lia.
  split; [exact Hv|]. split; [congruence|].
  destruct q, q'; cbn [option_map]; try exact Hqq.
  rewrite set_neg_value, quot_sgn by lia. destruct Hqq as (? & ->). auto.
Qed.

Lemma div_mod_by_zero c q r x y : valid c x -> valid c y -> value y = 0 -> div_mod c q r x y = Abort.
Proof.
  intros Hx Hy Hz. unfold div_mod. rewrite udiv_by_zero; [reflexivity|assumption..|]. apply value_zero_iff; assumption.
Qed.

Lemma div_q_spec c q x y : storage_ok c q -> valid c x -> valid c y -> value y <> 0 ->
  exists q', div_q c q x y = Ok (true, q') /\ valid c q' /\ value q' = Z.quot (value x) (value y).
Proof.
  intros Hq Hx Hy Hnz. unfold div_q.
  destruct (zero_spec c (valid_room1 c x Hx)) as (Hz & _).
  destruct (div_mod_spec c (Some q) (zero c) x y (valid_storage _ _ Hz) Hx Hy Hnz Hq) as (q' & r' & -> & _ & _ & H).
  cbn [bind]. destruct q' as [q'|]; [|contradiction]. eauto.
Qed.

Lemma mod_r_spec c r x y : storage_ok c r -> valid c x -> valid c y -> value y <> 0 ->
  exists r', mod_r c r x y = Ok (true, r') /\ valid c r' /\ value r' = Z.rem (value x) (value y).
Proof.
  intros Hr Hx Hy Hnz. unfold mod_r.
  destruct (div_mod_spec c None r x y Hr Hx Hy Hnz I) as (q' & r' & -> & H1 & H2 & H).
  cbn [bind]. eauto.
Qed.

(** floored division *)
Lemma floor_sgn a b X Y : 0 <= X -> 0 < Y ->
  sgn a X / sgn b Y = (if xorb a b && negb (X mod Y =? 0) then - (X / Y + 1) else sgn (xorb a b) (X / Y)) /\
  sgn a X mod sgn b Y = sgn b (if xorb a b && negb (X mod Y =? 0) then Y - X mod Y else X mod Y).
Proof.
  intros HX HY. pose proof (Z.div_mod X Y ltac:(lia)). pose proof (Z.mod_pos_bound X Y HY).
  assert (Hu : forall q r, (0 <= r < Y /\ b = false \/ - Y < r <= 0 /\ b = true) -> sgn a X = sgn b Y * q + r -> sgn a X / sgn b Y = q /\ sgn a X mod sgn b Y = r).
  { intros q r Hr E. split; symmetry; [apply Z.div_unique with r|apply Z.mod_unique with q]; try assumption; destruct b; cbn [sgn]; lia. }
  apply Hu; destruct (Z.eqb_spec (X mod Y) 0), a, b; cbn [xorb negb andb sgn]; lia.
Qed.

Lemma quot_rem_spec c q r x y : storage_ok c r -> valid c x -> valid c y -> value y <> 0 ->
  match q with Some q => storage_ok c q /\ room c (size x + 1) | None => True end ->
  exists q' r', quot_rem c q r x y = Ok (q', r') /\
    valid c r' /\ value r' = value x mod value y /\
    match q, q' with
    | Some _, Some q' => valid c q' /\ value q' = value x / value y
    | None, None => True
    | _, _ => False
    end.
Proof.
  intros Hr Hx Hy Hnz Hq. unfold quot_rem. rewrite value_zero_iff in Hnz.
  pose proof (magnitude_range c x Hx) as Rx. pose proof (magnitude_range c y Hy) as Ry.
  destruct (udiv_spec c q r x y Hr Hx Hy Hnz) as (q' & r' & -> & Hv & Hm & Hqq).
  { destruct q; tauto. }
  cbn [bind].
  rewrite (is_zero_spec c (set_neg r' (neg y))) by exact Hv. rewrite set_neg_mag, Hm.
  rewrite !(value_sgn x), !(value_sgn y).
  destruct (floor_sgn (neg x) (neg y) (magnitude x) (magnitude y) ltac:(lia) ltac:(lia)) as (Ed & Em).
  rewrite Ed, Em. rewrite (andb_comm (xorb _ _)) in *.
  pose proof (Z.mod_pos_bound (magnitude x) (magnitude y) ltac:(lia)) as Hmb.
  destruct (negb (magnitude x mod magnitude y =? 0) && xorb (neg x) (neg y)) eqn:Hb.
  - apply andb_prop in Hb as [Hb1 Hb2].
    eexists; eexists; split; [reflexivity|].
    destruct (usub_spec c (set_neg r' (neg y)) y (set_neg r' (neg y))) as (Hvu & Hmu & Hnu);
      [apply valid_storage; exact Hv|assumption|exact Hv|rewrite set_neg_mag; lia|].
    rewrite set_neg_mag in *. rewrite Hm in *.
    split; [exact Hvu|]. split.
    { rewrite value_sgn, Hmu, Hnu. destruct (Z.eqb_spec (magnitude y) (magnitude x mod magnitude y)); [lia|]. reflexivity. }
    destruct q as [q|], q' as [q'|]; cbn [option_map]; try contradiction; [|exact I].
    destruct Hqq as (Hvq & Hmq). destruct Hq as (_ & Hroom).
    assert (Hroomq : room c (size (set_neg q' (xorb (neg x) (neg y))) + 1)).
    { cbn [size set_neg]. apply room_le with (size x + 1)%nat; [assumption|].
      assert ((size q' <= size x)%nat); [|lia].
      destruct Hx as (? & ? & ?). apply (size_le_iff c q' _ Hvq); [lia|]. rewrite Hmq.
      pose proof (Z.div_le_upper_bound (magnitude x) (magnitude y) (magnitude x) ltac:(lia)). nia. }
    destruct (uadd1_spec c (set_neg q' (xorb (neg x) (neg y))) (set_neg q' (xorb (neg x) (neg y))) 1) as (Hva & Hma & Hna);
      [apply valid_storage; exact Hvq|exact Hvq|pose proof B_pos; lia|exact Hroomq|].
    split; [exact Hva|]. rewrite value_sgn, Hma, Hna, set_neg_mag, set_neg_neg, Hmq, Hb2.
    pose proof (Z.div_pos (magnitude x) (magnitude y) ltac:(lia) ltac:(lia)).
    destruct (Z.eqb_spec (magnitude x / magnitude y + 1) 0); [lia|]. reflexivity.
  - eexists; eexists; split; [reflexivity|]. rewrite set_neg_value, Hm.
    split; [exact Hv|]. split; [reflexivity|].
    destruct q as [q|], q' as [q'|]; cbn [option_map]; try contradiction; [|exact I].
    rewrite set_neg_value. destruct Hqq as (? & ->). auto.
Qed.

(** *** single-word division *)
Lemma div_mods1_q_spec c q x y : storage_ok c q -> valid c x -> int32 y -> y <> 0 ->
  exists q' r, div_mods1_q c q x y = Ok (q', r) /\ valid c q' /\
    value q' = Z.quot (value x) y /\ r = Z.rem (value x) y /\ (value q' = 0 -> neg q' = false).
Proof.
  intros Hq Hx Hy Hnz. unfold div_mods1_q. rewrite cabs32_spec. pose proof (int32_abs y Hy).
  pose proof (valid_size_room c x Hx) as Hr. rewrite (proj1 (room_can c _) Hr).
  destruct (words_valid c x Hx) as (Wx & Lx & Nx).
  destruct (div_word_spec (words x) (Z.abs y) Wx ltac:(lia)) as (ws & r & -> & Wq & Lq & Hrr & E). cbn [bind].
  eexists; eexists; split; [reflexivity|].
  destruct (put_trim_spec c q ws (xorb (neg x) (y <? 0)) Hq Wq) as (Hv & Hm & Hn & _).
  { apply nonempty_length. destruct Hx as (_ & ? & _). lia. }
  { rewrite Lq, Lx. assumption. }
  pose proof (magnitude_range c x Hx).
  destruct (quot_of_euclid (magnitude x) (Z.abs y) (eval ws) r ltac:(lia) ltac:(lia) Hrr ltac:(rewrite magnitude_words; lia)) as (Eq & Er).
  assert (Ey : y = sgn (y <? 0) (Z.abs y)) by (destruct (Z.ltb_spec y 0); cbn; lia).
  assert (Eqq : Z.quot (value x) y = sgn (xorb (neg x) (y <? 0)) (magnitude x / Z.abs y)).
  { rewrite Ey at 1. rewrite value_sgn, quot_sgn by lia. reflexivity. }
  assert (Err : Z.rem (value x) y = sgn (neg x) (magnitude x mod Z.abs y)).
  { rewrite Ey at 1. rewrite value_sgn, rem_sgn by lia. reflexivity. }
  split; [exact Hv|]. split; [|split].
  - rewrite Eqq, value_sgn, Hm, Hn, <- Eq. destruct (Z.eqb_spec (eval ws) 0) as [E0|E0]; [|reflexivity].
    rewrite E0. destruct (xorb _ _); reflexivity.
  - rewrite Err, <- Er. reflexivity.
  - rewrite value_zero_iff, Hn, Hm. intros ->. reflexivity.
Qed.

Lemma div_mods1_zero c q x : valid c x -> div_mods1_q c q x 0 = Abort /\ div_mods1_r x 0 = Abort.
Proof.
  intros Hx. unfold div_mods1_q, div_mods1_r. rewrite (proj1 (room_can c _) (valid_size_room c x Hx)). split; reflexivity.
Qed.

Lemma div_mods1_r_spec c x y : valid c x -> int32 y -> y <> 0 -> div_mods1_r x y = Ok (Z.rem (value x) y).
Proof.
  intros Hx Hy Hnz. unfold div_mods1_r. rewrite cabs32_spec. pose proof (int32_abs y Hy).
  destruct (words_valid c x Hx) as (Wx & Lx & Nx). rewrite mod_word_spec by (try assumption; lia). cbn [bind]. f_equal.
  assert (Ey : y = sgn (y <? 0) (Z.abs y)) by (destruct (Z.ltb_spec y 0); cbn; lia).
  pose proof (magnitude_range c x Hx).
  assert (Err : Z.rem (value x) y = sgn (neg x) (magnitude x mod Z.abs y)) by (rewrite Ey at 1; rewrite value_sgn, rem_sgn by lia; reflexivity).
  rewrite Err. reflexivity.
Qed.

Lemma divs1_spec c q x y : storage_ok c q -> valid c x -> int32 y -> y <> 0 ->
  exists q', divs1 c q x y = Ok q' /\ valid c q' /\ value q' = Z.quot (value x) y.
Proof.
  intros Hq Hx Hy Hnz. unfold divs1. destruct (div_mods1_q_spec c q x y Hq Hx Hy Hnz) as (q' & r & -> & ? & ? & _). cbn [bind fst]. eauto.
Qed.

Lemma mods1_spec c r x y : storage_ok c r -> valid c x -> int32 y -> y <> 0 ->
  exists r', mods1 r x y = Ok r' /\ valid c r' /\ value r' = Z.rem (value x) y /\ size r' = 1%nat /\ neg r' = neg x.
Proof.
  intros Hr Hx Hy Hnz. unfold mods1. rewrite (div_mods1_r_spec c x y Hx Hy Hnz). cbn [bind].
  eexists; split; [reflexivity|]. pose proof (int32_abs y Hy). pose proof (Z.rem_bound_abs (value x) y Hnz).
  destruct (assign_int_spec c r (Z.rem (value x) y) Hr (valid_room1 c x Hx)) as (Hv & Ev & _ & Hs & Hn & Hm); [lia|].
  split; [exact Hv|]. rewrite set_neg_value, Hm. split; [|split; [exact Hs|reflexivity]].
  (* the remainder has the sign of x *)
  destruct (Z.eq_dec (Z.rem (value x) y) 0) as [E|E]; [rewrite E; destruct (neg x); reflexivity|].
  pose proof (Z.rem_sign_nz (value x) y Hnz E) as Hsg. rewrite value_sgn in Hsg at 2. pose proof (magnitude_range c x Hx).
  assert (magnitude x <> 0). { intros C. apply E. apply value_zero_iff in C. rewrite C. apply Z.rem_0_l. assumption. }
  destruct (neg x); cbn [sgn] in *.
  - rewrite (Z.sgn_neg (- magnitude x)) in Hsg by lia. apply Z.sgn_neg_iff in Hsg. lia.
  - rewrite (Z.sgn_pos (magnitude x)) in Hsg by lia. apply Z.sgn_pos_iff in Hsg. lia.
Qed.

Lemma udiv_modu1_q_spec c q x y : storage_ok c q -> valid c x -> 0 < y < B ->
  exists q' r, udiv_modu1_q c q x y = Ok (q', r) /\ valid c q' /\
    value q' = magnitude x / y /\ r = magnitude x mod y.
Proof.
  intros Hq Hx Hy. unfold udiv_modu1_q.
  pose proof (valid_size_room c x Hx) as Hr. rewrite (proj1 (room_can c _) Hr).
  destruct (words_valid c x Hx) as (Wx & Lx & Nx).
  destruct (div_word_spec (words x) y Wx ltac:(lia)) as (ws & r & -> & Wq & Lq & Hrr & E). cbn [bind].
  eexists; eexists; split; [reflexivity|].
  destruct (store_spec c q ws Hq Wq) as (Hv & Hm & _).
  { apply nonempty_length. destruct Hx as (_ & ? & _). lia. }
  { rewrite Lq, Lx. assumption. }
  pose proof (magnitude_range c x Hx).
  destruct (quot_of_euclid (magnitude x) y (eval ws) r ltac:(lia) ltac:(lia) Hrr ltac:(rewrite magnitude_words; lia)) as (Eq & Er).
  split; [exact Hv|]. rewrite set_neg_value, Hm. auto.
Qed.

Lemma divu1_spec c q x y : storage_ok c q -> valid c x -> 0 < y < B ->
  exists q', divu1 c q x y = Ok q' /\ valid c q' /\ value q' = Z.abs (value x) / y.
Proof.
  intros Hq Hx Hy. unfold divu1. destruct (udiv_modu1_q_spec c q x y Hq Hx Hy) as (q' & r & -> & Hv & E & _). cbn [bind fst].
  eexists; split; [reflexivity|]. split; [exact Hv|]. rewrite E. f_equal. pose proof (magnitude_range c x Hx).
  rewrite value_sgn. destruct (neg x); cbn; lia.
Qed.

(** *** shifts *)
Lemma shl_spec c y x n : storage_ok c y -> valid c x -> 0 <= n -> room c (size x + Z.to_nat ((n + 31) / 32)) ->
  exists r, shl c y x n = Ok r /\ valid c r /\ value r = value x * 2 ^ n /\ (neg r = true -> neg x = true) /\ (value r = 0 -> neg r = false).
Proof.
  intros Hy Hx Hn Hr. unfold shl. rewrite (proj1 (room_can c _) Hr). eexists; split; [reflexivity|].
  destruct (words_valid c x Hx) as (Wx & Lx & Nx).
  destruct (shift_left_spec (words x) n Wx Nx Hn) as (W & L & E). rewrite Lx in L.
  destruct (put_trim_spec c y (shift_left (words x) n) (neg x) Hy W) as (Hv & Hm & Hg & _).
  { apply nonempty_length. destruct Hx as (_ & ? & _). lia. }
  { rewrite L. assumption. }
  rewrite L in *. split; [exact Hv|]. rewrite !value_sgn, Hm, Hg, E, <- magnitude_words.
  split; [|split].
  - destruct (Z.eqb_spec (magnitude x * 2 ^ n) 0) as [E0|E0]; destruct (neg x); cbn [sgn]; lia.
  - destruct (magnitude x * 2 ^ n =? 0); intros; [discriminate|assumption].
  - intros H. destruct (Z.eqb_spec (magnitude x * 2 ^ n) 0); [reflexivity|]. destruct (neg x); cbn [sgn] in H; lia.
Qed.

Lemma shr_spec c y x n : storage_ok c y -> valid c x -> 0 <= n ->
  valid c (shr y x n) /\ value (shr y x n) = Z.quot (value x) (2 ^ n) /\
  (value (shr y x n) = 0 -> neg (shr y x n) = false) /\ (neg (shr y x n) = true -> neg x = true) /\ magnitude (shr y x n) = magnitude x / 2 ^ n.
Proof.
  intros Hy Hx Hn. unfold shr. pose proof (magnitude_range c x Hx) as Rx.
  assert (H2 : 0 < 2 ^ n) by (apply Z.pow_pos_nonneg; lia).
  assert (Eq : Z.quot (value x) (2 ^ n) = sgn (neg x) (magnitude x / 2 ^ n)).
  { change (2 ^ n) with (sgn false (2 ^ n)) at 1. rewrite value_sgn, quot_sgn by lia. destruct (neg x); reflexivity. }
  rewrite Eq.
  destruct (Z.leb_spec (32 * Z.of_nat (size x)) n) as [H|H].
  - destruct (clear_spec c y Hy (valid_room1 c x Hx)) as (Hv & E & _ & Hg & Hm). rewrite E, Hg, Hm.
    rewrite Z.div_small.
    + split; [exact Hv|]. destruct (neg x); cbn; auto.
    + rewrite Bn_pow2 in Rx. pose proof (Z.pow_le_mono_r 2 _ _ ltac:(lia) H). lia.
  - destruct (words_valid c x Hx) as (Wx & Lx & Nx).
    destruct (shift_right_spec (words x) n Wx ltac:(lia)) as (W & L & E). rewrite Lx in L.
    assert (Hd : n / 32 < Z.of_nat (size x)) by (apply Z.div_lt_upper_bound; lia).
    pose proof (Z.div_pos n 32 Hn ltac:(lia)).
    destruct (put_trim_spec c y (shift_right (words x) n) (neg x) Hy W) as (Hv & Hm & Hg & _).
    { apply nonempty_length. lia. }
    { rewrite L. apply room_le with (size x); [apply valid_size_room; assumption|lia]. }
    split; [exact Hv|]. rewrite !value_sgn, Hm, Hg, E, <- magnitude_words.
    destruct (Z.eqb_spec (magnitude x / 2 ^ n) 0) as [E0|E0]; [rewrite E0|]; destruct (neg x); cbn [sgn]; repeat split; try lia; auto.
Qed.

(** *** sign operations *)
Lemma neg_op_spec c x : valid c x -> valid c (neg_op x) /\ value (neg_op x) = - value x.
Proof. intros H. split; [exact H|]. rewrite !value_sgn. unfold neg_op, magnitude. cbn [mem size neg]. destruct (neg x); cbn; lia. Qed.
Lemma abs_op_spec c x : valid c x -> valid c (abs_op x) /\ value (abs_op x) = Z.abs (value x) /\ neg (abs_op x) = false.
Proof.
  intros H. split; [exact H|]. split; [|reflexivity]. rewrite (value_sgn x). pose proof (magnitude_range c x H).
  change (value (abs_op x)) with (magnitude x). destruct (neg x); cbn; lia.
Qed.

(** *** which operations return a canonical object *)
Lemma add1_signed_canonical c z y yN : canonical c z -> 0 <= y < B -> (neg z = yN -> room c (size z + 1)) ->
  canonical c (add1_signed c true z z y yN).
Proof.
  intros (Hv & Hc) Hy Hr. destruct (add1_signed_spec c true z z y yN (valid_storage _ _ Hv) Hv Hy Hr ltac:(auto)) as (Hva & Ev).
  split; [exact Hva|]. rewrite Ev. unfold add1_signed. intros E0.
  pose proof (magnitude_range c z Hv) as Rm. rewrite value_sgn in *.
  destruct (xorb (neg z) yN) eqn:Ex; cbn [negb].
  - assert (Hy' : yN = negb (neg z)) by (destruct (neg z), yN; cbn in *; congruence). subst yN.
    assert (magnitude z = y) by (destruct (neg z); cbn [sgn negb] in *; lia).
    destruct (Nat.ltb_spec 1 (size z)) as [H1|H1]; cbn [orb].
    + cbn [neg set_neg]. destruct (usub1_spec c z z y (valid_storage _ _ Hv) Hv Hy ltac:(lia)) as (_ & _ & ->).
      destruct (Z.eqb_spec (magnitude z) y); [reflexivity|lia].
    + assert (Hs : size z = 1%nat) by (destruct Hv as (_ & ? & _); lia).
      rewrite <- (size1 c z Hv Hs). destruct (Z.geb_spec (magnitude z) y); [|lia].
      cbn [neg set_neg]. destruct (usub1_spec c z z y (valid_storage _ _ Hv) Hv Hy ltac:(lia)) as (_ & _ & ->).
      destruct (Z.eqb_spec (magnitude z) y); [reflexivity|lia].
  - assert (Hy' : yN = neg z) by (destruct (neg z), yN; cbn in *; congruence). subst yN.
    cbn [neg set_neg]. apply Hc. destruct (neg z); cbn [sgn] in *; lia.
Qed.
