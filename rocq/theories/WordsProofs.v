From Coq Require Import List ZArith Bool Lia PeanoNat.
From Coq Require Import ZifyBool ZifyNat ZifyN.
From Verif Require Import Outcome LoopModel LoopProofs BitLemmas WordsModel WordsSpec.
Import ListNotations.
Open Scope Z_scope.

Lemma B_eq : 2 ^ 32 = B. Proof. reflexivity. Qed.
Lemma B_val : B = 4294967296. Proof. reflexivity. Qed.
Lemma W64_val : W64 = B * B. Proof. reflexivity. Qed.
Lemma B_pos : 1 < B. Proof. reflexivity. Qed.
Global Opaque B W64.

Definition Bn (n : nat) : Z := B ^ Z.of_nat n.
Lemma Bn_0 : Bn 0 = 1. Proof. reflexivity. Qed.
Lemma Bn_S n : Bn (S n) = B * Bn n.
Proof. unfold Bn. rewrite Nat2Z.inj_succ, Z.pow_succ_r by lia. reflexivity. Qed.
Lemma Bn_add n m : Bn (n + m) = Bn n * Bn m.
Proof. unfold Bn. rewrite Nat2Z.inj_add, Z.pow_add_r by lia. reflexivity. Qed.
Lemma Bn_pos n : 0 < Bn n.
Proof. unfold Bn. apply Z.pow_pos_nonneg; [pose proof B_pos; lia|lia]. Qed.
Lemma Bn_1 : Bn 1 = B. Proof. rewrite Bn_S, Bn_0. lia. Qed.
Lemma Bn_mono n m : (n <= m)%nat -> Bn n <= Bn m.
Proof. intros. unfold Bn. apply Z.pow_le_mono_r; [pose proof B_pos; lia|lia]. Qed.
Lemma Bn_pow2 n : Bn n = 2 ^ (32 * Z.of_nat n).
Proof. unfold Bn. rewrite <- B_eq, <- Z.pow_mul_r by lia. reflexivity. Qed.

Lemma eval_cons a t : eval (a :: t) = a + B * eval t.
Proof. reflexivity. Qed.
Lemma eval_nil : eval [] = 0. Proof. reflexivity. Qed.
Global Opaque eval.

Lemma words_cons a t : all_words (a :: t) <-> (0 <= a < B) /\ all_words t.
Proof. split; [intros H; inversion H; subst; split; assumption|intros [? ?]; constructor; assumption]. Qed.
Lemma words_nil : all_words [].
Proof. constructor. Qed.
Lemma words_app x y : all_words (x ++ y) <-> all_words x /\ all_words y.
Proof. apply Forall_app. Qed.
Lemma words_firstn n x : all_words x -> all_words (firstn n x).
Proof. intros H. rewrite <- (firstn_skipn n x) in H. apply words_app in H. tauto. Qed.
Lemma words_skipn n x : all_words x -> all_words (skipn n x).
Proof. intros H. rewrite <- (firstn_skipn n x) in H. apply words_app in H. tauto. Qed.
Lemma words_rev x : all_words x -> all_words (rev x).
Proof. apply Forall_rev. Qed.
Lemma words_repeat0 n : all_words (repeat 0 n).
Proof. induction n; cbn; [constructor|]. apply words_cons; split; [pose proof B_pos; lia|assumption]. Qed.

Lemma eval_range x : all_words x -> 0 <= eval x < Bn (length x).
Proof.
  induction x as [|a x IH]; intros H.
  - rewrite eval_nil. cbn [length]. rewrite Bn_0. lia.
  - apply words_cons in H as [Ha Hx]. specialize (IH Hx).
    rewrite eval_cons. cbn [length]. rewrite Bn_S. pose proof B_pos. nia.
Qed.

Lemma eval_app x y : eval (x ++ y) = eval x + Bn (length x) * eval y.
Proof.
  induction x as [|a x IH]; cbn [app length].
  - rewrite eval_nil, Bn_0. lia.
  - rewrite !eval_cons, IH, Bn_S. ring.
Qed.

Lemma eval_repeat0 n : eval (repeat 0 n) = 0.
Proof. induction n; cbn [repeat]; [reflexivity|]. rewrite eval_cons, IHn. lia. Qed.

Lemma eval_split n x : (n <= length x)%nat -> eval x = eval (firstn n x) + Bn n * eval (skipn n x).
Proof.
  intros H. rewrite <- (firstn_skipn n x) at 1. rewrite eval_app, firstn_length_le by assumption. reflexivity.
Qed.

Lemma eval_single a : eval [a] = a.
Proof. rewrite eval_cons, eval_nil. lia. Qed.

Lemma eval_inj x y : all_words x -> all_words y -> length x = length y -> eval x = eval y -> x = y.
Proof.
  revert y; induction x as [|a x IH]; destruct y as [|b y]; cbn [length]; intros Hx Hy HL HE; try lia; [reflexivity|].
  apply words_cons in Hx as [Ha Hx]; apply words_cons in Hy as [Hb Hy].
  rewrite !eval_cons in HE.
  assert (a = b).
  { rewrite <- (Z.mod_small a B), <- (Z.mod_small b B) by assumption.
    rewrite <- (Z_mod_plus_full a (eval x) B), <- (Z_mod_plus_full b (eval y) B). f_equal. lia. }
  subst b. f_equal. apply IH; try assumption; try lia. pose proof B_pos. nia.
Qed.

(** last word *)
Lemma exists_snoc {A} (l : list A) : l <> [] -> exists l' a, l = l' ++ [a].
Proof. intros H. destruct (exists_last H) as [l' [a E]]. eauto. Qed.

Lemma last_snoc {A} (l : list A) a d : last (l ++ [a]) d = a.
Proof. induction l as [|x l IH]; [reflexivity|]. cbn [app]. destruct (l ++ [a]) eqn:E; [destruct l; discriminate|]. exact IH. Qed.
Lemma removelast_snoc {A} (l : list A) a : removelast (l ++ [a]) = l.
Proof. apply removelast_last. Qed.

Lemma eval_snoc l a : eval (l ++ [a]) = eval l + Bn (length l) * a.
Proof. rewrite eval_app, eval_single. reflexivity. Qed.

(** *** comparison *)
Lemma cmp_top_spec x y : all_words x -> all_words y -> length x = length y ->
  cmp_top x y = match eval (rev x) ?= eval (rev y) with Eq => 0 | Gt => 1 | Lt => -1 end.
Proof.
  revert y; induction x as [|a x IH]; destruct y as [|b y]; cbn [length]; intros Hx Hy HL; try lia; [reflexivity|].
  apply words_cons in Hx as [Ha Hx]; apply words_cons in Hy as [Hb Hy].
  cbn [cmp_top rev]. rewrite !eval_snoc, !rev_length. injection HL as HL. rewrite <- HL.
  pose proof (eval_range (rev x) (words_rev _ Hx)) as Rx. pose proof (eval_range (rev y) (words_rev _ Hy)) as Ry.
  rewrite rev_length in Rx, Ry. rewrite <- HL in Ry. pose proof (Bn_pos (length x)).
  destruct (Z.eqb_spec a b) as [->|Hne].
  - rewrite IH by assumption.
    rewrite (Z.add_comm (eval (rev x))), (Z.add_comm (eval (rev y))), Z.add_compare_mono_l. reflexivity.
  - destruct (Z.gtb_spec a b).
    + replace (_ ?= _) with Gt; [reflexivity|]. symmetry; apply Z.compare_gt_iff. nia.
    + replace (_ ?= _) with Lt; [reflexivity|]. symmetry; apply Z.compare_lt_iff. nia.
Qed.

Lemma cmp_n_spec x y : all_words x -> all_words y -> length x = length y ->
  cmp_n x y = match eval x ?= eval y with Eq => 0 | Gt => 1 | Lt => -1 end.
Proof.
  intros Hx Hy HL. unfold cmp_n. rewrite cmp_top_spec; rewrite ?rev_involutive, ?rev_length; auto using words_rev.
Qed.

Lemma cmp_ge_top_cmp x y : length x = length y -> cmp_ge_top x y = (cmp_top x y >=? 0).
Proof.
  revert y; induction x as [|a x IH]; destruct y as [|b y]; cbn [length]; intros HL; try lia; [reflexivity|].
  cbn [cmp_ge_top cmp_top]. destruct (Z.gtb_spec a b), (Z.ltb_spec a b), (Z.eqb_spec a b); try lia; try reflexivity.
  apply IH; lia.
Qed.

Lemma cmp_ge_n_spec x y : all_words x -> all_words y -> length x = length y ->
  cmp_ge_n x y = (eval x >=? eval y).
Proof.
  intros Hx Hy HL. unfold cmp_ge_n. rewrite cmp_ge_top_cmp by (rewrite !rev_length; assumption).
  change (cmp_top (rev x) (rev y)) with (cmp_n x y). rewrite cmp_n_spec by assumption.
  destruct (Z.compare_spec (eval x) (eval y)); lia.
Qed.

(** *** real size *)
Lemma real_size_top_le x : (real_size_top x <= length x)%nat.
Proof. induction x as [|a x IH]; cbn; [lia|]. destruct (a =? 0); cbn; lia. Qed.

Lemma real_size_top_spec x :
  exists k, x = repeat 0 k ++ skipn k x /\ (k = length x - real_size_top x)%nat /\
    match skipn k x with [] => True | a :: _ => a <> 0 end.
Proof.
  induction x as [|a x (k & E & Hk & Hd)].
  - exists 0%nat; repeat split.
  - cbn [real_size_top]. destruct (Z.eqb_spec a 0) as [->|Hn].
    + exists (S k). cbn [repeat app skipn length]. repeat split.
      * f_equal; assumption.
      * pose proof (real_size_top_le x). lia.
      * assumption.
    + exists 0%nat. cbn [length]. repeat split; [lia|assumption].
Qed.

Lemma get_real_size_spec x : x <> [] ->
  let n := get_real_size x in
  (1 <= n <= length x)%nat /\ x = firstn n x ++ repeat 0 (length x - n) /\
  ((n > 1)%nat -> nth (n - 1) x 0 <> 0) /\ eval x = eval (firstn n x).
Proof.
  intros Hx n. subst n. unfold get_real_size.
  destruct (real_size_top_spec (rev x)) as (k & E & Hk & Hd).
  pose proof (real_size_top_le (rev x)) as Hle. rewrite rev_length in *.
  assert (Lx : (0 < length x)%nat) by (destruct x; [congruence|cbn; lia]).
  assert (E' : x = rev (skipn k (rev x)) ++ repeat 0 k).
  { rewrite <- (rev_involutive x) at 1. rewrite E at 1. rewrite rev_app_distr. f_equal.
    clear. induction k; cbn; [reflexivity|]. rewrite IHk. clear. induction k; cbn; [reflexivity|congruence]. }
  set (r := real_size_top (rev x)) in *.
  assert (Lr : length (rev (skipn k (rev x))) = r) by (rewrite rev_length, skipn_length, rev_length; lia).
  set (p := rev (skipn k (rev x))) in *.
  destruct (Nat.ltb_spec 0 r) as [Hr|Hr].
  - assert (F : firstn r x = p).
    { rewrite E'. rewrite firstn_app, Lr, Nat.sub_diag, firstn_O, app_nil_r. rewrite <- Lr. apply firstn_all. }
    repeat split; try lia.
    + rewrite F. replace (length x - r)%nat with k by lia. exact E'.
    + intros _. rewrite E', app_nth1 by lia.
      unfold p. rewrite rev_nth by (rewrite skipn_length, rev_length; lia).
      rewrite skipn_length, rev_length. replace (length x - k - S (r - 1))%nat with 0%nat by lia.
      destruct (skipn k (rev x)) eqn:Es; [|exact Hd].
      exfalso. unfold p in Lr. rewrite ?Es in Lr. cbn in Lr. lia.
    + rewrite F. rewrite E' at 1. rewrite eval_app, eval_repeat0. lia.
  - assert (r = 0)%nat by lia. assert (k = length x) by lia.
    assert (p = []) by (destruct p; [reflexivity|cbn in Lr; lia]).
    rewrite H1, H0 in E'. cbn [app] in E'.
    repeat split; try lia.
    + destruct x as [|a0 x']; [congruence|]. cbn [length repeat] in E'. injection E' as Ea Ex.
      cbn [firstn app length]. rewrite Ea, Nat.sub_succ, Nat.sub_0_r. f_equal. exact Ex.
    + rewrite E' at 1. rewrite eval_repeat0. destruct x; [congruence|]. cbn [firstn].
      cbn [length repeat] in E'. injection E' as Ea _. rewrite Ea, eval_single. reflexivity.
Qed.

(** *** addition *)
Lemma add_loop_spec x : forall y c, all_words x -> all_words y -> length x = length y -> 0 <= c <= 1 ->
  let '(z, c') := add_loop x y c in
  all_words z /\ length z = length x /\ 0 <= c' <= 1 /\
  eval z + Bn (length x) * c' = eval x + eval y + c.
Proof.
  induction x as [|a x IH]; destruct y as [|b y]; cbn [length]; intros c Hx Hy HL Hc; try lia.
  - cbn [add_loop]. rewrite Z.mod_small by (pose proof B_pos; lia). rewrite !eval_nil, Bn_0. repeat split; try lia. constructor.
  - apply words_cons in Hx as [Ha Hx]; apply words_cons in Hy as [Hb Hy]. cbn [add_loop].
    pose proof B_pos.
    rewrite (Z.mod_small (a + b + c) W64) by (rewrite W64_val; nia).
    set (v := a + b + c). assert (Hv : 0 <= v < 2 * B) by lia.
    assert (Hd : 0 <= v / B <= 1).
    { split; [apply Z.div_pos; lia|]. apply Z.lt_succ_r. apply Z.div_lt_upper_bound; lia. }
    specialize (IH y (v / B) Hx Hy ltac:(lia) Hd).
    destruct (add_loop x y (v / B)) as [z c']. destruct IH as (Wz & Lz & Hc' & E).
    pose proof (Z.mod_pos_bound v B ltac:(lia)). pose proof (Z.div_mod v B ltac:(lia)).
    repeat split; try lia.
    + apply words_cons; split; [lia|assumption].
    + cbn [length]; lia.
    + rewrite !eval_cons, Bn_S. nia.
Qed.

Lemma add_n_spec x y : all_words x -> all_words y -> length x = length y ->
  let '(z, c') := add_n x y in
  all_words z /\ length z = length x /\ 0 <= c' <= 1 /\
  eval z + Bn (length x) * c' = eval x + eval y.
Proof.
  intros. pose proof (add_loop_spec x y 0 ltac:(assumption) ltac:(assumption) ltac:(assumption) ltac:(lia)) as H2.
  unfold add_n. destruct (add_loop x y 0). rewrite Z.add_0_r in H2. exact H2.
Qed.

(** *** subtraction *)
Lemma sub_loop_spec x : forall y c, all_words x -> all_words y -> length x = length y -> 0 <= c <= 1 ->
  let '(z, c') := sub_loop x y c in
  all_words z /\ length z = length x /\ 0 <= c' <= 1 /\
  eval z - Bn (length x) * c' = eval x - eval y - c.
Proof.
  induction x as [|a x IH]; destruct y as [|b y]; cbn [length]; intros c Hx Hy HL Hc; try lia.
  - cbn [sub_loop]. rewrite !eval_nil, Bn_0. repeat split; try lia. constructor.
  - apply words_cons in Hx as [Ha Hx]; apply words_cons in Hy as [Hb Hy]. cbn [sub_loop].
    pose proof B_pos. pose proof B_val as BV.
    set (v := (a - b - c) mod W64).
    assert (Hv : exists k, 0 <= k <= 1 /\ v = a - b - c + W64 * k /\ v / 2 ^ 63 = k /\ v mod B = a - b - c + B * k).
    { unfold v. rewrite W64_val in *. change (2 ^ 63) with (B * B / 2). rewrite BV in *.
      destruct (Z_lt_le_dec (a - b - c) 0).
      - exists 1. 
        assert (E : (a - b - c) mod (4294967296 * 4294967296) = a - b - c + 4294967296 * 4294967296).
        { rewrite <- (Z_mod_plus_full _ 1). rewrite Z.mod_small; lia. }
        rewrite E. split; [lia|]. split; [lia|]. split.
        + change (4294967296 * 4294967296 / 2) with 9223372036854775808.
          symmetry; apply Z.div_unique with (r := a - b - c + 9223372036854775808); [left|]; lia.
        + replace (a - b - c + 4294967296 * 4294967296) with (a - b - c + 4294967296 + 4294967295 * 4294967296) by lia.
          rewrite Z_mod_plus_full. rewrite Z.mod_small; lia.
      - exists 0. rewrite (Z.mod_small (a - b - c)) by lia. split; [lia|]. split; [lia|]. split.
        + apply Z.div_small; lia.
        + rewrite Z.mod_small; lia. }
    destruct Hv as (k & Hk & Ev & Ed & Em). rewrite Ed, Em.
    specialize (IH y k Hx Hy ltac:(lia) Hk).
    destruct (sub_loop x y k) as [z c']. destruct IH as (Wz & Lz & Hc' & E).
    repeat split; try lia.
    + apply words_cons; split; [|assumption]. rewrite <- Em. apply Z.mod_pos_bound; lia.
    + cbn [length]; lia.
    + rewrite !eval_cons, Bn_S. nia.
Qed.

Lemma sub_n_spec x y : all_words x -> all_words y -> length x = length y ->
  let '(z, c') := sub_n x y in
  all_words z /\ length z = length x /\ 0 <= c' <= 1 /\
  eval z - Bn (length x) * c' = eval x - eval y.
Proof.
  intros. pose proof (sub_loop_spec x y 0 ltac:(assumption) ltac:(assumption) ltac:(assumption) ltac:(lia)) as H2.
  unfold sub_n. destruct (sub_loop x y 0). rewrite Z.sub_0_r in H2. exact H2.
Qed.

Lemma sub_n_ge x y : all_words x -> all_words y -> length x = length y -> eval y <= eval x ->
  let '(z, c') := sub_n x y in
  all_words z /\ length z = length x /\ c' = 0 /\ eval z = eval x - eval y.
Proof.
  intros Hx Hy HL HE. pose proof (sub_n_spec x y Hx Hy HL) as H.
  destruct (sub_n x y) as [z c]. destruct H as (Wz & Lz & Hc & E).
  pose proof (eval_range z Wz) as R. rewrite Lz in R.
  pose proof (Bn_pos (length x)). assert (c = 0) by nia. subst c. repeat split; try assumption; lia.
Qed.

(** *** multiplication by a word *)
Lemma mul_word_loop_spec x : forall y H, all_words x -> 0 <= y < B -> 0 <= H < B ->
  let '(z, h) := mul_word_loop x y H in
  all_words z /\ length z = length x /\ 0 <= h < B /\
  eval z + Bn (length x) * h = eval x * y + H.
Proof.
  induction x as [|a x IH]; cbn [length]; intros y H Hx Hy HH.
  - cbn [mul_word_loop]. rewrite Z.mod_small by lia. rewrite !eval_nil, Bn_0. repeat split; try lia. constructor.
  - apply words_cons in Hx as [Ha Hx]. cbn [mul_word_loop]. pose proof B_pos.
    assert (a * y <= (B - 1) * (B - 1)) by nia.
    rewrite (Z.mod_small (a * y) W64) by (rewrite W64_val; nia).
    rewrite (Z.mod_small (a * y + H) W64) by (rewrite W64_val; nia).
    set (v := a * y + H). assert (Hv : 0 <= v < B * B) by (unfold v; nia).
    assert (Hd : 0 <= v / B < B) by (split; [apply Z.div_pos; lia|apply Z.div_lt_upper_bound; lia]).
    specialize (IH y (v / B) Hx Hy Hd).
    destruct (mul_word_loop x y (v / B)) as [z h]. destruct IH as (Wz & Lz & Hh & E).
    pose proof (Z.mod_pos_bound v B ltac:(lia)). pose proof (Z.div_mod v B ltac:(lia)).
    repeat split; try lia.
    + apply words_cons; split; [lia|assumption].
    + cbn [length]; lia.
    + rewrite !eval_cons, Bn_S. unfold v in *. nia.
Qed.

Lemma mul_word_n_spec x y : all_words x -> 0 <= y < B ->
  let '(z, h) := mul_word_n x y in
  all_words z /\ length z = length x /\ 0 <= h < B /\
  eval z + Bn (length x) * h = eval x * y.
Proof.
  intros Hx Hy. pose proof (mul_word_loop_spec x y 0 Hx Hy ltac:(lia)) as H.
  unfold mul_word_n. destruct (mul_word_loop x y 0). rewrite Z.add_0_r in H. exact H.
Qed.

Lemma mul_word_add_loop_spec x : forall z y H, all_words z -> all_words x -> length z = length x -> 0 <= y < B -> 0 <= H < B ->
  let '(r, h) := mul_word_add_loop z x y H in
  all_words r /\ length r = length x /\ 0 <= h < B /\
  eval r + Bn (length x) * h = eval z + eval x * y + H.
Proof.
  induction x as [|a x IH]; intros [|c z] y H Hz Hx HL Hy HH; cbn [length] in *; try lia.
  - cbn [mul_word_add_loop]. rewrite !eval_nil, Bn_0. repeat split; try lia. constructor.
  - apply words_cons in Hx as [Ha Hx]; apply words_cons in Hz as [Hc Hz]. cbn [mul_word_add_loop]. pose proof B_pos.
    assert (a * y <= (B - 1) * (B - 1)) by nia.
    rewrite (Z.mod_small (a * y) W64) by (rewrite W64_val; nia).
    rewrite (Z.mod_small (a * y + H) W64) by (rewrite W64_val; nia).
    rewrite (Z.mod_small (a * y + H + c) W64) by (rewrite W64_val; nia).
    set (v := a * y + H + c). assert (Hv : 0 <= v < B * B) by (unfold v; nia).
    assert (Hd : 0 <= v / B < B) by (split; [apply Z.div_pos; lia|apply Z.div_lt_upper_bound; lia]).
    specialize (IH z y (v / B) Hz Hx ltac:(lia) Hy Hd).
    destruct (mul_word_add_loop z x y (v / B)) as [r h]. destruct IH as (Wz & Lz & Hh & E).
    pose proof (Z.mod_pos_bound v B ltac:(lia)). pose proof (Z.div_mod v B ltac:(lia)).
    repeat split; try lia.
    + apply words_cons; split; [lia|assumption].
    + cbn [length]; lia.
    + rewrite !eval_cons, Bn_S. unfold v in *. nia.
Qed.

Lemma mul_word_add_n_spec z x y : all_words z -> all_words x -> length z = length x -> 0 <= y < B ->
  let '(r, h) := mul_word_add_n z x y in
  all_words r /\ length r = length x /\ 0 <= h < B /\
  eval r + Bn (length x) * h = eval z + eval x * y.
Proof.
  intros Hz Hx HL Hy. pose proof (mul_word_add_loop_spec x z y 0 Hz Hx HL Hy ltac:(lia)) as H.
  unfold mul_word_add_n. destruct (mul_word_add_loop z x y 0) as [r h]. rewrite Z.add_0_r in H.
  destruct H as (? & ? & ? & ?). rewrite Z.mod_small by lia. auto.
Qed.

(** schoolbook product *)
Lemma mul_rows_spec ys : forall z x i, all_words z -> all_words x -> all_words ys ->
  length z = (i + length x)%nat ->
  all_words (mul_rows z x i ys) /\ length (mul_rows z x i ys) = (length z + length ys)%nat /\
  eval (mul_rows z x i ys) = eval z + Bn i * (eval x * eval ys).
Proof.
  induction ys as [|y ys IH]; intros z x i Hz Hx Hys HL.
  - cbn [mul_rows length]. rewrite eval_nil. repeat split; try assumption; lia.
  - apply words_cons in Hys as [Hy Hys]. cbn [mul_rows].
    pose proof (mul_word_add_n_spec (skipn i z) x y (words_skipn _ _ Hz) Hx ltac:(rewrite skipn_length; lia) Hy) as H.
    destruct (mul_word_add_n (skipn i z) x y) as [r h]. destruct H as (Wr & Lr & Hh & E).
    assert (Lf : length (firstn i z) = i) by (apply firstn_length_le; lia).
    destruct (IH (firstn i z ++ r ++ [h]) x (S i)) as (W & L & V); try assumption.
    + apply words_app; split; [apply words_firstn; assumption|]. apply words_app; split; [assumption|].
      apply words_cons; split; [assumption|constructor].
    + rewrite !app_length. cbn [length]. lia.
    + split; [assumption|]. split.
      * rewrite L, !app_length. cbn [length]. lia.
      * rewrite V, eval_app, Lf, eval_snoc, Lr, eval_cons, Bn_S.
        rewrite (eval_split i z) by lia. nia.
Qed.

Lemma mul_nm_spec x y : all_words x -> all_words y -> x <> [] -> y <> [] ->
  all_words (mul_nm x y) /\ length (mul_nm x y) = (length x + length y)%nat /\
  eval (mul_nm x y) = eval x * eval y.
Proof.
  assert (Hcore : forall x y, all_words x -> all_words y -> y <> [] ->
    let r := match y with [] => [] | y0 :: ys => let '(r, h) := mul_word_n x y0 in mul_rows (r ++ [h]) x 1 ys end in
    all_words r /\ length r = (length x + length y)%nat /\ eval r = eval x * eval y).
  { clear. intros x [|y0 ys] Hx Hy Hn; [congruence|].
    apply words_cons in Hy as [Hy0 Hys].
    pose proof (mul_word_n_spec x y0 Hx Hy0) as H. destruct (mul_word_n x y0) as [r h].
    destruct H as (Wr & Lr & Hh & E). cbv zeta.
    destruct (mul_rows_spec ys (r ++ [h]) x 1) as (W & L & V); try assumption.
    - apply words_app; split; [assumption|]. apply words_cons; split; [assumption|constructor].
    - rewrite app_length; cbn [length]; lia.
    - split; [assumption|]. split.
      + rewrite L, app_length; cbn [length]; lia.
      + rewrite V, eval_snoc, Lr, Bn_1, eval_cons. nia. }
  intros Hx Hy Nx Ny. unfold mul_nm. destruct (Nat.ltb_spec (length x) (length y)).
  - destruct (Hcore y x Hy Hx Nx) as (W & L & V). cbv zeta in *. repeat split; try assumption; lia.
  - exact (Hcore x y Hx Hy Ny).
Qed.

(** *** add/sub of a word *)
Lemma add_one_spec y : all_words y ->
  let '(z, c) := add_one y in
  all_words z /\ length z = length y /\ 0 <= c <= 1 /\ eval z + Bn (length y) * c = eval y + 1.
Proof.
  induction y as [|a t IH]; intros H.
  - cbn [add_one sub_one div_word_loop rev length]. rewrite ?eval_nil, Bn_0. repeat split; try lia. constructor.
  - apply words_cons in H as [Ha Ht]. cbn [add_one]. pose proof B_pos.
    destruct (Z.eq_dec a (B - 1)) as [->|Hn].
    + replace ((B - 1 + 1) mod B) with 0 by (replace (B - 1 + 1) with B by lia; rewrite Z_mod_same_full; reflexivity).
      cbn [Z.eqb]. specialize (IH Ht). destruct (add_one t) as [r c]. destruct IH as (Wr & Lr & Hc & E).
      repeat split; try lia.
      * apply words_cons; split; [lia|assumption].
      * cbn; lia.
      * cbn [length]. rewrite !eval_cons, Bn_S. nia.
    + rewrite Z.mod_small by lia. replace (a + 1 =? 0) with false by lia.
      repeat split; try lia.
      * apply words_cons; split; [lia|assumption].
      * rewrite !eval_cons. lia.
Qed.

Lemma add_word_spec y x : all_words y -> 0 <= x < B -> y <> [] ->
  let '(z, c) := add_word y x in
  all_words z /\ length z = length y /\ 0 <= c <= 1 /\ eval z + Bn (length y) * c = eval y + x.
Proof.
  destruct y as [|a t]; [congruence|]. intros H Hx _. apply words_cons in H as [Ha Ht]. cbn [add_word]. pose proof B_pos.
  destruct (Z_lt_le_dec (a + x) B).
  - rewrite Z.mod_small by lia. replace (a + x >=? x) with true by lia.
    repeat split; try lia.
    + apply words_cons; split; [lia|assumption].
    + rewrite !eval_cons. lia.
  - assert (E : (a + x) mod B = a + x - B).
    { replace (a + x) with (a + x - B + 1 * B) by lia. rewrite Z_mod_plus_full, Z.mod_small; lia. }
    rewrite E. replace (a + x - B >=? x) with false by lia.
    pose proof (add_one_spec t Ht) as H1. destruct (add_one t) as [r c]. destruct H1 as (Wr & Lr & Hc & E1).
    repeat split; try lia.
    + apply words_cons; split; [lia|assumption].
    + cbn; lia.
    + cbn [length]. rewrite !eval_cons, Bn_S. nia.
Qed.

Lemma sub_one_spec y : all_words y ->
  let '(z, c) := sub_one y in
  all_words z /\ length z = length y /\ 0 <= c <= 1 /\ eval z - Bn (length y) * c = eval y - 1.
Proof.
  induction y as [|a t IH]; intros H.
  - cbn [add_one sub_one div_word_loop rev length]. rewrite ?eval_nil, Bn_0. repeat split; try lia. constructor.
  - apply words_cons in H as [Ha Ht]. cbn [sub_one]. pose proof B_pos.
    destruct (Z.eqb_spec a 0) as [->|Hn].
    + replace ((0 - 1) mod B) with (B - 1).
      2:{ rewrite <- (Z_mod_plus_full _ 1). rewrite Z.mod_small; lia. }
      specialize (IH Ht). destruct (sub_one t) as [r c]. destruct IH as (Wr & Lr & Hc & E).
      repeat split; try lia.
      * apply words_cons; split; [lia|assumption].
      * cbn; lia.
      * cbn [length]. rewrite !eval_cons, Bn_S. nia.
    + rewrite Z.mod_small by lia.
      repeat split; try lia.
      * apply words_cons; split; [lia|assumption].
      * rewrite !eval_cons. lia.
Qed.

Lemma sub_word_spec y x : all_words y -> 0 <= x < B -> y <> [] ->
  let '(z, c) := sub_word y x in
  all_words z /\ length z = length y /\ 0 <= c <= 1 /\ eval z - Bn (length y) * c = eval y - x.
Proof.
  destruct y as [|a t]; [congruence|]. intros H Hx _. apply words_cons in H as [Ha Ht]. cbn [sub_word]. pose proof B_pos.
  destruct (Z.geb_spec a x).
  - rewrite Z.mod_small by lia. repeat split; try lia.
    + apply words_cons; split; [lia|assumption].
    + rewrite !eval_cons. lia.
  - assert (E : (a - x) mod B = a - x + B).
    { rewrite <- (Z_mod_plus_full _ 1). rewrite Z.mod_small; lia. }
    rewrite E.
    pose proof (sub_one_spec t Ht) as H1. destruct (sub_one t) as [r c]. destruct H1 as (Wr & Lr & Hc & E1).
    repeat split; try lia.
    + apply words_cons; split; [lia|assumption].
    + cbn; lia.
    + cbn [length]. rewrite !eval_cons, Bn_S. nia.
Qed.

(** *** division by a word *)
Lemma div_word1_spec H L y : 0 <= H < y -> 0 <= L < B -> y <= B ->
  let '(q, r) := div_word1 H L y in
  0 <= q < B /\ 0 <= r < y /\ H * B + L = q * y + r.
Proof.
  intros HH HL Hy. unfold div_word1. rewrite lor_shiftl_add by (try rewrite B_eq; lia). rewrite B_eq.
  pose proof B_pos. set (t := H * B + L).
  assert (Ht : 0 <= t < y * B) by (unfold t; nia).
  assert (Hq : 0 <= t / y < B) by (split; [apply Z.div_pos; lia|apply Z.div_lt_upper_bound; nia]).
  pose proof (Z.mod_pos_bound t y ltac:(lia)). pose proof (Z.div_mod t y ltac:(lia)).
  rewrite (Z.mod_small (t / y)) by lia. rewrite (Z.mod_small (t mod y)) by lia.
  repeat split; lia.
Qed.

Lemma div_word_loop_spec x : forall r y, all_words x -> 0 <= r < y -> y < B ->
  let '(q, r') := div_word_loop r x y in
  all_words q /\ length q = length x /\ 0 <= r' < y /\
  r * Bn (length x) + eval (rev x) = eval (rev q) * y + r'.
Proof.
  induction x as [|a x IH]; cbn [length]; intros r y Hx Hr Hy.
  - cbn [add_one sub_one div_word_loop rev length]. rewrite ?eval_nil, Bn_0. repeat split; try lia. constructor.
  - apply words_cons in Hx as [Ha Hx]. cbn [div_word_loop].
    pose proof (div_word1_spec r a y Hr Ha ltac:(lia)) as H1. destruct (div_word1 r a y) as [q r1].
    destruct H1 as (Hq & Hr1 & E1).
    specialize (IH r1 y Hx Hr1 Hy). destruct (div_word_loop r1 x y) as [qs rr].
    destruct IH as (Wq & Lq & Hrr & E2).
    repeat split; try lia.
    + apply words_cons; split; assumption.
    + cbn; lia.
    + cbn [rev]. rewrite !eval_snoc, !rev_length, Lq, Bn_S. nia.
Qed.

Lemma div_word_spec x y : all_words x -> 0 < y < B ->
  exists q r, div_word x y = Ok (q, r) /\ all_words q /\ length q = length x /\
    0 <= r < y /\ eval x = eval q * y + r.
Proof.
  intros Hx Hy. unfold div_word. replace (y =? 0) with false by lia. cbn [negb check bind].
  pose proof (div_word_loop_spec (rev x) 0 y (words_rev _ Hx) ltac:(lia) ltac:(lia)) as H.
  destruct (div_word_loop 0 (rev x) y) as [q r]. destruct H as (Wq & Lq & Hr & E).
  rewrite rev_involutive in E. rewrite rev_length in Lq.
  exists (rev q), r. repeat split; try lia; auto using words_rev. rewrite rev_length; lia.
Qed.

Lemma mod_word_spec x y : all_words x -> 0 < y < B -> mod_word x y = Ok (eval x mod y).
Proof.
  intros Hx Hy. unfold mod_word. replace (y =? 0) with false by lia. cbn [negb check bind].
  pose proof (div_word_loop_spec (rev x) 0 y (words_rev _ Hx) ltac:(lia) ltac:(lia)) as H.
  destruct (div_word_loop 0 (rev x) y) as [q r]. destruct H as (Wq & Lq & Hr & E).
  rewrite rev_involutive in E. cbn [snd]. f_equal.
  apply Z.mod_unique_pos with (q := eval (rev q)); lia.
Qed.

(** *** shifts *)
Lemma shiftl_word a bit : 0 <= a < B -> 0 < bit < 32 ->
  Z.shiftl a bit mod B = (a * 2 ^ bit) mod B.
Proof. intros. rewrite Z.shiftl_mul_pow2 by lia. reflexivity. Qed.

(** splitting of a word at [bit] from the top *)
Lemma word_shl_split a bit : 0 <= a < B -> 0 < bit < 32 ->
  a * 2 ^ bit = Z.shiftl a bit mod B + B * Z.shiftr a (32 - bit) /\
  0 <= Z.shiftr a (32 - bit) < 2 ^ bit /\
  exists h, Z.shiftl a bit mod B = h * 2 ^ bit.
Proof.
  intros Ha Hb. rewrite Z.shiftl_mul_pow2, Z.shiftr_div_pow2 by lia.
  assert (EB : B = 2 ^ (32 - bit) * 2 ^ bit) by (rewrite <- Z.pow_add_r by lia; rewrite <- B_eq; f_equal; lia).
  set (p := 2 ^ (32 - bit)) in *. set (s := 2 ^ bit) in *.
  assert (Hp : 0 < p) by (apply Z.pow_pos_nonneg; lia). assert (Hs : 0 < s) by (apply Z.pow_pos_nonneg; lia).
  rewrite EB in *.
  assert (Em : (a * s) mod (p * s) = (a mod p) * s) by (apply Z.mul_mod_distr_r; lia).
  rewrite Em. pose proof (Z.div_mod a p ltac:(lia)). pose proof (Z.mod_pos_bound a p ltac:(lia)).
  repeat split.
  - nia.
  - apply Z.div_pos; lia.
  - apply Z.div_lt_upper_bound; lia.
  - exists (a mod p). reflexivity.
Qed.

Lemma shl_loop_spec x : forall lo bit, all_words x -> 0 <= lo < B -> 0 < bit < 32 ->
  all_words (shl_loop lo x bit) /\ length (shl_loop lo x bit) = length x /\
  eval (shl_loop lo x bit) + Bn (length x) * Z.shiftr (last (lo :: x) 0) (32 - bit) =
  eval x * 2 ^ bit + Z.shiftr lo (32 - bit).
Proof.
  induction x as [|a x IH]; intros lo bit Hx Hlo Hb.
  - cbn [shl_loop length last]. rewrite eval_nil, Bn_0. repeat split; try lia. constructor.
  - apply words_cons in Hx as [Ha Hx]. cbn [shl_loop length].
    destruct (IH a bit Hx Ha Hb) as (W & L & E).
    destruct (word_shl_split a bit Ha Hb) as (Ea & Ra & (h & Eh)).
    destruct (word_shl_split lo bit Hlo Hb) as (_ & Rlo & _).
    assert (Eo : Z.lor (Z.shiftl a bit mod B) (Z.shiftr lo (32 - bit)) = Z.shiftl a bit mod B + Z.shiftr lo (32 - bit)).
    { rewrite Eh. apply lor_mul_add; lia. }
    rewrite Eo. pose proof B_pos.
    pose proof (Z.mod_pos_bound (Z.shiftl a bit) B ltac:(lia)) as Rm.
    assert (Hw : 0 <= Z.shiftl a bit mod B + Z.shiftr lo (32 - bit) < B).
    { rewrite <- Eo. rewrite <- B_eq in *. apply lor_range; try lia.
      split; [lia|]. apply Z.lt_le_trans with (2 ^ bit); [lia|]. apply Z.pow_le_mono_r; lia. }
    repeat split.
    + apply words_cons; split; assumption.
    + lia.
    + change (last (lo :: a :: x) 0) with (last (a :: x) 0).
      rewrite !eval_cons, Bn_S. nia.
Qed.

Lemma shl_n_spec x bit : all_words x -> x <> [] -> 0 < bit < 32 ->
  let '(z, top) := shl_n x bit in
  all_words z /\ length z = length x /\ 0 <= top < 2 ^ bit /\
  eval z + Bn (length x) * top = eval x * 2 ^ bit.
Proof.
  intros Hx Hn Hb. unfold shl_n. pose proof B_pos.
  destruct (shl_loop_spec x 0 bit Hx ltac:(lia) Hb) as (W & L & E).
  rewrite Z.shiftr_0_l in E.
  assert (El : last (0 :: x) 0 = last x 0) by (destruct x; [congruence|reflexivity]).
  rewrite El in E.
  assert (Hl : 0 <= last x 0 < B).
  { destruct (exists_snoc x Hn) as (x' & a & ->). rewrite last_snoc. apply words_app in Hx as [_ Hx]. apply words_cons in Hx. tauto. }
  destruct (word_shl_split _ bit Hl Hb) as (_ & R & _).
  repeat split; try assumption; try lia.
Qed.

Lemma shr_loop_spec x : forall prev bit, all_words x -> 0 <= prev < B -> 0 < bit < 32 ->
  all_words (shr_loop prev x bit) /\ length (shr_loop prev x bit) = S (length x) /\
  eval (shr_loop prev x bit) = eval (prev :: x) / 2 ^ bit.
Proof.
  induction x as [|t x IH]; intros prev bit Hx Hp Hb.
  - cbn [shr_loop length]. rewrite !eval_single, Z.shiftr_div_pow2 by lia.
    repeat split; try lia. apply words_cons; split; [|constructor].
    assert (0 < 2 ^ bit) by (apply Z.pow_pos_nonneg; lia).
    split; [apply Z.div_pos; lia|]. apply Z.div_lt_upper_bound; nia.
  - apply words_cons in Hx as [Ht Hx]. cbn [shr_loop length].
    destruct (IH t bit Hx Ht Hb) as (W & L & E).
    assert (H32 : 0 < 32 - bit < 32) by lia.
    destruct (word_shl_split t (32 - bit) Ht H32) as (Et & Rt & (h & Eh)).
    replace (32 - (32 - bit)) with bit in * by lia.
    rewrite Z.shiftr_div_pow2 in * by lia.
    assert (EB : B = 2 ^ (32 - bit) * 2 ^ bit) by (rewrite <- Z.pow_add_r by lia; rewrite <- B_eq; f_equal; lia).
    assert (Hpd : 0 <= prev / 2 ^ bit < 2 ^ (32 - bit)).
    { assert (0 < 2 ^ bit) by (apply Z.pow_pos_nonneg; lia).
      split; [apply Z.div_pos; lia|]. apply Z.div_lt_upper_bound; nia. }
    assert (Eo : Z.lor (prev / 2 ^ bit) (Z.shiftl t (32 - bit) mod B) = prev / 2 ^ bit + Z.shiftl t (32 - bit) mod B).
    { rewrite Eh, lor_add_mul by lia. lia. }
    rewrite Eo.
    repeat split.
    + apply words_cons; split; [|assumption]. rewrite <- Eo. rewrite <- B_eq. apply lor_range; [lia| |].
      * split; [lia|]. apply Z.lt_le_trans with (2 ^ (32 - bit)); [lia|]. apply Z.pow_le_mono_r; lia.
      * rewrite B_eq. pose proof B_pos. apply Z.mod_pos_bound; lia.
    + lia.
    + rewrite eval_cons, E.
      rewrite (eval_cons prev), (eval_cons t).
      (* (prev + B*(t + B*X)) / s  where B = p*s *)
      set (s := 2 ^ bit) in *. set (p := 2 ^ (32 - bit)) in *.
      assert (0 < s) by (apply Z.pow_pos_nonneg; lia).
      replace (prev + B * (t + B * eval x)) with (prev + (p * (t + B * eval x)) * s) by (clear - EB; nia).
      rewrite Z.div_add by lia.
      replace (t + B * eval x) with (t + (p * eval x) * s) by (clear - EB; nia).
      rewrite Z.div_add by lia.
      set (m := Z.shiftl t (32 - bit) mod B) in *.
      assert (Et2 : t * p = m + B * (t / s)) by exact Et. rewrite EB in Et2 |- *. nia.
Qed.

Lemma shr_n_spec x bit : all_words x -> x <> [] -> 0 < bit < 32 ->
  all_words (shr_n x bit) /\ length (shr_n x bit) = length x /\ eval (shr_n x bit) = eval x / 2 ^ bit.
Proof.
  destruct x as [|a t]; [congruence|]. intros Hx _ Hb. apply words_cons in Hx as [Ha Ht].
  cbn [shr_n length]. apply shr_loop_spec; assumption.
Qed.

Lemma pow2_split bit : 0 <= bit -> 2 ^ bit = Bn (Z.to_nat (bit / 32)) * 2 ^ (bit mod 32).
Proof.
  intros H. pose proof (Z.div_mod bit 32 ltac:(lia)). pose proof (Z.mod_pos_bound bit 32 ltac:(lia)).
  pose proof (Z.div_pos bit 32 ltac:(lia) ltac:(lia)).
  rewrite Bn_pow2, Z2Nat.id by lia. rewrite <- Z.pow_add_r by lia. f_equal. lia.
Qed.

Lemma shift_left_spec x bit : all_words x -> x <> [] -> 0 <= bit ->
  all_words (shift_left x bit) /\
  length (shift_left x bit) = (length x + Z.to_nat ((bit + 31) / 32))%nat /\
  eval (shift_left x bit) = eval x * 2 ^ bit.
Proof.
  intros Hx Hn Hb. unfold shift_left.
  pose proof (Z.mod_pos_bound bit 32 ltac:(lia)) as Rm. pose proof (Z.div_mod bit 32 ltac:(lia)) as Dm.
  pose proof (Z.div_pos bit 32 ltac:(lia) ltac:(lia)).
  assert (Ep := pow2_split bit Hb).
  destruct (Z.eqb_spec (bit mod 32) 0) as [E|E].
  - rewrite E in Ep. change (2 ^ 0) with 1 in Ep.
    assert (Ec : (bit + 31) / 32 = bit / 32).
    { symmetry. apply Z.div_unique with (r := 31); [left; lia|lia]. }
    rewrite Ec. repeat split.
    + apply words_app; split; [apply words_repeat0|assumption].
    + rewrite app_length, repeat_length. lia.
    + rewrite eval_app, eval_repeat0, repeat_length. nia.
  - assert (Ec : (bit + 31) / 32 = bit / 32 + 1).
    { symmetry. apply Z.div_unique with (r := bit mod 32 - 1); [left; lia|lia]. }
    pose proof (shl_n_spec x (bit mod 32) Hx Hn ltac:(lia)) as H1.
    destruct (shl_n x (bit mod 32)) as [z top]. destruct H1 as (Wz & Lz & Rt & Ez).
    assert (2 ^ (bit mod 32) <= B) by (rewrite <- B_eq; apply Z.pow_le_mono_r; lia).
    rewrite Ec. repeat split.
    + apply words_app; split; [apply words_repeat0|]. apply words_app; split; [assumption|].
      apply words_cons; split; [lia|constructor].
    + rewrite !app_length, repeat_length. cbn [length]. lia.
    + rewrite eval_app, eval_repeat0, repeat_length, eval_snoc, Lz. rewrite Ep. nia.
Qed.

Lemma shift_right_spec x bit : all_words x -> 0 <= bit < 32 * Z.of_nat (length x) ->
  all_words (shift_right x bit) /\
  length (shift_right x bit) = (length x - Z.to_nat (bit / 32))%nat /\
  eval (shift_right x bit) = eval x / 2 ^ bit.
Proof.
  intros Hx Hb. unfold shift_right.
  pose proof (Z.mod_pos_bound bit 32 ltac:(lia)) as Rm. pose proof (Z.div_mod bit 32 ltac:(lia)) as Dm.
  pose proof (Z.div_pos bit 32 ltac:(lia) ltac:(lia)).
  assert (Ep := pow2_split bit ltac:(lia)).
  set (q := Z.to_nat (bit / 32)) in *.
  assert (Hq : (q < length x)%nat) by (unfold q; lia).
  assert (Es : eval (skipn q x) = eval x / Bn q).
  { rewrite (eval_split q x) by lia. pose proof (Bn_pos q).
    pose proof (eval_range (firstn q x) (words_firstn q x Hx)) as R. rewrite firstn_length_le in R by lia.
    rewrite Z.add_comm, Z.mul_comm, Z.div_add_l by lia. rewrite (Z.div_small (eval _)) by lia. lia. }
  destruct (Z.eqb_spec (bit mod 32) 0) as [E|E].
  - rewrite E in Ep. change (2 ^ 0) with 1 in Ep. rewrite Z.mul_1_r in Ep.
    repeat split.
    + apply words_skipn; assumption.
    + apply skipn_length.
    + rewrite Ep. exact Es.
  - destruct (shr_n_spec (skipn q x) (bit mod 32)) as (W & L & V).
    + apply words_skipn; assumption.
    + intros C. apply (f_equal (@length Z)) in C. rewrite skipn_length in C. cbn in C. lia.
    + lia.
    + repeat split; [assumption|rewrite L; apply skipn_length|].
      rewrite V, Es, Ep, Z.div_div; [reflexivity| |]; pose proof (Bn_pos q); [lia|apply Z.pow_pos_nonneg; lia].
Qed.
