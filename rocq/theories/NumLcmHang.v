(** lcm does not return when the divisor is cleared in full before the division starts. *)
From Coq Require Import List ZArith Bool Lia PeanoNat Znumtheory.
From Verif Require Import Outcome LoopModel LoopProofs BitLemmas WordsModel WordsSpec WordsProofs DivProofs
  UtilsSpec BigintModel BigintSpec BigintProofs BigintBits BigintClosure BigintClaims BufferProofs NumModel NumFuelModel NumProofs NumLcm.
Import ListNotations.
Open Scope Z_scope.

Lemma loop2_forever {S R} (step : S -> loopres S R) (I : S -> Prop) : (forall s, I s -> exists s', step s = Next s' /\ I s') ->
  forall k s, I s -> exists s', loop2 k step s = Next s' /\ I s'.
Proof.
  intros H. induction k as [|k IH]; intros s Hs; [apply H; exact Hs|]. cbn [loop2]. destruct (IH s Hs) as (s1 & -> & H1). destruct (IH s1 H1) as (s2 & -> & H2). exists s2. split; [reflexivity|exact H2].
Qed.
(** words that cmp_ge_n and sub_n treat as zero *)
Lemma eval_zeros n : eval (repeat 0 n) = 0.
Proof. induction n as [|n IH]; [reflexivity|]. cbn [repeat eval]. rewrite IH. lia. Qed.
Lemma words_zeros n : all_words (repeat 0 n).
Proof. apply Forall_forall. intros w H. apply repeat_spec in H. subst w. unfold is_word. pose proof B_val. lia. Qed.
Lemma sub_zeros x : all_words x -> fst (sub_n x (repeat 0 (length x))) = x.
Proof.
  intros W. pose proof (sub_n_spec x (repeat 0 (length x)) W (words_zeros _) ltac:(rewrite repeat_length; reflexivity)) as H. destruct (sub_n x (repeat 0 (length x))) as [z c']. destruct H as (Wz & Lz & Rc & E).
  rewrite eval_zeros in E. pose proof (eval_range x W) as Rx. pose proof (eval_range z Wz) as Rz. rewrite Lz in Rz. cbn [fst]. apply eval_inj; [exact Wz|exact W|exact Lz|]. assert (c' = 0 \/ c' = 1) as [-> | ->] by lia; lia.
Qed.
Lemma cmp_zeros x : all_words x -> cmp_ge_n x (repeat 0 (length x)) = true.
Proof. intros W. rewrite cmp_ge_n_spec; [|exact W|apply words_zeros|rewrite repeat_length; reflexivity]. rewrite eval_zeros. pose proof (eval_range x W). apply Z.geb_le. lia. Qed.

Section STUCK.
Variables (x : list Z) (yn : nat) (yTop rev_ : Z).
Let xn := length x.
Let qn := (xn - yn + 1)%nat.
Hypothesis (Wx : all_words x) (Tx : last x 0 <> 0) (Hy : (1 < yn)%nat) (Hx : (2 * yn <= xn)%nat).
Definition stuck (s : list Z * list Z) : Prop := snd s = x /\ firstn yn (fst s) = repeat 0 yn /\ length (fst s) = qn.
Lemma stuck_step s : stuck s -> exists s', div_full_step_alias yn qn yTop rev_ s = Next s' /\ stuck s'.
Proof.
  destruct s as [st w]. intros (E & F & L). cbn [fst snd] in *. subst w. unfold div_full_step_alias. fold xn. rewrite F.
  rewrite (proj2 (Nat.ltb_ge xn yn)) by lia. rewrite (proj2 (Z.eqb_neq _ _) Tx). set (d := (xn - yn)%nat).
  assert (Ls : length (skipn d x) = yn) by (rewrite skipn_length; fold xn; unfold d; lia). assert (Ws : all_words (skipn d x)) by (apply words_skipn; exact Wx).
  pose proof (cmp_zeros _ Ws) as C. pose proof (sub_zeros _ Ws) as S0. rewrite Ls in C, S0. rewrite C, S0. rewrite firstn_skipn. rewrite (proj2 (Nat.eqb_neq d 0)) by (unfold d; lia).
  eexists. split; [reflexivity|]. unfold stuck, over, add_at. cbn [fst snd]. split; [reflexivity|]. assert (F1 : firstn qn st = st) by (apply firstn_all2; rewrite L; apply Nat.le_refl). assert (F2 : skipn qn st = []) by (apply skipn_all2; rewrite L; apply Nat.le_refl). rewrite F1, F2. rewrite app_nil_r. split.
  - rewrite firstn_app, firstn_firstn, firstn_length, L. replace (Nat.min yn d) with yn by (unfold d; lia). replace (yn - Nat.min d qn)%nat with O by (unfold d, qn; lia). rewrite F. cbn [firstn]. apply app_nil_r.
  - rewrite app_length, add_word_length, firstn_length, skipn_length, L. unfold d, qn. lia.
Qed.
Lemma stuck_run k st : stuck (st, x) -> run_loop k (div_full_step_alias yn qn yTop rev_) (st, x) = NoFuel.
Proof. intros H. unfold run_loop. destruct (loop2_forever _ stuck stuck_step k (st, x) H) as (s' & -> & _). reflexivity. Qed.
End STUCK.

Lemma div_alias_hangs c x y k : valid c x -> valid c y -> clobbers x y = true -> (2 * size y <= size x)%nat ->
  div_alias_fuel k (size x - size y + 1) (words x) (words y) = NoFuel.
Proof.
  intros Hx Hy Hc H2. destruct (words_valid c x Hx) as (Wx & Lx & Nx). destruct (words_valid c y Hy) as (Wy & Ly & Ny).
  unfold div_alias_fuel. cbv zeta. rewrite Ly, (real_words c x Hx), (nth_last_words c y Hy). rewrite firstn_all2 by lia. rewrite Lx. unfold clobbers in Hc. rewrite Hc.
  apply andb_prop in Hc. destruct Hc as [Hc _]. apply andb_prop in Hc. destruct Hc as [Hc _]. apply Nat.ltb_lt in Hc.
  pose proof Hx as (_ & _ & Ht). assert (Tx : last (words x) 0 <> 0). { rewrite (nth_last_words c x Hx). apply Ht. lia. }
  rewrite <- Lx. rewrite (stuck_run (words x) (size y)); [reflexivity|exact Wx|exact Tx|exact Hc|lia|].
  unfold stuck, over. cbn [fst snd]. split; [reflexivity|]. rewrite Lx. rewrite skipn_all2 by (rewrite app_length, Ly, repeat_length; lia). rewrite app_nil_r. split; [|apply repeat_length].
  replace (size x - size y + 1)%nat with (size y + (size x - 2 * size y + 1))%nat by lia. rewrite repeat_app.
  rewrite firstn_app, repeat_length, Nat.sub_diag, firstn_O, app_nil_r. apply firstn_all2. rewrite repeat_length. apply Nat.le_refl.
Qed.
Lemma lcm_fuel_eq c z x y : lcm c z x y = lcm_fuel (33 * length (firstn (get_real_size (words x)) (words x)) + 1) c z x y.
Proof. reflexivity. Qed.
Lemma lcm_hangs c z x y k : valid c x -> valid c y -> 0 <= value x -> 0 <= value y ->
  let g := Z.gcd (value x) (value y) in
  2 ^ 32 <= g -> (Z.log2 g + 1) mod 32 = 0 -> 2 ^ (2 * (Z.log2 g + 1) - 32) <= value x ->
  lcm_fuel k c z x y = NoFuel.
Proof.
  intros Hx Hy Px Py g G1 G2 G3. unfold lcm_fuel. destruct (gcd_spec c x y Hx Hy) as (h & -> & Hh & Eh & Ph). specialize (Ph Px Py). cbn [bind]. rewrite Z.abs_eq in Eh by exact Ph. fold g in Eh.
  assert (G0 : 0 < g). { apply Z.lt_le_trans with (2 := G1). reflexivity. }
  assert (L32 : 32 <= Z.log2 g) by (apply Z.log2_le_pow2; assumption).
  assert (C : clobbers x h = true).
  { apply (clobbers_value c x h Hx Hh). rewrite Eh, (Z.abs_eq g), (Z.abs_eq (value x)) by lia. split; [exact G1|]. split; [exact G2|]. eapply Z.le_trans; [|exact G3]. apply Z.pow_le_mono_r; lia. }
  assert (Sz : Z.log2 g + 1 = 32 * Z.of_nat (size h)).
  { pose proof (magnitude_range c h Hh) as R. pose proof C as C'. unfold clobbers in C'. rewrite !andb_true_iff in C'. destruct C' as ((C1 & _) & C3). apply Nat.ltb_lt in C1. apply Z.leb_le in C3.
    assert (M : magnitude h = g). { rewrite (abs_magnitude c h Hh), Eh. apply Z.abs_eq. lia. }
    assert (U : g < 2 ^ (32 * Z.of_nat (size h))). { rewrite <- Bn_pow2, <- M. apply R. }
    assert (V : 2 ^ (32 * (Z.of_nat (size h) - 1)) <= g).
    { destruct (Z_lt_le_dec g (2 ^ (32 * (Z.of_nat (size h) - 1)))) as [X|X]; [|exact X]. exfalso. pose proof (proj2 (size_le_iff c h (size h - 1) Hh ltac:(lia))) as Y. rewrite Bn_pow2, M in Y. replace (Z.of_nat (size h - 1)) with (Z.of_nat (size h) - 1) in Y by lia. specialize (Y X). lia. }
    assert (A : Z.log2 g < 32 * Z.of_nat (size h)) by (apply Z.log2_lt_pow2; assumption). assert (D : 32 * (Z.of_nat (size h) - 1) <= Z.log2 g) by (apply Z.log2_le_pow2; assumption).
    Z.to_euclidean_division_equations. lia. }
  assert (Sx : (2 * size h <= size x)%nat).
  { destruct (Nat.le_gt_cases (2 * size h) (size x)) as [X|X]; [exact X|]. exfalso. pose proof (magnitude_range c x Hx) as R. rewrite (abs_magnitude c x Hx), (Z.abs_eq _ Px), Bn_pow2 in R.
    assert (2 ^ (32 * Z.of_nat (size x)) <= 2 ^ (2 * (Z.log2 g + 1) - 32)) by (apply Z.pow_le_mono_r; lia). lia. }
  rewrite (proj2 (Nat.ltb_ge (size x) (size h))) by lia. cbv zeta.
  assert (CR : can_resize c (size x - size h + 1) = true).
  { assert (1 < size h)%nat. { unfold clobbers in C. rewrite !andb_true_iff in C. destruct C as ((C1 & _) & _). apply Nat.ltb_lt. exact C1. }
    destruct Hx as ((_ & Lc) & Sx' & _). destruct c; cbn in *; [apply Nat.leb_le; lia|reflexivity]. }
  rewrite CR, (div_alias_hangs c x h k Hx Hh C Sx). reflexivity.
Qed.
