From Coq Require Import List ZArith Bool Lia.
From Verif Require Import Outcome LoopModel LoopProofs WordsModel WordsSpec WordsProofs DivProofs RawModel RawSpec RawProofs RawLoops RawAlloc RawMul RawAdd RawDiv RawFull RawDivMain.
Import ListNotations.
Open Scope nat_scope.

Definition div_result (m : memory) (q : option loc) (qn : nat) (x : loc) (xs ys : list Z) (n : nat) (m' : memory) : Prop :=
  exists qw rw, n = length rw /\ 1 <= n /\ n <= length ys /\ length qw = qn /\ all_words qw /\ qreads m' q qw /\ all_words rw /\ reads m' x rw /\
    (eval qw * eval ys + eval rw = eval xs)%Z /\ (0 <= eval rw < eval ys)%Z /\ only m m' (qrange q qn ++ [(x, length xs)]).

Lemma only_shrink m m' q qn x k n : only m m' (qrange q qn ++ [(x, k)]) -> k <= n -> only m m' (qrange q qn ++ [(x, n)]).
Proof.
  intros O L. apply (only_mono _ _ _ _ O). intros r Hr. apply in_app_or in Hr as [Hr|[<-|[]]].
  - exists r. split; [apply in_or_app; now left|auto].
  - exists (x, n). split; [apply in_or_app; right; now left|]. cbn [fst snd]. unfold within. lia.
Qed.
Lemma result_of m q qn x xs ys X0 qw xw rn m' Y : div_ok qn X0 (length ys) (eval xs) Y (qw, xw, rn) -> Y = eval ys -> qreads m' q qw -> reads m' x (firstn rn xw) ->
  only m m' (qrange q qn ++ [(x, length xs)]) -> div_result m q qn x xs ys rn m'.
Proof.
  unfold div_ok, div_result. intros (Wq & Lq & Wx & Hr & E & R & _ & Hy) -> Rq Rx O. exists qw, (firstn rn xw).
  assert (L : length (firstn rn xw) = rn) by (apply firstn_length_le; lia).
  split; [now rewrite L|]. split; [lia|]. split; [assumption|]. split; [assumption|]. split; [assumption|]. split; [assumption|]. split; [now apply words_firstn|].
  split; [assumption|]. split; [assumption|]. split; [assumption|assumption].
Qed.

Lemma div_r_ok junk m q qn x y xs ys : reads m x xs -> reads m y ys -> qroom m q qn -> 1 <= qn -> length xs - length ys + 1 <= qn -> xs <> [] -> ys <> [] ->
  all_words xs -> all_words ys -> last ys 0%Z <> 0%Z ->
  apart x (length xs) y (length ys) -> qapart q qn x (length xs) -> qapart q qn y (length ys) ->
  exists n m', div_r junk m q qn x (length xs) y (length ys) = Ok (n, m') /\ div_result m q qn x xs ys n m'.
Proof.
  intros Rx Ry Rq Hq1 Hq Nx Ny Wx Wy Hl Axy Aqx Aqy. pose proof (ne_len _ Nx) as Lx. pose proof (ne_len _ Ny) as Ly. pose proof B_pos as HB.
  destruct (get_real_size_spec xs Nx) as (Hr & Ex & Hn & Er). destruct (last_bounds ys Wy Ny) as (Ry0 & Ry1).
  unfold div_r. destruct (Nat.eqb_spec (length ys) 1) as [L1|L1].
  - destruct ys as [|y0 [|? ?]]; cbn [length] in *; try lia. cbn [last] in *.
    destruct (div1_r_ok m q qn x y xs y0 Rx Ry Rq ltac:(lia) Nx Axy Aqx Aqy Wx ltac:(lia)) as (qw & r & m' & Ep & Er' & Rq' & Rx' & O).
    destruct (div_spec qn xs [y0] Wx Wy Nx Ny Hl Hq1 ltac:(cbn [length]; lia)) as (res & Ed & Hok).
    unfold div in Ed. cbn [length Nat.eqb hd] in Ed. rewrite Ep in Ed. injection Ed as <-.
    exists 1, m'. split; [assumption|]. eapply result_of; [exact Hok|reflexivity|assumption|exact Rx'|assumption].
  - assert (Ly2 : 2 <= length ys) by lia.
    replace (0 <? length xs) with true by (symmetry; now apply Nat.ltb_lt). replace (1 <? length ys) with true by (symmetry; apply Nat.ltb_lt; lia). cbn [andb check bind].
    assert (Ec : (length xs <? length ys) || match q with Some _ => length xs - length ys + 1 <=? qn | None => true end = true).
    { apply orb_true_intro. right. destruct q; [now apply Nat.leb_le|reflexivity]. }
    rewrite Ec. cbn [check bind]. rewrite (last_ld m y ys Ny Ry). cbn [bind]. rewrite (proj2 (Z.eqb_neq _ _) Hl). cbn [negb check bind].
    rewrite (real_size_ok m x (length xs) xs eq_refl Rx). cbn [bind].
    set (x0 := firstn (get_real_size xs) xs) in *.
    assert (L0 : length x0 = get_real_size xs) by (apply firstn_length_le; lia).
    assert (W0 : all_words x0) by (apply words_firstn; assumption).
    assert (N0 : x0 <> []) by (intros C; rewrite C in L0; cbn in L0; lia).
    assert (R0 : reads m x x0) by (apply reads_firstn; assumption).
    rewrite <- L0.
    assert (A0 : apart x (length x0) y (length ys)) by (revert Axy; unfold apart; lia).
    assert (Q0 : qapart q qn x (length x0)) by (destruct q; [revert Aqx; cbn [qapart]; unfold apart; lia|exact I]).
    destruct (div_small_spec qn x0 ys W0 Wy N0 Ny Hl Hq1) as (o & Hds & Ho).
    pose proof (div_small_ok (junk 0) m q qn x y x0 ys N0 Ny R0 Ry Rq Hq1 A0 Q0 Aqy Wy W0 Hl o Hds) as HS.
    destruct o as [[[qw xw] rn]|].
    { destruct HS as (m' & -> & (Rq' & Rx' & O) & Lw). cbn [bind]. pose proof Ho as Ho'. unfold div_ok in Ho'. destruct Ho' as (_ & _ & _ & Hrn & _).
      replace (0 <? rn) with true by (symmetry; apply Nat.ltb_lt; lia). exists rn, m'. split; [reflexivity|].
      rewrite <- Er in Ho. eapply result_of; [exact Ho|reflexivity|assumption|now apply reads_firstn|]. apply (only_shrink _ _ _ _ _ _ _ O). lia. }
    rewrite HS. cbn [bind Nat.ltb Nat.leb].
    assert (Lge : (length ys <= length x0)%nat).
    { unfold div_small in Hds. destruct (Nat.ltb_spec (length ys) (length x0)); [lia|].
      destruct (Nat.ltb_spec (length x0) (length ys)); [discriminate Hds|lia]. }
    clear Hds HS Ho.
    pose proof (eval_range x0 W0) as Rv0. pose proof (Bn_pos (length ys - 1)) as Hbp.
    assert (Hyp : (Bn (length ys - 1) <= eval ys)%Z) by nia.
    assert (HX : (eval x0 < eval ys * Bn qn)%Z).
    { apply Z.lt_le_trans with (Bn (length x0)); [lia|].
      apply Z.le_trans with (Bn (length ys - 1) * Bn qn)%Z.
      - rewrite <- Bn_add. apply Bn_mono. lia.
      - apply Z.mul_le_mono_nonneg_r; [pose proof (Bn_pos qn); lia|assumption]. }
    destruct (bsr_shift (last ys 0%Z) ltac:(lia)) as (Hs & Hs2).
    set (s := (31 - bsr32 (last ys 0))%Z) in *.
    destruct (Z.eqb_spec s 0) as [S0|S0]; cbn [negb].
    + rewrite S0 in Hs2. change (2 ^ 0)%Z with 1%Z in Hs2.
      destruct (div_full_bit_spec ys qn (eval x0) Wy Ny ltac:(lia) HX x0 W0 N0 ltac:(lia) eq_refl Ly2) as (r & Er' & Hok).
      destruct r as [[qw xw] rn]. pose proof Hok as Hok'. unfold div_ok in Hok'. destruct Hok' as (_ & _ & Wxw & Hrn & _ & Hlt & _).
      destruct (div_full_bit_ok (junk 3) m q qn x y x0 ys qw xw rn) as (m' & -> & Rq' & Rx' & _ & O); try assumption; try lia.
      { intros C. rewrite C in Hrn. cbn [length] in Hrn. lia. }
      exists rn, m'. split; [reflexivity|]. rewrite <- Er in Hok. eapply result_of; [exact Hok|reflexivity|assumption|now apply reads_firstn|]. apply (only_shrink _ _ _ _ _ _ _ O). lia.
    + pose proof (shl_n_spec ys s Wy Ny ltac:(lia)) as Hsy.
      (* the shifted divisor *)
      destruct (alloca_ok m (junk 1) (length ys)) as (m1 & -> & E1 & Rt1 & Lm1).
      pose proof (extends_reads _ _ _ _ E1 Ry) as Ry_1. pose proof (room_block m x _ (reads_room _ _ _ Rx) Lx) as Bx. pose proof (room_block m y _ (reads_room _ _ _ Ry) Ly) as By.
      assert (Ely : exists k, length ys = S k) by (exists (length ys - 1); lia). destruct Ely as (ky & Eky).
      destruct (shl_n_ok m1 (length m, 0) y s ky ys ltac:(lia) Eky Ry_1 ltac:(now rewrite <- Eky)) as (m1a & Esh & W1); [left; cbn [fst]; lia|].
      rewrite <- Eky in Esh. rewrite Esh. cbn [bind fst snd]. clear Esh.
      destruct (shl_n ys s) as [yz topy] eqn:Esy. cbn [fst snd] in *. destruct Hsy as (Wys & Lys & Hty & Eys).
      assert (E1a : extends m m1a) by (apply (extends_writes m m1 _ _ m1a E1 W1); cbn [fst]; lia).
      assert (Lm1a : length m1a = S (length m)) by (rewrite <- Lm1, <- (shape_length m1), <- (shape_length m1a); now rewrite (proj1 W1)).
      assert (H2s : (0 < 2 ^ s)%Z) by (apply Z.pow_pos_nonneg; lia).
      assert (Hfit : (eval ys * 2 ^ s < Bn (length ys))%Z).
      { replace (length ys) with (S (length ys - 1)) at 1 by lia. rewrite Bn_S.
        assert (Em : exists k, B = (k * 2 ^ s)%Z).
        { exists (2 ^ (32 - s))%Z. rewrite <- Z.pow_add_r by lia. rewrite <- B_eq. f_equal; lia. }
        destruct Em as (k & Ek).
        assert (last ys 0 < k)%Z by nia. nia. }
      assert (topy = 0%Z) by (pose proof (eval_range yz Wys) as Rs; rewrite Lys in Rs; nia). subst topy.
      rewrite Z.mul_0_r, Z.add_0_r in Eys.
      assert (Nys : yz <> []) by (intros C; rewrite C in Lys; cbn in Lys; lia).
      assert (Hlast : (2 ^ 31 <= last yz 0)%Z).
      { destruct (last_bounds yz Wys Nys) as (Q1 & Q2). rewrite Lys, Eys in Q2.
        assert (last ys 0 * 2 ^ s < last yz 0 + 1)%Z; [|lia].
        apply mul_le_cancel with (Bn (length ys - 1)); [assumption|]. nia. }
      (* the shifted dividend *)
      destruct (alloca_ok m1a (junk 2) (length x0 + 1)) as (m2 & -> & E2 & Rt2 & Lm2).
      pose proof (extends_reads _ _ _ _ E2 (extends_reads _ _ _ _ E1a R0)) as R0_2.
      assert (Elx : exists k, length x0 = S k) by (exists (length x0 - 1); lia). destruct Elx as (kx & Ekx).
      destruct (shl_n_ok m2 (length m1a, 0) x s kx x0 ltac:(lia) Ekx R0_2) as (m2a & Esh & W2); [rewrite <- Ekx; intros j Hj; apply Rt2; lia|left; cbn [fst]; lia|].
      rewrite <- Ekx in Esh. rewrite Esh. cbn [bind fst snd]. clear Esh.
      pose proof (shl_n_spec x0 s W0 N0 ltac:(lia)) as Hsx. destruct (shl_n x0 s) as [xx v]. cbn [fst snd] in *.
      destruct Hsx as (Wxx & Lxx & Hv & Exx).
      set (x1 := if (v =? 0)%Z then xx else xx ++ [v]).
      assert (H1 : all_words x1 /\ (length x0 <= length x1 <= length x0 + 1)%nat /\ eval x1 = (eval x0 * 2 ^ s)%Z).
      { unfold x1. destruct (Z.eqb_spec v 0) as [V0|V0].
        - subst v. split; [assumption|]. split; [lia|]. lia.
        - split.
          + apply words_app; split; [assumption|]. apply words_cons; split; [|constructor].
            assert (2 ^ s <= B)%Z by (rewrite <- B_eq; apply Z.pow_le_mono_r; lia). lia.
          + split; [rewrite app_length; cbn [length]; lia|]. rewrite eval_snoc, Lxx. lia. }
      destruct H1 as (W1x & Lx1 & E1x).
      assert (N1 : x1 <> []) by (intros C; rewrite C in Lx1; cbn in Lx1; lia).
      assert (Hst : exists m3, (if (v =? 0)%Z then Ok (length x0, m2a) else let* m2 := st m2a (length m1a, 0) (length x0) v in Ok (length x0 + 1, m2)) = Ok (length x1, m3) /\
        writes m2 (length m1a, 0) x1 m3).
      { unfold x1. destruct (v =? 0)%Z.
        - exists m2a. split; [now rewrite Lxx|assumption].
        - destruct (st_ok m2a (length m1a, 0) (length x0) v) as (m3 & -> & W3); [apply (writes_room _ _ _ _ _ _ W2 Rt2); lia|]. cbn [bind].
          exists m3. split; [rewrite app_length, Lxx; reflexivity|]. apply (writes_up m2 (length m1a, 0) xx m2a [v] m3 W2). now rewrite Lxx. }
      destruct Hst as (m3 & -> & W3). cbn [bind fst snd].
      assert (E3 : extends m m3) by (apply (extends_writes m m2 _ _ m3 (extends_trans _ _ _ E1a E2) W3); cbn [fst]; lia).
      assert (Rx3 : reads m3 (length m1a, 0) x1) by apply (writes_reads _ _ _ _ W3).
      assert (Ryz3 : reads m3 (length m, 0) yz).
      { apply (writes_frame _ _ _ _ _ _ W3 (extends_reads _ _ _ _ E2 (writes_reads _ _ _ _ W1))). left. cbn [fst]. lia. }
      assert (Rq3 : qroom m3 q qn) by (destruct q; [apply (extends_room _ _ _ _ E3 Rq)|exact I]).
      assert (Bq : match q with Some q => fst q < length m | None => True end) by (destruct q as [q|]; [apply (room_block m q qn Rq); lia|exact I]).
      destruct (div_full_bit_spec yz qn (eval x1) Wys Nys Hlast ltac:(rewrite Eys, E1x; nia) x1 W1x N1 ltac:(lia) eq_refl ltac:(lia)) as (r & Er' & Hok).
      destruct r as [[qw xw] rn]. unfold div_ok in Hok. destruct Hok as (Wq & Lq & Wx' & Hrn & Eq & Rr & Lx' & Hrny).
      destruct (div_full_bit_ok (junk 3) m3 q qn (length m1a, 0) (length m, 0) x1 yz qw xw rn) as (m4 & Ef & Rq4 & Rx4 & Lw4 & O4); try assumption; try lia.
      { left. cbn [fst]. lia. }
      { destruct q; [left; cbn [fst]; lia|exact I]. }
      { destruct q; [left; cbn [fst]; lia|exact I]. }
      { intros C. rewrite C in Hrn. cbn [length] in Hrn. lia. }
      rewrite Lys in Ef. rewrite Ef. cbn [bind fst snd]. clear Ef.
      assert (Lfn : length (firstn rn xw) = rn) by (apply firstn_length_le; lia).
      assert (Nfn : firstn rn xw <> []) by (intros C; rewrite C in Lfn; cbn in Lfn; lia).
      assert (Elr : exists k, rn = S k) by (exists (rn - 1); lia). destruct Elr as (kr & Ekr).
      assert (RX4 : room m4 x (length xs)) by (apply (only_room _ _ _ _ _ O4), (extends_room _ _ _ _ E3), (reads_room _ _ _ Rx)).
      destruct (shr_n_ok m4 x (length m1a, 0) s kr (firstn rn xw) ltac:(lia) ltac:(lia) (reads_firstn _ _ _ _ Rx4)) as (m5 & Esh & W5); [intros j Hj; apply RX4; lia|left; cbn [fst]; lia|].
      rewrite <- Ekr in Esh. rewrite Esh. cbn [bind]. clear Esh.
      destruct (shr_n_spec (firstn rn xw) s (words_firstn rn xw Wx') Nfn ltac:(lia)) as (Wr & Lr & Vr).
      exists rn, (leave m m5). split; [reflexivity|]. exists qw, (shr_n (firstn rn xw) s).
      rewrite Eys, E1x in Eq. rewrite Eys in Rr.
      assert (Ediv : (eval (firstn rn xw) / 2 ^ s)%Z = (eval x0 - eval qw * eval ys)%Z).
      { symmetry. apply Z.div_unique with (r := 0%Z); [left; lia|]. nia. }
      split; [lia|]. split; [lia|]. split; [lia|]. split; [assumption|]. split; [assumption|]. split.
      { destruct q as [q|]; [|exact I]. cbn [qreads qapart] in *. apply leave_reads; [|assumption]. apply (writes_frame _ _ _ _ _ _ W5 Rq4). rewrite Lr, Lfn, Lq.
        apply apart_sym. revert Aqx. unfold apart. lia. }
      split; [assumption|]. split; [apply leave_reads; [apply (writes_reads _ _ _ _ W5)|assumption]|].
      rewrite Vr, Ediv, Er. split; [lia|]. split; [nia|].
      apply (only_leave2 m m3 m5 _ (length m1a, 0) (length x1) E3); [|cbn [fst]; lia].
      apply (only_trans m3 m4).
      * apply (only_mono _ _ _ _ O4). intros r Hin. exists r. split; [|auto]. apply in_app_or in Hin as [Hin|Hin]; [apply in_or_app; left; apply in_or_app; now left|apply in_or_app; now right].
      * apply (writes_in m4 x _ m5 (x, length xs) _ W5); [apply in_or_app; left; apply in_or_app; right; now left|reflexivity|cbn [fst snd]; lia|cbn [fst snd]; lia].
Qed.
