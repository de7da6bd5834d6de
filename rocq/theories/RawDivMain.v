From Coq Require Import List ZArith Bool Lia.
From Verif Require Import Outcome LoopModel LoopProofs WordsModel WordsSpec WordsProofs DivProofs RawModel RawSpec RawProofs RawLoops RawAlloc RawMul RawAdd RawDiv RawFull.
Import ListNotations.
Open Scope nat_scope.

Lemma apart_neq p n q k : apart p n q k -> 0 < n -> 0 < k -> loc_eqb p q = false.
Proof. intros A H1 H2. apply loc_eqb_neq. intros ->. unfold apart in A. lia. Qed.
Lemma ne_len {A} (l : list A) : l <> [] -> 0 < length l.
Proof. destruct l; [congruence|cbn [length]; lia]. Qed.
(* dropping ranges of arrays that are gone *)
Lemma only_leave2 m m1 m2 rs p n : extends m m1 -> only m1 m2 (rs ++ [(p, n)]) -> length m <= fst p -> only m (leave m m2) rs.
Proof.
  intros E O L. apply (only_mono _ _ _ _ (only_leave m m1 m2 _ E O)). intros r Hr. apply filter_In in Hr as [Hr Hl]. apply Nat.ltb_lt in Hl.
  exists r. split; [|auto]. apply in_app_or in Hr as [Hr|[<-|[]]]; [assumption|]. cbn [fst] in Hl. lia.
Qed.

Lemma div_full_bit_ok junk m q qn x y xs ys qw xw n : reads m x xs -> reads m y ys -> qroom m q qn -> 1 <= qn -> xs <> [] -> ys <> [] ->
  apart x (length xs) y (length ys) -> qapart q qn x (length xs) -> qapart q qn y (length ys) -> length xs <= qn + length ys ->
  (2 ^ 31 <= last ys 0%Z)%Z -> all_words ys -> all_words xw -> (eval (firstn n xw) < eval ys)%Z -> xw <> [] ->
  div_full_bit qn xs ys = Ok (qw, xw, n) ->
  exists m', div_full_bit_r junk m q qn x (length xs) y (length ys) = Ok (n, m') /\ qreads m' q qw /\ reads m' x xw /\ length xw <= length ys /\
    only m m' (qrange q qn ++ [(x, length xs)]).
Proof.
  intros Rx Ry Rq Hq Nx Ny Axy Aqx Aqy Hd Ht Wy Wxw Hlt Nxw E. pose proof (ne_len _ Nx) as Lx. pose proof (ne_len _ Ny) as Ly.
  destruct (last_bounds ys Wy Ny) as (T0 & _).
  unfold div_full_bit_r. replace (0 <? length xs) with true by (symmetry; now apply Nat.ltb_lt). cbn [check bind].
  rewrite (apart_neq x _ y _ Axy Lx Ly). cbn [negb]. rewrite andb_true_r.
  assert (Eq : match q with Some q => negb (loc_eqb q x) && negb (loc_eqb q y) | None => true end = true).
  { destruct q as [q|]; [|reflexivity]. cbn [qapart] in *. rewrite (apart_neq q qn x _ Aqx), (apart_neq q qn y _ Aqy) by lia. reflexivity. }
  rewrite Eq. cbn [check bind]. unfold less. replace (length ys <? 1) with false by (symmetry; apply Nat.ltb_ge; lia). cbn [bind].
  rewrite (last_ld m y ys Ny Ry). cbn [bind].
  assert (E31 : (Z.shiftr (last ys 0) 31 =? 0)%Z = false).
  { apply Z.eqb_neq. rewrite Z.shiftr_div_pow2 by lia. intros C. pose proof (Z.div_str_pos (last ys 0%Z) (2 ^ 31)%Z ltac:(lia)). lia. }
  rewrite E31. cbn [negb check bind].
  (* q is cleared *)
  assert (H1 : exists m1, match q with Some q => clear_n_r m q qn | None => Ok m end = Ok m1 /\ qreads m1 q (repeat 0%Z qn) /\ reads m1 x xs /\ reads m1 y ys /\
    qroom m1 q qn /\ only m m1 (qrange q qn)).
  { destruct q as [q|]; cbn [qroom qapart qreads qrange] in *.
    - destruct (clear_n_ok m q qn Rq) as (m1 & -> & W1). assert (L : length (repeat 0%Z qn) = qn) by apply repeat_length.
      exists m1. split; [reflexivity|]. split; [apply (writes_reads _ _ _ _ W1)|].
      split; [apply (writes_frame _ _ _ _ _ _ W1 Rx); now rewrite L|]. split; [apply (writes_frame _ _ _ _ _ _ W1 Ry); now rewrite L|].
      split; [apply (writes_room _ _ _ _ _ _ W1 Rq)|]. rewrite <- L at 1. apply (writes_only _ _ _ _ W1).
    - exists m. split; [reflexivity|]. split; [exact I|]. split; [assumption|]. split; [assumption|]. split; [exact I|apply only_refl]. }
  destruct H1 as (m1 & -> & Rq1 & Rx1 & Ry1 & Rqm1 & O1). cbn [bind].
  destruct (alloca_ok m1 junk (length ys)) as (m2 & -> & E2 & Rt & _).
  pose proof (room_block m1 x _ (reads_room _ _ _ Rx1) Lx) as Bx. pose proof (room_block m1 y _ (reads_room _ _ _ Ry1) Ly) as By.
  assert (Bq : match q with Some q => fst q < length m1 | None => True end) by (destruct q as [q|]; [apply (room_block m1 q qn Rqm1); lia|exact I]).
  set (yTop := last ys 0%Z) in *. set (rev_ := if (yTop =? B - 1)%Z then 0%Z else fst (div_word1 (2 ^ 31) 0 (yTop + 1))).
  assert (Erev : (if (yTop =? B - 1)%Z then Ok 0%Z else let* d := div_word1_r (2 ^ 31) 0 (yTop + 1) in Ok (fst d)) = Ok rev_).
  { unfold rev_. destruct (yTop =? B - 1)%Z; [reflexivity|]. unfold div_word1_r. replace (2 ^ 31 <? yTop + 1)%Z with true by lia. reflexivity. }
  rewrite Erev. cbn [bind].
  unfold div_full_bit in E. fold yTop in E. fold rev_ in E.
  destruct (run_loop (33 * length xs + 1) (div_full_step ys rev_) (repeat 0%Z qn, xs)) as [[qw' xw']| | |] eqn:EL; try discriminate. cbn [bind] in E.
  injection E as -> -> En.
  destruct (run_sim (full_rel m2 q qn x (length m1, 0) (length xs) ys)
                    (fun s p => full_rel m2 q qn x (length m1, 0) (length xs) ys s p /\ length (snd p) <= length ys)
                    (div_full_step_r q qn x y (length m1, 0) (length ys) yTop rev_) (div_full_step ys rev_))
    with (k := 33 * length xs + 1) (s := (length xs, m2)) (t := (repeat 0%Z qn, xs)) (c := (qw, xw)) as ([xn' m3] & -> & F & Lw).
  - intros s p H. apply (full_step_ok m2 q qn x y (length m1, 0) (length xs) ys rev_); try assumption.
    + apply (extends_reads _ _ _ _ E2 Ry1).
    + destruct q; [apply (extends_room _ _ _ _ E2 Rqm1)|exact I].
    + apply (extends_room _ _ _ _ E2), (reads_room _ _ _ Rx1).
    + left. cbn [fst]. lia.
    + left. cbn [fst]. lia.
    + destruct q; [left; cbn [fst]; lia|exact I].
  - unfold full_rel. cbn [fst snd]. split; [reflexivity|]. split; [lia|]. split; [apply (extends_reads _ _ _ _ E2 Rx1)|].
    split; [destruct q; [apply (extends_reads _ _ _ _ E2 Rq1)|exact I]|]. split; [apply repeat_length|apply only_refl].
  - assumption.
  - cbn [bind]. unfold full_rel in F. cbn [fst snd] in *. destruct F as (-> & LX & Rx3 & Rq3 & Lq3 & O3).
    assert (Ry3 : reads m3 y ys).
    { apply (only_reads _ _ _ _ _ O3 (extends_reads _ _ _ _ E2 Ry1)). intros r Hr. apply in_app_or in Hr as [Hr|[<-|[<-|[]]]].
      - apply (qapart_in _ _ _ _ _ Aqy Hr).
      - assumption.
      - left. cbn [fst]. lia. }
    assert (Elt : (if length xw <? length ys then Ok true else if length xw =? length ys then let* g := cmp_ge_r m3 x y (length ys) in Ok (negb g) else Ok false) = Ok true).
    { destruct (Nat.ltb_spec (length xw) (length ys)); [reflexivity|]. assert (L : length xw = length ys) by lia. rewrite (proj2 (Nat.eqb_eq _ _) L).
      rewrite (cmp_ge_ok m3 x y (length ys) xw ys L eq_refl Rx3 Ry3). cbn [bind]. f_equal. rewrite (cmp_ge_n_spec xw ys Wxw Wy L).
      destruct (get_real_size_spec xw Nxw) as (_ & _ & _ & Er). rewrite Er, En. apply negb_true_iff. lia. }
    rewrite Elt. cbn [check bind]. rewrite (real_size_ok m3 x (length xw) xw eq_refl Rx3), En. cbn [bind].
    exists (leave m1 m3). split; [reflexivity|].
    split; [destruct q; [apply (leave_reads _ _ _ _ Rq3); assumption|exact I]|].
    split; [apply (leave_reads _ _ _ _ Rx3); assumption|]. split; [assumption|].
    apply (only_trans m m1); [now apply only_app_l|].
    apply (only_leave2 m1 m2 m3 _ (length m1, 0) (length ys) E2); [|cbn [fst]; lia].
    rewrite <- app_assoc. exact O3.
Qed.

Lemma div1_r_ok m q qn x y xs y0 : reads m x xs -> reads m y [y0] -> qroom m q qn -> length xs <= qn -> xs <> [] ->
  apart x (length xs) y 1 -> qapart q qn x (length xs) -> qapart q qn y 1 -> all_words xs -> (0 < y0 < B)%Z ->
  exists qw r m', div1 qn xs y0 = Ok (qw, r :: repeat 0%Z (length xs - 1), 1) /\
    div1_r m q qn x (length xs) y = Ok (1, m') /\ qreads m' q qw /\ reads m' x [r] /\ only m m' (qrange q qn ++ [(x, length xs)]).
Proof.
  intros Rx Ry Rq Lq Nx Axy Aqx Aqy Wx Hy0. pose proof (ne_len _ Nx) as Lx. unfold div1_r, div1.
  replace (0 <? length xs) with true by (symmetry; now apply Nat.ltb_lt). cbn [check bind].
  assert (Eq : match q with Some _ => length xs <=? qn | None => true end = true) by (destruct q; [now apply Nat.leb_le|reflexivity]).
  rewrite Eq. cbn [check bind]. rewrite (real_size_ok m x (length xs) xs eq_refl Rx). cbn [bind].
  destruct (get_real_size_spec xs Nx) as (Hr & _ & _ & _). set (k := get_real_size xs) in *.
  assert (Lf : length (firstn k xs) = k) by (apply firstn_length_le; lia).
  pose proof (reads_firstn _ _ _ k Rx) as Rf.
  pose proof (div_word_loop_spec (rev (firstn k xs)) 0%Z y0 (words_rev _ (words_firstn k xs Wx)) ltac:(lia) ltac:(lia)) as HS.
  unfold div_word. replace (y0 =? 0)%Z with false by lia. cbn [negb check bind].
  (* quotient words and remainder *)
  assert (H1 : exists m1, match q with
      | Some q =>
          let* m := (if k <? qn then clear_n_r m (at_ q k) (qn - k) else Ok m) in
          let* y0 := ld m y 0 in
          div_word_r m q x k y0
      | None => let* y0 := ld m y 0 in let* t := mod_word_r m x k y0 in Ok (t, m)
      end = Ok (snd (div_word_loop 0 (rev (firstn k xs)) y0), m1) /\
      qreads m1 q (rev (fst (div_word_loop 0 (rev (firstn k xs)) y0)) ++ repeat 0%Z (qn - k)) /\ only m m1 (qrange q qn)).
  { destruct q as [q|]; cbn [qroom qapart qreads qrange] in *.
    - assert (Hc : exists m0, (if k <? qn then clear_n_r m (at_ q k) (qn - k) else Ok m) = Ok m0 /\ writes m (at_ q k) (repeat 0%Z (qn - k)) m0).
      { destruct (Nat.ltb_spec k qn) as [h|h]; [apply clear_n_ok; apply (room_sub m q qn _ _ Rq); lia|].
        exists m. split; [reflexivity|]. replace (qn - k) with 0 by lia. apply writes_nil. }
      destruct Hc as (m0 & -> & W0). cbn [bind].
      assert (Ry0 : reads m0 y [y0]) by (apply (writes_frame _ _ _ _ _ _ W0 Ry); rewrite repeat_length; revert Aqy; unfold apart, at_; cbn [fst snd length]; lia).
      assert (Rf0 : reads m0 x (firstn k xs)) by (apply (writes_frame _ _ _ _ _ _ W0 Rf); rewrite repeat_length, Lf; revert Aqx; unfold apart, at_; cbn [fst snd length]; lia).
      rewrite (reads_ld0 _ _ _ 0 Ry0) by (cbn [length]; lia). cbn [bind nth]. unfold div_word_r. replace (y0 =? 0)%Z with false by lia. cbn [negb check bind].
      destruct (div_word_loop_ok k q x y0 0%Z m0 (firstn k xs) Lf Rf0) as (m1 & -> & W1); [|revert Aqx; unfold apart, downward; lia|lia|lia|].
      { intros j Hj. apply (writes_room _ _ _ _ _ _ W0 Rq). lia. }
      exists m1. split; [reflexivity|].
      destruct (div_word_loop 0 (rev (firstn k xs)) y0) as [qs r]. cbn [fst snd] in *. destruct HS as (_ & Lqs & _ & _). rewrite rev_length in Lqs.
      assert (Lr : length (rev qs) = k) by (rewrite rev_length; lia).
      assert (W : writes m q (rev qs ++ repeat 0%Z (qn - k)) m1) by (apply (writes_down m q (rev qs) m0 _ m1); [now rewrite Lr|assumption]).
      split; [apply (writes_reads _ _ _ _ W)|].
      replace qn with (length (rev qs ++ repeat 0%Z (qn - k))) at 1 by (rewrite app_length, repeat_length; lia). apply (writes_only _ _ _ _ W).
    - rewrite (reads_ld0 _ _ _ 0 Ry) by (cbn [length]; lia). cbn [bind nth]. unfold mod_word_r. replace (y0 =? 0)%Z with false by lia. cbn [negb check bind].
      rewrite (mod_word_loop_ok k m x y0 0%Z (firstn k xs) Lf Rf) by lia. cbn [bind]. exists m. split; [reflexivity|]. split; [exact I|apply only_refl]. }
  destruct H1 as (m1 & -> & Rq1 & O1). cbn [bind fst snd].
  destruct (div_word_loop 0 (rev (firstn k xs)) y0) as [qs r]. cbn [fst snd] in *.
  assert (RX : room m x (length xs)) by apply (reads_room _ _ _ Rx).
  destruct (st_ok m1 x 0 r) as (m2 & -> & W2); [apply (only_room _ _ _ _ _ O1 RX); lia|]. cbn [bind]. rewrite at_0 in W2.
  destruct (clear_n_ok m2 (at_ x 1) (k - 1)) as (m3 & -> & W3).
  { apply (room_sub m2 x (length xs)); [apply (writes_room _ _ _ _ _ _ W2), (only_room _ _ _ _ _ O1 RX)|lia]. }
  cbn [bind]. assert (W : writes m1 x (r :: repeat 0%Z (k - 1)) m3) by apply (writes_up m1 x [r] m2 _ m3 W2 W3).
  assert (Lw : length (r :: repeat 0%Z (k - 1)) = k) by (cbn [length]; rewrite repeat_length; lia).
  exists (rev qs ++ repeat 0%Z (qn - k)), r, m3. split; [reflexivity|]. split; [reflexivity|].
  destruct HS as (_ & Lqs & _ & _). rewrite rev_length, Lf in Lqs.
  split.
  { destruct q as [q|]; [|exact I]. cbn [qreads qapart] in *. apply (writes_frame _ _ _ _ _ _ W Rq1). rewrite Lw, app_length, rev_length, repeat_length. revert Aqx. unfold apart. lia. }
  split; [apply (reads_firstn _ _ _ 1 (writes_reads _ _ _ _ W))|].
  apply (only_trans m m1); [now apply only_app_l|apply only_app_r].
  apply (writes_in m1 x _ m3 (x, length xs) _ W); [now left|reflexivity|cbn [fst snd]; lia|cbn [fst snd]; lia].
Qed.
