From Coq Require Import List ZArith Bool Lia.
From Verif Require Import Outcome LoopModel LoopProofs WordsModel WordsSpec WordsProofs DivProofs RawModel RawSpec RawProofs RawLoops RawAlloc RawMul RawAdd RawDiv.
Import ListNotations.
Open Scope nat_scope.

Lemma add_at_len q d v : d <= length q -> length (add_at q d v) = length q.
Proof. intros. unfold add_at. rewrite app_length, add_word_len, firstn_length_le, skipn_length by lia. lia. Qed.

(* [add_word(q + d, qn - d, v)] on a possibly null q *)
Lemma add_q_ok m q qs d k v : d + k = length qs -> qreads m q qs -> qroom m q (length qs) ->
  exists m', match q with None => Ok m | Some q => let* r := add_word_r m (at_ q d) k v in Ok (snd r) end = Ok m' /\
    qreads m' q (add_at qs d v) /\ only m m' (qrange q (length qs)).
Proof.
  intros L R Rm. destruct q as [q|]; cbn [qreads qroom qrange] in *; [|exists m; split; [reflexivity|]; split; [exact I|apply only_refl]].
  destruct (add_word_ok m (at_ q d) k v (skipn d qs)) as (m1 & -> & W1); [rewrite skipn_length; lia|apply reads_skipn; [assumption|lia]|].
  cbn [bind snd]. exists m1. split; [reflexivity|].
  assert (W : writes m q (add_at qs d v) m1).
  { unfold add_at. apply (writes_up m q (firstn d qs) m _ m1); [apply reads_writes; now apply reads_firstn|]. rewrite firstn_length_le by lia. assumption. }
  split; [apply (writes_reads _ _ _ _ W)|]. rewrite <- (add_at_len qs d v) by lia. apply (writes_only _ _ _ _ W).
Qed.

Lemma removelast_firstn {A} (l : list A) : removelast l = firstn (length l - 1) l.
Proof. rewrite (removelast_firstn_len l). f_equal. lia. Qed.

Section FULL.
  Variables (m : memory) (q : option loc) (qn : nat) (x y t : loc) (X0 : nat) (ys : list Z) (rev_ : Z).
  Hypothesis (Ny : ys <> []) (Ry : reads m y ys) (Rt : room m t (length ys)) (Rq : qroom m q qn) (RX : room m x X0).
  Hypothesis (Axy : apart x X0 y (length ys)) (Axt : apart x X0 t (length ys)) (Ayt : apart y (length ys) t (length ys)).
  Hypothesis (Aqx : qapart q qn x X0) (Aqy : qapart q qn y (length ys)) (Aqt : qapart q qn t (length ys)) (Hd : X0 <= qn + length ys).

  Let rs := qrange q qn ++ [(x, X0); (t, length ys)].
  Definition full_rel (s : nat * memory) (p : list Z * list Z) : Prop :=
    fst s = length (snd p) /\ length (snd p) <= X0 /\ reads (snd s) x (snd p) /\ qreads (snd s) q (fst p) /\ length (fst p) = qn /\ only m (snd s) rs.

  Lemma full_y m' : only m m' rs -> reads m' y ys.
  Proof.
    intros O. apply (only_reads _ _ _ _ _ O Ry). unfold rs. intros r Hr. apply in_app_or in Hr as [Hr|[<-|[<-|[]]]].
    - apply (qapart_in _ _ _ _ _ Aqy Hr).
    - assumption.
    - cbn [fst snd]. now apply apart_sym.
  Qed.
  Lemma in_x m1 m2 p ws : writes m1 p ws m2 -> fst p = fst x -> snd x <= snd p -> snd p + length ws <= snd x + X0 -> only m1 m2 rs.
  Proof. intros W E L1 L2. apply (writes_in m1 p ws m2 (x, X0) rs W); [unfold rs; apply in_or_app; right; now left|assumption|assumption|assumption]. Qed.
  Lemma in_t m1 m2 ws : writes m1 t ws m2 -> length ws = length ys -> only m1 m2 rs.
  Proof. intros W L. apply (writes_in m1 t ws m2 (t, length ys) rs W); [unfold rs; apply in_or_app; right; right; now left|reflexivity|cbn [fst snd]; lia|cbn [fst snd]; lia]. Qed.
  Lemma in_q m1 m2 : only m1 m2 (qrange q qn) -> only m1 m2 rs.
  Proof. apply only_app_l. Qed.
  (* writes to x or t leave q alone *)
  Lemma q_stays m1 m2 p ws qs : qreads m1 q qs -> length qs = qn -> writes m1 p ws m2 -> qapart q qn p (length ws) -> qreads m2 q qs.
  Proof.
    intros R L W A. destruct q as [q0|]; [|exact I]. cbn [qreads qapart] in *. apply (writes_frame _ _ _ _ _ _ W R). rewrite L. now apply apart_sym.
  Qed.
  Lemma x_stays m1 m2 xs : reads m1 x xs -> length xs <= X0 -> only m1 m2 (qrange q qn) -> reads m2 x xs.
  Proof. intros R L O. apply (only_reads _ _ _ _ _ O R). intros r Hr. pose proof (qapart_in _ _ _ _ _ Aqx Hr) as A. revert A. unfold apart. lia. Qed.
  Lemma qap_x p n : fst p = fst x -> snd x <= snd p -> snd p + n <= snd x + X0 -> qapart q qn p n.
  Proof. intros. destruct q as [q0|]; [|exact I]. cbn [qapart] in *. revert Aqx. unfold apart. lia. Qed.

  Lemma full_step_ok s p : full_rel s p -> match div_full_step ys rev_ p with
     | Next p' => exists s', div_full_step_r q qn x y t (length ys) (last ys 0%Z) rev_ s = Next s' /\ full_rel s' p'
     | Done (Ok p') => exists s', div_full_step_r q qn x y t (length ys) (last ys 0%Z) rev_ s = Done (Ok s') /\ full_rel s' p' /\ length (snd p') <= length ys
     | Done _ => True end.
  Proof.
    destruct s as [xn m1], p as [qs xs]. unfold full_rel. cbn [fst snd]. intros (-> & LX & Rx & Rqs & Lq & O).
    unfold div_full_step, div_full_step_r. assert (Ly : 0 < length ys) by (destruct ys; [congruence|cbn [length]; lia]).
    destruct (Nat.ltb_spec (length xs) (length ys)) as [L1|L1].
    { exists (length xs, m1). cbn [fst snd]. split; [reflexivity|]. split; [|lia]. auto 8. }
    assert (Nx : xs <> []) by (intros ->; cbn [length] in *; lia).
    rewrite (last_ld m1 x xs Nx Rx). cbn [bind].
    destruct (Z.eqb_spec (last xs 0%Z) 0) as [Z0|Z0].
    { cbn [stepo]. exists (length xs - 1, m1). cbn [fst snd]. split; [reflexivity|]. rewrite removelast_firstn, firstn_length_le by lia.
      split; [reflexivity|]. split; [lia|]. split; [now apply reads_firstn|]. auto. }
    set (d := length xs - length ys) in *.
    pose proof (full_y m1 O) as Ry1. pose proof (reads_skipn m1 x xs d Rx ltac:(lia)) as Rs.
    assert (Ls : length (skipn d xs) = length ys) by (rewrite skipn_length; lia).
    assert (Lf : length (firstn d xs) = d) by (apply firstn_length_le; lia).
    rewrite (cmp_ge_ok m1 (at_ x d) y (length ys) (skipn d xs) ys Ls eq_refl Rs Ry1). cbn [bind].
    destruct (cmp_ge_n (skipn d xs) ys).
    - destruct (sub_n_ok m1 (at_ x d) (at_ x d) y (length ys) (skipn d xs) ys Ls eq_refl Rs Ry1) as (m2 & -> & W2).
      + rewrite <- Ls. apply (reads_room _ _ _ Rs).
      + unfold upward; lia.
      + revert Axy. unfold upward, apart, at_. cbn [fst snd]. lia.
      + cbn [bind snd]. assert (Lw : length (fst (sub_n (skipn d xs) ys)) = length ys) by (unfold sub_n; rewrite sub_loop_len; lia).
        set (w := fst (sub_n (skipn d xs) ys)) in *.
        assert (Wx : writes m1 x (firstn d xs ++ w) m2).
        { apply (writes_up m1 x (firstn d xs) m1 w m2); [apply reads_writes; now apply reads_firstn|]. now rewrite Lf. }
        assert (Lx' : length (firstn d xs ++ w) = length xs) by (rewrite app_length; lia).
        assert (O2 : only m1 m2 rs) by (apply (in_x m1 m2 x _ Wx); [reflexivity|lia|lia]).
        assert (Rq2 : qreads m2 q qs) by (apply (q_stays m1 m2 x _ qs Rqs Lq Wx); apply qap_x; [reflexivity|lia|lia]).
        assert (Rm2 : qroom m2 q (length qs)) by (rewrite Lq; apply (qroom_only _ _ _ _ _ O2), (qroom_only _ _ _ _ _ O), Rq).
        destruct (add_q_ok m2 q qs d (qn - d) 1%Z ltac:(lia) Rq2 Rm2) as (m3 & E3 & Rq3 & O3). rewrite Lq in O3.
        assert (E3' : match q with
                      | Some q => let* k := less qn d in let* r := add_word_r m2 (at_ q d) k 1 in Ok (snd r)
                      | None => Ok m2 end = Ok m3).
        { destruct q; [|exact E3]. unfold less. replace (qn <? d) with false by (symmetry; apply Nat.ltb_ge; lia). cbn [bind]. exact E3. }
        match goal with |- context[match q with Some _ => _ | None => Ok m2 end] => rewrite E3' end. cbn [bind].
        assert (F : full_rel (length xs, m3) (add_at qs d 1, firstn d xs ++ w)).
        { unfold full_rel. cbn [fst snd]. split; [lia|]. split; [lia|]. split; [apply (x_stays m2 m3 _ (writes_reads _ _ _ _ Wx)); [lia|assumption]|].
          split; [assumption|]. split; [rewrite add_at_len; lia|]. apply (only_trans _ _ _ _ O), (only_trans _ _ _ _ O2), in_q, O3. }
        destruct (Nat.eqb_spec d 0) as [D0|D0]; cbn [stepo]; (exists (length xs, m3); split; [reflexivity|]); [split; [exact F|cbn [snd]; lia]|exact F].
    - destruct (Nat.eqb_spec d 0) as [D0|D0]; cbn [stepo].
      { exists (length xs, m1). cbn [fst snd]. split; [reflexivity|]. split; [auto 8|lia]. }
      set (v := full_guess (last ys 0%Z) rev_ (last xs 0%Z)).
      destruct (mul_word_n_ok m1 t y v (length ys) ys eq_refl Ry1) as (m2 & -> & W2); [apply (only_room _ _ _ _ _ O Rt)|revert Ayt; unfold apart, upward; lia|].
      cbn [bind fst snd]. pose proof (mul_word_loop_len ys v 0%Z) as Lt. fold (mul_word_n ys v) in Lt. destruct (mul_word_n ys v) as [tw c1]. cbn [fst snd] in *.
      assert (O2 : only m1 m2 rs) by now apply (in_t m1 m2 tw).
      assert (Rx2 : reads m2 x xs) by (apply (writes_frame _ _ _ _ _ _ W2 Rx); rewrite Lt; revert Axt; unfold apart; lia).
      assert (Rq2 : qreads m2 q qs) by (apply (q_stays m1 m2 t _ qs Rqs Lq W2); now rewrite Lt).
      pose proof (reads_firstn _ _ _ (length ys) (reads_skipn m2 x xs (d - 1) Rx2 ltac:(lia))) as Rw.
      assert (Lw : length (firstn (length ys) (skipn (d - 1) xs)) = length ys) by (apply firstn_length_le; rewrite skipn_length; lia).
      destruct (sub_n_ok m2 (at_ x (d - 1)) (at_ x (d - 1)) t (length ys) _ tw Lw Lt Rw (writes_reads _ _ _ _ W2)) as (m3 & -> & W3).
      { rewrite <- Lw. apply (reads_room _ _ _ Rw). }
      { unfold upward; lia. }
      { revert Axt. unfold upward, apart, at_. cbn [fst snd]. lia. }
      cbn [bind fst snd].
      pose proof (sub_loop_len (firstn (length ys) (skipn (d - 1) xs)) tw 0%Z ltac:(lia)) as Lm. fold (sub_n (firstn (length ys) (skipn (d - 1) xs)) tw) in Lm.
      destruct (sub_n (firstn (length ys) (skipn (d - 1) xs)) tw) as [mw c2]. cbn [fst snd] in *. rewrite Lw in Lm.
      assert (Lf1 : length (firstn (d - 1) xs) = d - 1) by (apply firstn_length_le; lia).
      (* the top word is not touched by the subtraction *)
      assert (El : ld m3 x (length xs - 1) = Ok (last xs 0%Z)).
      { assert (R1 : reads m2 (at_ x (length xs - 1)) [last xs 0%Z]).
        { destruct (exists_snoc xs Nx) as (u & a & Eu). rewrite Eu, last_snoc in *. apply reads_app in Rx2. rewrite app_length. cbn [length].
          replace (length u + 1 - 1) with (length u) by lia. apply Rx2. }
        assert (R2 : reads m3 (at_ x (length xs - 1)) [last xs 0%Z]).
        { apply (writes_frame _ _ _ _ _ _ W3 R1). rewrite Lm. unfold apart, at_. cbn [fst snd length]. lia. }
        apply (reads_hd _ _ _ _ _ R2). }
      rewrite El. cbn [bind].
      assert (RX3 : room m3 x X0) by (apply (writes_room _ _ _ _ _ _ W3), (writes_room _ _ _ _ _ _ W2), (only_room _ _ _ _ _ O), RX).
      destruct (st_ok m3 x (length xs - 1) ((last xs 0 - (c1 + c2) mod B) mod B)%Z) as (m4 & -> & W4); [apply RX3; lia|]. cbn [bind].
      set (top := ((last xs 0 - (c1 + c2) mod B) mod B)%Z) in *.
      assert (Wx : writes m2 x (firstn (d - 1) xs ++ mw ++ [top]) m4).
      { apply (writes_up m2 x (firstn (d - 1) xs) m2 _ m4); [apply reads_writes; now apply reads_firstn|]. rewrite Lf1.
        apply (writes_up m2 (at_ x (d - 1)) mw m3 [top] m4 W3). rewrite at_at, Lm. now replace (d - 1 + length ys) with (length xs - 1) by lia. }
      assert (Lx' : length (firstn (d - 1) xs ++ mw ++ [top]) = length xs) by (rewrite !app_length, Lf1, Lm; cbn [length]; lia).
      assert (O4 : only m2 m4 rs) by (apply (in_x m2 m4 x _ Wx); [reflexivity|lia|lia]).
      assert (Rq4 : qreads m4 q qs) by (apply (q_stays m2 m4 x _ qs Rq2 Lq Wx); apply qap_x; [reflexivity|lia|lia]).
      assert (Rm4 : qroom m4 q (length qs)) by (rewrite Lq; apply (qroom_only _ _ _ _ _ O4), (qroom_only _ _ _ _ _ O2), (qroom_only _ _ _ _ _ O), Rq).
      destruct (add_q_ok m4 q qs (d - 1) (qn + 1 - d) v ltac:(lia) Rq4 Rm4) as (m5 & E5 & Rq5 & O5). rewrite Lq in O5.
      assert (E5' : match q with
                    | Some q => let* k := less (qn + 1) d in let* r := add_word_r m4 (at_ q (d - 1)) k v in Ok (snd r)
                    | None => Ok m4 end = Ok m5).
      { destruct q; [|exact E5]. unfold less. replace (qn + 1 <? d) with false by (symmetry; apply Nat.ltb_ge; lia). cbn [bind]. exact E5. }
      match goal with |- context[match q with Some _ => _ | None => Ok m4 end] => rewrite E5' end. cbn [bind stepo].
      exists (length xs, m5). split; [reflexivity|]. unfold full_rel. cbn [fst snd]. split; [lia|]. split; [lia|].
      split; [apply (x_stays m4 m5 _ (writes_reads _ _ _ _ Wx)); [lia|assumption]|]. split; [assumption|]. split; [rewrite add_at_len; lia|].
      apply (only_trans _ _ _ _ O), (only_trans _ _ _ _ O2), (only_trans _ _ _ _ O4), in_q, O5.
  Qed.
End FULL.
