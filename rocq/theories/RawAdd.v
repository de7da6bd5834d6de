From Coq Require Import List ZArith Bool Lia.
From Verif Require Import Outcome LoopModel WordsModel WordsSpec WordsProofs RawModel RawSpec RawProofs RawLoops RawAlloc RawMul.
Import ListNotations.
Open Scope nat_scope.

Lemma sa_upward z n x k j : same_or_apart z n x k -> j <= n -> j <= k -> upward z x j.
Proof. unfold same_or_apart, upward, apart. intros [->|H]; lia. Qed.
Lemma at_inj z x n : at_ z n = at_ x n -> z = x.
Proof. destruct z, x. unfold at_. cbn [fst snd]. intros E. injection E as -> E. f_equal. lia. Qed.

(* the upper words of x end up at z: they are there already or are copied *)
Lemma upper_ok m z x xs k N u m1 (e : bool) : writes m z u m1 -> length u = k -> reads m x xs -> k <= length xs -> length xs <= N -> room m z N -> same_or_apart z N x (length xs) ->
  (e = true -> z = x) -> (e = false -> z <> x) ->
  exists m2, (if e then Ok m1 else copy_n_r m1 (at_ z k) (at_ x k) (length xs - k)) = Ok m2 /\ writes m z (u ++ skipn k xs) m2.
Proof.
  intros W Lu Rx Lk LN Rz SA Et Ef. pose proof (reads_skipn m x xs k Rx Lk) as Rs.
  destruct e.
  - specialize (Et eq_refl). subst x. exists m1. split; [reflexivity|]. apply (writes_keep m z u m1 _ W). now rewrite Lu.
  - assert (A : apart z N x (length xs)) by (destruct SA; [now specialize (Ef eq_refl)|assumption]).
    destruct (copy_n_ok m1 (at_ z k) (at_ x k) (length xs - k) (skipn k xs)) as (m2 & -> & W2).
    + apply skipn_length.
    + eapply writes_frame; [exact W|exact Rs|]. rewrite skipn_length, Lu. revert A. unfold apart, at_. cbn [fst snd]. lia.
    + apply (room_sub m1 z N); [apply (writes_room _ _ _ _ _ _ W Rz)|lia].
    + revert A. unfold apart, upward, at_. cbn [fst snd]. lia.
    + exists m2. split; [reflexivity|]. apply (writes_up m z u m1 _ m2 W). now rewrite Lu.
Qed.

Definition uadd_words (xs ys : list Z) : list Z :=
  let '(z, c) := add_n (firstn (length ys) xs) ys in
  let '(t, c) := if Nat.ltb (length ys) (length xs) then add_word (skipn (length ys) xs) c else ([], c) in
  (z ++ t) ++ [c].
Lemma uadd_ok m dst px py xs ys : length ys <= length xs -> reads m px xs -> reads m py ys -> room m dst (S (length xs)) ->
  same_or_apart dst (S (length xs)) px (length xs) -> same_or_apart dst (S (length xs)) py (length ys) ->
  exists m', uadd_r m dst px (length xs) py (length ys) = Ok m' /\ writes m dst (uadd_words xs ys) m'.
Proof.
  intros L Rx Ry Rz Sx Sy. unfold uadd_r, uadd_words. rewrite (proj2 (Nat.leb_le _ _) L). cbn [check bind].
  set (k := length ys) in *. assert (Lf : length (firstn k xs) = k) by (apply firstn_length_le; lia).
  destruct (add_n_ok m dst px py k (firstn k xs) ys Lf eq_refl) as (m1 & -> & W1);
    [now apply reads_firstn|assumption|intros j Hj; apply Rz; lia|apply (sa_upward _ _ _ _ _ Sx); lia|apply (sa_upward _ _ _ _ _ Sy); lia|].
  cbn [bind fst snd]. pose proof (add_loop_len (firstn k xs) ys 0%Z ltac:(lia)) as Lz. fold (add_n (firstn k xs) ys) in Lz. rewrite Lf in Lz.
  destruct (add_n (firstn k xs) ys) as [z c]. cbn [fst snd] in *.
  destruct (Nat.ltb_spec k (length xs)) as [Hk|Hk].
  - destruct (upper_ok m dst px xs k (S (length xs)) z m1 (loc_eqb dst px) W1 Lz Rx L ltac:(lia) Rz Sx (proj1 (loc_eqb_spec _ _)) (proj1 (loc_eqb_neq _ _))) as (m2 & -> & W2).
    cbn [bind]. assert (R2 : reads m2 (at_ dst k) (skipn k xs)) by (pose proof (writes_reads _ _ _ _ W2) as R; apply reads_app in R; rewrite Lz in R; apply R).
    destruct (add_word_ok m2 (at_ dst k) (length xs - k) c (skipn k xs) (skipn_length _ _) R2) as (m3 & -> & W3). cbn [bind fst snd].
    pose proof (add_word_len (skipn k xs) c) as Lt. destruct (add_word (skipn k xs) c) as [t d]. cbn [fst snd] in *. rewrite skipn_length in Lt.
    assert (W4 : writes m dst (z ++ t) m3).
    { apply (writes_over m dst (z ++ skipn k xs) m2 _ m3 W2); [|rewrite !app_length, skipn_length; lia].
      apply (writes_up m2 dst z m2 t m3); [|now rewrite Lz]. apply reads_writes. pose proof (writes_reads _ _ _ _ W2) as R. now apply reads_app in R. }
    destruct (st_ok m3 dst (length xs) d) as (m4 & -> & W5); [apply (writes_room _ _ _ _ _ _ W4 Rz); lia|].
    exists m4. split; [reflexivity|]. apply (writes_up m dst (z ++ t) m3 [d] m4 W4). rewrite app_length, Lz, Lt. now replace (k + (length xs - k)) with (length xs) by lia.
  - cbn [bind fst snd]. rewrite app_nil_r.
    destruct (st_ok m1 dst (length xs) c) as (m4 & -> & W5); [apply (writes_room _ _ _ _ _ _ W1 Rz); lia|].
    exists m4. split; [reflexivity|]. apply (writes_up m dst z m1 [c] m4 W1). now replace (length z) with (length xs) by lia.
Qed.
Lemma uadd1_ok m dst x xs w : reads m x xs -> room m dst (S (length xs)) -> same_or_apart dst (S (length xs)) x (length xs) ->
  exists m', uadd1_r m dst x (length xs) w = Ok m' /\ writes m dst (fst (add_word xs w) ++ [snd (add_word xs w)]) m'.
Proof.
  intros Rx Rz Sx. unfold uadd1_r.
  destruct (upper_ok m dst x xs 0 (S (length xs)) [] m (loc_eqb dst x) (writes_nil _ _) eq_refl Rx ltac:(lia) ltac:(lia) Rz Sx (proj1 (loc_eqb_spec _ _)) (proj1 (loc_eqb_neq _ _))) as (m2 & E & W2).
  rewrite !at_0, Nat.sub_0_r in E. rewrite E. cbn [bind app skipn] in *.
  destruct (add_word_ok m2 dst (length xs) w xs eq_refl (writes_reads _ _ _ _ W2)) as (m3 & -> & W3). cbn [bind fst snd].
  assert (W4 : writes m dst (fst (add_word xs w)) m3) by (apply (writes_over m dst xs m2 _ m3 W2 W3); now rewrite add_word_len).
  destruct (st_ok m3 dst (length xs) (snd (add_word xs w))) as (m4 & -> & W5); [apply (writes_room _ _ _ _ _ _ W4 Rz); lia|].
  exists m4. split; [reflexivity|]. apply (writes_up m dst _ m3 [_] m4 W4). now rewrite add_word_len.
Qed.
Lemma usub1_ok m dst x xs w : reads m x xs -> room m dst (length xs) -> same_or_apart dst (length xs) x (length xs) -> snd (sub_word xs w) = 0%Z ->
  exists m', usub1_r m dst x (length xs) w = Ok m' /\ writes m dst (fst (sub_word xs w)) m'.
Proof.
  intros Rx Rz Sx Hc. unfold usub1_r.
  destruct (upper_ok m dst x xs 0 (length xs) [] m (loc_eqb dst x) (writes_nil _ _) eq_refl Rx ltac:(lia) ltac:(lia) Rz Sx (proj1 (loc_eqb_spec _ _)) (proj1 (loc_eqb_neq _ _))) as (m2 & E & W2).
  rewrite !at_0, Nat.sub_0_r in E. rewrite E. cbn [bind app skipn] in *.
  destruct (sub_word_ok m2 dst (length xs) w xs eq_refl (writes_reads _ _ _ _ W2)) as (m3 & -> & W3). cbn [bind fst snd]. rewrite Hc. cbn [Z.eqb check bind].
  exists m3. split; [reflexivity|]. apply (writes_over m dst xs m2 _ m3 W2 W3). now rewrite sub_word_len.
Qed.
Definition usub_words (xs ys : list Z) : list Z * Z :=
  let '(z, c) := sub_n (firstn (length ys) xs) ys in
  let '(t, c) := if Nat.ltb (length ys) (length xs) then sub_word (skipn (length ys) xs) c else ([], c) in
  (z ++ t, c).
Lemma usub_ok m z x y xs ys : length ys <= length xs -> reads m x xs -> reads m y ys -> room m z (length xs) ->
  same_or_apart z (length xs) x (length xs) -> same_or_apart z (length xs) y (length ys) -> snd (usub_words xs ys) = 0%Z ->
  exists m', usub_r m z x (length xs) y (length ys) = Ok m' /\ writes m z (fst (usub_words xs ys)) m'.
Proof.
  intros L Rx Ry Rz Sx Sy Hc. unfold usub_r, usub_words in *. rewrite (proj2 (Nat.leb_le _ _) L). cbn [check bind].
  set (k := length ys) in *. assert (Lf : length (firstn k xs) = k) by (apply firstn_length_le; lia).
  destruct (sub_n_ok m z x y k (firstn k xs) ys Lf eq_refl) as (m1 & -> & W1);
    [now apply reads_firstn|assumption|intros j Hj; apply Rz; lia|apply (sa_upward _ _ _ _ _ Sx); lia|apply (sa_upward _ _ _ _ _ Sy); lia|].
  cbn [bind fst snd]. pose proof (sub_loop_len (firstn k xs) ys 0%Z ltac:(lia)) as Lz. fold (sub_n (firstn k xs) ys) in Lz. rewrite Lf in Lz.
  destruct (sub_n (firstn k xs) ys) as [zs c]. cbn [fst snd] in *.
  destruct (Nat.ltb_spec k (length xs)) as [Hk|Hk].
  - assert (Ee : loc_eqb (at_ z k) (at_ x k) = loc_eqb z x).
    { destruct (loc_eqb z x) eqn:E; [apply loc_eqb_spec in E as ->; now apply loc_eqb_spec|]. apply loc_eqb_neq in E. apply loc_eqb_neq. intros C. now apply at_inj in C. }
    rewrite Ee.
    destruct (upper_ok m z x xs k (length xs) zs m1 (loc_eqb z x) W1 Lz Rx L ltac:(lia) Rz Sx (proj1 (loc_eqb_spec _ _)) (proj1 (loc_eqb_neq _ _))) as (m2 & -> & W2).
    cbn [bind]. assert (R2 : reads m2 (at_ z k) (skipn k xs)) by (pose proof (writes_reads _ _ _ _ W2) as R; apply reads_app in R; rewrite Lz in R; apply R).
    destruct (sub_word_ok m2 (at_ z k) (length xs - k) c (skipn k xs) (skipn_length _ _) R2) as (m3 & -> & W3). cbn [bind fst snd].
    pose proof (sub_word_len (skipn k xs) c) as Lt. destruct (sub_word (skipn k xs) c) as [t d]. cbn [fst snd] in *. rewrite skipn_length in Lt. subst d. cbn [Z.eqb check bind].
    exists m3. split; [reflexivity|].
    apply (writes_over m z (zs ++ skipn k xs) m2 _ m3 W2); [|rewrite !app_length, skipn_length; lia].
    apply (writes_up m2 z zs m2 t m3); [|now rewrite Lz]. apply reads_writes. pose proof (writes_reads _ _ _ _ W2) as R. now apply reads_app in R.
  - cbn [bind fst snd] in *. subst c. cbn [Z.eqb check bind]. rewrite app_nil_r. exists m1. split; [reflexivity|assumption].
Qed.
Lemma mulu1_ok m z x xs w : reads m x xs -> room m z (S (length xs)) -> upward z x (length xs) ->
  exists m', mulu1_r m z x w (length xs) = Ok m' /\ writes m z (fst (mul_word_n xs w) ++ [snd (mul_word_n xs w)]) m'.
Proof.
  intros Rx Rz U. unfold mulu1_r.
  destruct (mul_word_n_ok m z x w (length xs) xs eq_refl Rx) as (m1 & -> & W1); [intros j Hj; apply Rz; lia|assumption|]. cbn [bind fst snd].
  destruct (st_ok m1 z (length xs) (snd (mul_word_n xs w))) as (m2 & -> & W2); [apply (writes_room _ _ _ _ _ _ W1 Rz); lia|].
  exists m2. split; [reflexivity|]. apply (writes_up m z _ m1 [_] m2 W1). unfold mul_word_n. now rewrite mul_word_loop_len.
Qed.
