From Coq Require Import List ZArith Bool Lia.
From Verif Require Import Outcome LoopModel WordsModel WordsSpec WordsProofs BufferModel BufferProofs RawModel RawSpec.
Import ListNotations.
Open Scope nat_scope.

Definition shape (m : memory) : list nat := map (@length Z) m.
Definition writes (m : memory) (p : loc) (ws : list Z) (m' : memory) : Prop :=
  shape m' = shape m /\
  forall b k, (within p (length ws) b k -> rd m' b k = Some (nth (k - snd p) ws 0%Z)) /\
              (~ within p (length ws) b k -> rd m' b k = rd m b k).

Lemma at_0 p : at_ p 0 = p.
Proof. destruct p as [b o]. unfold at_. cbn [fst snd]. now rewrite Nat.add_0_r. Qed.
Lemma at_at p i j : at_ (at_ p i) j = at_ p (i + j).
Proof. unfold at_. cbn [fst snd]. f_equal. lia. Qed.

Lemma rd_some_iff m b k : rd m b k <> None <-> k < nth b (shape m) 0.
Proof.
  unfold rd, shape. destruct (nth_error m b) as [d|] eqn:E.
  - rewrite (nth_error_nth (map (@length Z) m) b 0 (map_nth_error (@length Z) b m E)). apply nth_error_Some.
  - rewrite nth_overflow by (rewrite map_length; now apply nth_error_None). split; [congruence|lia].
Qed.
Lemma shape_rd m m' b k : shape m' = shape m -> (rd m' b k <> None <-> rd m b k <> None).
Proof. intros E. now rewrite !rd_some_iff, E. Qed.

Lemma rd_set m b k w b' k' : rd m b k <> None ->
  rd (upd m b (upd (nth b m []) k w)) b' k' = if Nat.eqb b' b && Nat.eqb k' k then Some w else rd m b' k'.
Proof.
  unfold rd. destruct (nth_error m b) as [d|] eqn:E; [|congruence]. intros H.
  assert (Hb : b < length m) by (apply nth_error_Some; congruence).
  rewrite (nth_error_nth m b [] E).
  destruct (Nat.eqb_spec b' b) as [->|Nb]; cbn [andb].
  - rewrite upd_same by assumption. destruct (Nat.eqb_spec k' k) as [->|Nk].
    + apply upd_same. now apply nth_error_Some.
    + rewrite E. now apply upd_other.
  - now rewrite upd_other by assumption.
Qed.
Lemma shape_set m b k w : shape (upd m b (upd (nth b m []) k w)) = shape m.
Proof.
  unfold shape. revert b. induction m as [|d m IH]; intros b; [reflexivity|].
  destruct b as [|b]; cbn [upd map nth]; [now rewrite upd_length|]. f_equal. apply IH.
Qed.

Lemma st_ok m p i w : rd m (fst p) (snd p + i) <> None -> exists m', st m p i w = Ok m' /\ writes m (at_ p i) [w] m'.
Proof.
  intros H. unfold st. destruct (rd m (fst p) (snd p + i)) as [v|] eqn:E; [|congruence].
  eexists; split; [reflexivity|]. split; [apply shape_set|]. intros b k. rewrite rd_set by congruence. unfold within, at_. cbn [fst snd length].
  destruct (Nat.eqb_spec b (fst p)) as [->|Nb]; cbn [andb]; [destruct (Nat.eqb_spec k (snd p + i)) as [->|Nk]|].
  - split; [|lia]. intros _. now rewrite Nat.sub_diag.
  - split; [lia|reflexivity].
  - split; [tauto|reflexivity].
Qed.
Lemma ld_ok m p i w : rd m (fst p) (snd p + i) = Some w -> ld m p i = Ok w.
Proof. unfold ld. now intros ->. Qed.
Lemma reads_ld m p i ws j : reads m (at_ p i) ws -> j < length ws -> ld m p (i + j) = Ok (nth j ws 0%Z).
Proof. intros H Hj. apply ld_ok. specialize (H j Hj). unfold at_ in H. cbn [fst snd] in H. rewrite <- H. f_equal. lia. Qed.
Lemma reads_ld0 m p ws j : reads m p ws -> j < length ws -> ld m p j = Ok (nth j ws 0%Z).
Proof. intros H Hj. apply (reads_ld m p 0 ws j); [now rewrite at_0|assumption]. Qed.

Lemma writes_nil m p : writes m p [] m.
Proof. split; [reflexivity|]. intros b k. unfold within. cbn [length]. split; [lia|reflexivity]. Qed.
Lemma nth_app {A} (u v : list A) j d : nth j (u ++ v) d = if Nat.ltb j (length u) then nth j u d else nth (j - length u) v d.
Proof. destruct (Nat.ltb_spec j (length u)); [now apply app_nth1|now apply app_nth2]. Qed.

Lemma within_dec p n b k : within p n b k \/ ~ within p n b k.
Proof. unfold within. destruct (Nat.eq_dec b (fst p)), (le_lt_dec (snd p) k), (le_lt_dec (snd p + n) k); lia. Qed.

Lemma writes_up m p u m1 v m2 : writes m p u m1 -> writes m1 (at_ p (length u)) v m2 -> writes m p (u ++ v) m2.
Proof.
  intros [S1 H1] [S2 H2]. split; [congruence|]. intros b k. specialize (H1 b k). specialize (H2 b k).
  revert H1 H2. unfold within, at_. cbn [fst snd]. rewrite app_length. rewrite nth_app. intros [A1 N1] [A2 N2].
  destruct (Nat.eq_dec b (fst p)) as [->|Nb].
  - split.
    + intros [_ Hk]. destruct (Nat.ltb_spec (k - snd p) (length u)).
      * rewrite N2 by lia. apply A1. lia.
      * rewrite A2 by lia. do 2 f_equal. lia.
    + intros Hk. rewrite N2 by lia. apply N1. lia.
  - split; [tauto|]. intros _. rewrite N2 by tauto. apply N1. tauto.
Qed.
Lemma writes_down m p u m1 v m2 : writes m (at_ p (length u)) v m1 -> writes m1 p u m2 -> writes m p (u ++ v) m2.
Proof.
  intros [S1 H1] [S2 H2]. split; [congruence|]. intros b k. specialize (H1 b k). specialize (H2 b k).
  revert H1 H2. unfold within, at_. cbn [fst snd]. rewrite app_length. rewrite nth_app. intros [A1 N1] [A2 N2].
  destruct (Nat.eq_dec b (fst p)) as [->|Nb].
  - split.
    + intros [_ Hk]. destruct (Nat.ltb_spec (k - snd p) (length u)).
      * apply A2. lia.
      * rewrite N2 by lia. rewrite A1 by lia. do 2 f_equal. lia.
    + intros Hk. rewrite N2 by lia. apply N1. lia.
  - split; [tauto|]. intros _. rewrite N2 by tauto. apply N1. tauto.
Qed.
Lemma writes_again m p u m1 v m2 : writes m p u m1 -> writes m1 p v m2 -> length u = length v -> writes m p v m2.
Proof.
  intros [S1 H1] [S2 H2] L. split; [congruence|]. intros b k. specialize (H1 b k). specialize (H2 b k). rewrite L in H1.
  split; [tauto|]. intros H. rewrite (proj2 H2 H). now apply H1.
Qed.
Lemma writes_reads m p ws m' : writes m p ws m' -> reads m' p ws.
Proof. intros [_ H] j Hj. rewrite (proj1 (H _ _)); [do 2 f_equal; lia|]. unfold within. lia. Qed.
Lemma writes_frame m p ws m' q vs : writes m p ws m' -> reads m q vs -> apart p (length ws) q (length vs) -> reads m' q vs.
Proof. intros [_ H] R A j Hj. rewrite (proj2 (H _ _)); [now apply R|]. unfold within, apart in *. lia. Qed.
Lemma writes_room m p ws m' q n : writes m p ws m' -> room m q n -> room m' q n.
Proof. intros [S _] R j Hj. apply (shape_rd m m' _ _ S). now apply R. Qed.
Lemma writes_at0 m p ws m' : writes m (at_ p 0) ws m' <-> writes m p ws m'.
Proof. now rewrite at_0. Qed.
Lemma writes_only m p ws m' : writes m p ws m' -> only m m' [(p, length ws)].
Proof. intros [S H]. split; [exact S|]. intros b k N. apply H. apply (N (p, length ws)). now left. Qed.

Lemma reads_room m p ws : reads m p ws -> room m p (length ws).
Proof. intros H j Hj. rewrite (H j Hj). discriminate. Qed.
Lemma reads_tl m p i a ws : reads m (at_ p i) (a :: ws) -> reads m (at_ p (S i)) ws.
Proof. intros H j Hj. specialize (H (S j) ltac:(cbn [length]; lia)). unfold at_ in *. cbn [fst snd nth] in *. rewrite <- H. f_equal. lia. Qed.
Lemma reads_hd m p i a ws : reads m (at_ p i) (a :: ws) -> ld m p i = Ok a.
Proof. intros H. replace i with (i + 0) by lia. now rewrite (reads_ld m p i (a :: ws) 0 H) by (cbn [length]; lia). Qed.
Lemma room_tl m p i n : room m (at_ p i) (S n) -> room m (at_ p (S i)) n.
Proof. intros H j Hj. specialize (H (S j) ltac:(lia)). unfold at_ in *. cbn [fst snd] in *. replace (snd p + S i + j) with (snd p + i + S j) by lia. assumption. Qed.
Lemma room_hd m p i n : room m (at_ p i) (S n) -> rd m (fst p) (snd p + i) <> None.
Proof. intros H. specialize (H 0 ltac:(lia)). unfold at_ in H. cbn [fst snd] in H. now rewrite Nat.add_0_r in H. Qed.
Lemma room_sub m p n i k : room m p n -> i + k <= n -> room m (at_ p i) k.
Proof. intros H L j Hj. unfold at_. cbn [fst snd]. replace (snd p + i + j) with (snd p + (i + j)) by lia. apply H. lia. Qed.
Lemma reads_app m p u v : reads m p (u ++ v) <-> reads m p u /\ reads m (at_ p (length u)) v.
Proof.
  split.
  - intros H. split; intros j Hj.
    + rewrite H by (rewrite app_length; lia). rewrite nth_app. destruct (Nat.ltb_spec j (length u)); [reflexivity|lia].
    + unfold at_. cbn [fst snd]. replace (snd p + length u + j) with (snd p + (length u + j)) by lia. rewrite H by (rewrite app_length; lia).
      rewrite nth_app. destruct (Nat.ltb_spec (length u + j) (length u)); [lia|]. do 2 f_equal. lia.
  - intros [Hu Hv] j Hj. rewrite app_length in Hj. rewrite nth_app. destruct (Nat.ltb_spec j (length u)); [now apply Hu|].
    specialize (Hv (j - length u) ltac:(lia)). unfold at_ in Hv. cbn [fst snd] in Hv. rewrite <- Hv. f_equal. lia.
Qed.
Lemma reads_firstn m p ws n : reads m p ws -> reads m p (firstn n ws).
Proof. intros H. rewrite <- (firstn_skipn n ws) in H. now apply reads_app in H. Qed.
Lemma reads_skipn m p ws n : reads m p ws -> n <= length ws -> reads m (at_ p n) (skipn n ws).
Proof. intros H L. rewrite <- (firstn_skipn n ws) in H. apply reads_app in H. rewrite firstn_length_le in H by assumption. apply H. Qed.

(* ascending loops: after word i has been written the remaining operand words are still there *)
Lemma step_frame m z x i w m1 xs n : writes m (at_ z i) [w] m1 -> reads m (at_ x (S i)) xs -> length xs = n -> upward (at_ z i) (at_ x i) (S n) ->
  reads m1 (at_ x (S i)) xs.
Proof. intros W R L U. eapply writes_frame; [exact W|exact R|]. rewrite L. revert U. unfold upward, apart, at_. cbn [fst snd length]. lia. Qed.
Lemma upward_S z x i n : upward (at_ z i) (at_ x i) (S n) -> upward (at_ z (S i)) (at_ x (S i)) n.
Proof. unfold upward, at_. cbn [fst snd]. lia. Qed.

Lemma add_r_ok xs : forall ys k i z x y c m, length xs = k -> length ys = k -> reads m (at_ x i) xs -> reads m (at_ y i) ys -> room m (at_ z i) k ->
  upward (at_ z i) (at_ x i) k -> upward (at_ z i) (at_ y i) k ->
  exists m', add_r k i z x y c m = Ok (snd (add_loop xs ys c), m') /\ writes m (at_ z i) (fst (add_loop xs ys c)) m'.
Proof.
  induction xs as [|a xs IH]; intros ys k i z x y c m Lx Ly Rx Ry Rz Ux Uy; destruct ys as [|b ys]; cbn [length] in *; subst k; try discriminate.
  - cbn [add_r add_loop fst snd]. eexists; split; [reflexivity|apply writes_nil].
  - cbn [add_r add_loop]. rewrite (reads_hd _ _ _ _ _ Rx), (reads_hd _ _ _ _ _ Ry). cbn [bind].
    destruct (st_ok m z i (((a + b + c) mod W64) mod B)%Z (room_hd _ _ _ _ Rz)) as (m1 & -> & W1). cbn [bind].
    destruct (IH ys (length xs) (S i) z x y ((a + b + c) mod W64 / B)%Z m1 eq_refl ltac:(lia)
      (step_frame _ _ _ _ _ _ _ _ W1 (reads_tl _ _ _ _ _ Rx) eq_refl Ux)
      (step_frame m z y i _ m1 ys (length xs) W1 (reads_tl _ _ _ _ _ Ry) ltac:(lia) Uy)
      (writes_room _ _ _ _ _ _ W1 (room_tl _ _ _ _ Rz)) (upward_S _ _ _ _ Ux) (upward_S _ _ _ _ Uy)) as (m2 & E & W2).
    rewrite E. destruct (add_loop xs ys ((a + b + c) mod W64 / B)) as [r c']. cbn [fst snd] in *.
    eexists; split; [reflexivity|]. apply (writes_up m (at_ z i) [_] m1 r m2 W1). rewrite at_at. cbn [length]. now rewrite Nat.add_1_r.
Qed.
Lemma sub_r_ok xs : forall ys k i z x y c m, length xs = k -> length ys = k -> reads m (at_ x i) xs -> reads m (at_ y i) ys -> room m (at_ z i) k ->
  upward (at_ z i) (at_ x i) k -> upward (at_ z i) (at_ y i) k ->
  exists m', sub_r k i z x y c m = Ok (snd (sub_loop xs ys c), m') /\ writes m (at_ z i) (fst (sub_loop xs ys c)) m'.
Proof.
  induction xs as [|a xs IH]; intros ys k i z x y c m Lx Ly Rx Ry Rz Ux Uy; destruct ys as [|b ys]; cbn [length] in *; subst k; try discriminate.
  - cbn [sub_r sub_loop fst snd]. eexists; split; [reflexivity|apply writes_nil].
  - cbn [sub_r sub_loop]. rewrite (reads_hd _ _ _ _ _ Rx), (reads_hd _ _ _ _ _ Ry). cbn [bind].
    destruct (st_ok m z i (((a - b - c) mod W64) mod B)%Z (room_hd _ _ _ _ Rz)) as (m1 & -> & W1). cbn [bind].
    destruct (IH ys (length xs) (S i) z x y ((a - b - c) mod W64 / 2 ^ 63)%Z m1 eq_refl ltac:(lia)
      (step_frame _ _ _ _ _ _ _ _ W1 (reads_tl _ _ _ _ _ Rx) eq_refl Ux)
      (step_frame m z y i _ m1 ys (length xs) W1 (reads_tl _ _ _ _ _ Ry) ltac:(lia) Uy)
      (writes_room _ _ _ _ _ _ W1 (room_tl _ _ _ _ Rz)) (upward_S _ _ _ _ Ux) (upward_S _ _ _ _ Uy)) as (m2 & E & W2).
    rewrite E. destruct (sub_loop xs ys ((a - b - c) mod W64 / 2 ^ 63)) as [r c']. cbn [fst snd] in *.
    eexists; split; [reflexivity|]. apply (writes_up m (at_ z i) [_] m1 r m2 W1). rewrite at_at. cbn [length]. now rewrite Nat.add_1_r.
Qed.
Lemma mul_word_r_ok xs : forall k i z x y H m, length xs = k -> reads m (at_ x i) xs -> room m (at_ z i) k ->
  upward (at_ z i) (at_ x i) k ->
  exists m', mul_word_r k i z x y H m = Ok (snd (mul_word_loop xs y H), m') /\ writes m (at_ z i) (fst (mul_word_loop xs y H)) m'.
Proof.
  induction xs as [|a xs IH]; intros k i z x y H m Lx Rx Rz Ux; cbn [length] in *; subst k.
  - cbn [mul_word_r mul_word_loop fst snd]. eexists; split; [reflexivity|apply writes_nil].
  - cbn [mul_word_r mul_word_loop]. rewrite (reads_hd _ _ _ _ _ Rx). cbn [bind].
    destruct (st_ok m z i ((((a * y) mod W64 + H) mod W64) mod B)%Z (room_hd _ _ _ _ Rz)) as (m1 & -> & W1). cbn [bind].
    destruct (IH (length xs) (S i) z x y (((a * y) mod W64 + H) mod W64 / B)%Z m1 eq_refl
      (step_frame _ _ _ _ _ _ _ _ W1 (reads_tl _ _ _ _ _ Rx) eq_refl Ux)
      (writes_room _ _ _ _ _ _ W1 (room_tl _ _ _ _ Rz)) (upward_S _ _ _ _ Ux)) as (m2 & E & W2).
    rewrite E. destruct (mul_word_loop xs y (((a * y) mod W64 + H) mod W64 / B)) as [r c']. cbn [fst snd] in *.
    eexists; split; [reflexivity|]. apply (writes_up m (at_ z i) [_] m1 r m2 W1). rewrite at_at. cbn [length]. now rewrite Nat.add_1_r.
Qed.
Lemma mul_word_add_r_ok xs : forall zs k i z x y H m, length xs = k -> length zs = k -> reads m (at_ x i) xs -> reads m (at_ z i) zs ->
  upward (at_ z i) (at_ x i) k ->
  exists m', mul_word_add_r k i z x y H m = Ok (snd (mul_word_add_loop zs xs y H), m') /\ writes m (at_ z i) (fst (mul_word_add_loop zs xs y H)) m'.
Proof.
  induction xs as [|a xs IH]; intros zs k i z x y H m Lx Lz Rx Rz Ux; destruct zs as [|c zs]; cbn [length] in *; subst k; try discriminate.
  - cbn [mul_word_add_r mul_word_add_loop fst snd]. eexists; split; [reflexivity|apply writes_nil].
  - cbn [mul_word_add_r mul_word_add_loop]. rewrite (reads_hd _ _ _ _ _ Rx), (reads_hd _ _ _ _ _ Rz). cbn [bind].
    assert (Rm : room m (at_ z i) (S (length xs))) by (rewrite <- Lz; apply (reads_room _ _ _ Rz)).
    destruct (st_ok m z i (((((a * y) mod W64 + H) mod W64 + c) mod W64) mod B)%Z (room_hd _ _ _ _ Rm)) as (m1 & -> & W1). cbn [bind].
    assert (Rz1 : reads m1 (at_ z (S i)) zs).
    { eapply writes_frame; [exact W1|apply (reads_tl _ _ _ _ _ Rz)|]. unfold apart, at_. cbn [fst snd length]. lia. }
    destruct (IH zs (length xs) (S i) z x y ((((a * y) mod W64 + H) mod W64 + c) mod W64 / B)%Z m1 eq_refl ltac:(lia)
      (step_frame _ _ _ _ _ _ _ _ W1 (reads_tl _ _ _ _ _ Rx) eq_refl Ux) Rz1 (upward_S _ _ _ _ Ux)) as (m2 & E & W2).
    rewrite E. destruct (mul_word_add_loop zs xs y ((((a * y) mod W64 + H) mod W64 + c) mod W64 / B)) as [r c']. cbn [fst snd] in *.
    eexists; split; [reflexivity|]. apply (writes_up m (at_ z i) [_] m1 r m2 W1). rewrite at_at. cbn [length]. now rewrite Nat.add_1_r.
Qed.
Lemma copy_r_ok xs : forall k i y x m, length xs = k -> reads m (at_ x i) xs -> room m (at_ y i) k -> upward (at_ y i) (at_ x i) k ->
  exists m', copy_r k i y x m = Ok m' /\ writes m (at_ y i) xs m'.
Proof.
  induction xs as [|a xs IH]; intros k i y x m Lx Rx Ry Ux; cbn [length] in *; subst k.
  - eexists; split; [reflexivity|apply writes_nil].
  - cbn [copy_r]. rewrite (reads_hd _ _ _ _ _ Rx). cbn [bind].
    destruct (st_ok m y i a (room_hd _ _ _ _ Ry)) as (m1 & -> & W1). cbn [bind].
    destruct (IH (length xs) (S i) y x m1 eq_refl
      (step_frame _ _ _ _ _ _ _ _ W1 (reads_tl _ _ _ _ _ Rx) eq_refl Ux)
      (writes_room _ _ _ _ _ _ W1 (room_tl _ _ _ _ Ry)) (upward_S _ _ _ _ Ux)) as (m2 & E & W2).
    rewrite E. eexists; split; [reflexivity|]. apply (writes_up m (at_ y i) [_] m1 xs m2 W1). rewrite at_at. cbn [length]. now rewrite Nat.add_1_r.
Qed.
Lemma clear_r_ok k : forall i x m, room m (at_ x i) k -> exists m', clear_r k i x m = Ok m' /\ writes m (at_ x i) (repeat 0%Z k) m'.
Proof.
  induction k as [|k IH]; intros i x m Rx.
  - eexists; split; [reflexivity|apply writes_nil].
  - cbn [clear_r repeat]. destruct (st_ok m x i 0%Z (room_hd _ _ _ _ Rx)) as (m1 & -> & W1). cbn [bind].
    destruct (IH (S i) x m1 (writes_room _ _ _ _ _ _ W1 (room_tl _ _ _ _ Rx))) as (m2 & E & W2).
    rewrite E. eexists; split; [reflexivity|]. apply (writes_up m (at_ x i) [_] m1 (repeat 0%Z k) m2 W1). rewrite at_at. cbn [length]. now rewrite Nat.add_1_r.
Qed.

Lemma add_n_ok m z x y n xs ys : length xs = n -> length ys = n -> reads m x xs -> reads m y ys -> room m z n -> upward z x n -> upward z y n ->
  exists m', add_n_r m z x y n = Ok (snd (add_n xs ys), m') /\ writes m z (fst (add_n xs ys)) m'.
Proof. intros. unfold add_n_r, add_n. rewrite <- (at_0 z). destruct (add_r_ok xs ys n 0 z x y 0%Z m) as (m' & E & W); rewrite ?at_0; try assumption. rewrite ?at_0 in *. eauto. Qed.
Lemma sub_n_ok m z x y n xs ys : length xs = n -> length ys = n -> reads m x xs -> reads m y ys -> room m z n -> upward z x n -> upward z y n ->
  exists m', sub_n_r m z x y n = Ok (snd (sub_n xs ys), m') /\ writes m z (fst (sub_n xs ys)) m'.
Proof. intros. unfold sub_n_r, sub_n. rewrite <- (at_0 z). destruct (sub_r_ok xs ys n 0 z x y 0%Z m) as (m' & E & W); rewrite ?at_0; try assumption. rewrite ?at_0 in *. eauto. Qed.
Lemma mul_word_n_ok m z x y n xs : length xs = n -> reads m x xs -> room m z n -> upward z x n ->
  exists m', mul_word_n_r m z x y n = Ok (snd (mul_word_n xs y), m') /\ writes m z (fst (mul_word_n xs y)) m'.
Proof. intros. unfold mul_word_n_r, mul_word_n. destruct (mul_word_r_ok xs n 0 z x y 0%Z m) as (m' & E & W); rewrite ?at_0 in *; try assumption. eauto. Qed.
Lemma mul_word_add_n_ok m z x y n xs zs : length xs = n -> length zs = n -> reads m x xs -> reads m z zs -> upward z x n ->
  exists m', mul_word_add_n_r m z x y n = Ok (snd (mul_word_add_n zs xs y), m') /\ writes m z (fst (mul_word_add_n zs xs y)) m'.
Proof.
  intros. unfold mul_word_add_n_r, mul_word_add_n. destruct (mul_word_add_r_ok xs zs n 0 z x y 0%Z m) as (m' & E & W); rewrite ?at_0 in *; try assumption.
  rewrite E. cbn [bind]. destruct (mul_word_add_loop zs xs y 0) as [r h]. cbn [fst snd] in *. eauto.
Qed.
Lemma copy_n_ok m y x n xs : length xs = n -> reads m x xs -> room m y n -> upward y x n ->
  exists m', copy_n_r m y x n = Ok m' /\ writes m y xs m'.
Proof. intros. unfold copy_n_r. destruct (copy_r_ok xs n 0 y x m) as (m' & E & W); rewrite ?at_0 in *; try assumption. eauto. Qed.
Lemma clear_n_ok m x n : room m x n -> exists m', clear_n_r m x n = Ok m' /\ writes m x (repeat 0%Z n) m'.
Proof. intros. unfold clear_n_r. destruct (clear_r_ok n 0 x m) as (m' & E & W); rewrite ?at_0 in *; try assumption. eauto. Qed.
