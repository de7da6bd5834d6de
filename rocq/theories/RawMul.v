From Coq Require Import List ZArith Bool Lia.
From Verif Require Import Outcome LoopModel WordsModel WordsSpec WordsProofs RawModel RawSpec RawProofs RawLoops RawAlloc.
Import ListNotations.
Open Scope nat_scope.

Lemma loc_eqb_spec p q : loc_eqb p q = true <-> p = q.
Proof.
  unfold loc_eqb. rewrite andb_true_iff, !Nat.eqb_eq. destruct p, q. cbn [fst snd]. split; [intros [-> ->]; reflexivity|intros E; injection E as -> ->; auto].
Qed.
Lemma loc_eqb_neq p q : loc_eqb p q = false <-> p <> q.
Proof. rewrite <- loc_eqb_spec. destruct (loc_eqb p q); split; congruence. Qed.
Lemma writes_over m p u m1 v m2 : writes m p u m1 -> writes m1 p v m2 -> length u <= length v -> writes m p v m2.
Proof.
  intros [S1 H1] [S2 H2] L. split; [congruence|]. intros b k. specialize (H1 b k). specialize (H2 b k).
  split; [tauto|]. intros H. rewrite (proj2 H2 H). apply H1. unfold within in *. lia.
Qed.
Lemma mul_word_loop_len x : forall y H, length (fst (mul_word_loop x y H)) = length x.
Proof. induction x as [|a x IH]; intros y H; cbn [mul_word_loop]; [reflexivity|]. match goal with |- context[mul_word_loop x y ?h] => specialize (IH y h); destruct (mul_word_loop x y h) end. cbn [fst length] in *. lia. Qed.
Lemma mul_word_add_loop_len x : forall z y H, length z = length x -> length (fst (mul_word_add_loop z x y H)) = length x.
Proof.
  induction x as [|a x IH]; intros [|c z] y H L; try discriminate; cbn [mul_word_add_loop]; [reflexivity|].
  cbn [length] in L. match goal with |- context[mul_word_add_loop z x y ?h] => specialize (IH z y h ltac:(lia)); destruct (mul_word_add_loop z x y h) end. cbn [fst length] in *. lia.
Qed.
Lemma add_loop_len x : forall y c, length y = length x -> length (fst (add_loop x y c)) = length x.
Proof.
  induction x as [|a x IH]; intros [|b y] c L; try discriminate; cbn [add_loop]; [reflexivity|].
  cbn [length] in L. match goal with |- context[add_loop x y ?h] => specialize (IH y h ltac:(lia)); destruct (add_loop x y h) end. cbn [fst length] in *. lia.
Qed.
Lemma sub_loop_len x : forall y c, length y = length x -> length (fst (sub_loop x y c)) = length x.
Proof.
  induction x as [|a x IH]; intros [|b y] c L; try discriminate; cbn [sub_loop]; [reflexivity|].
  cbn [length] in L. match goal with |- context[sub_loop x y ?h] => specialize (IH y h ltac:(lia)); destruct (sub_loop x y h) end. cbn [fst length] in *. lia.
Qed.
Lemma add_one_len x : length (fst (add_one x)) = length x.
Proof. induction x as [|a x IH]; cbn [add_one]; [reflexivity|]. destruct ((a + 1) mod B =? 0)%Z; [destruct (add_one x)|]; cbn [fst length] in *; lia. Qed.
Lemma sub_one_len x : length (fst (sub_one x)) = length x.
Proof. induction x as [|a x IH]; cbn [sub_one]; [reflexivity|]. destruct (a =? 0)%Z; [destruct (sub_one x)|]; cbn [fst length] in *; lia. Qed.
Lemma add_word_len x v : length (fst (add_word x v)) = length x.
Proof. destruct x as [|a x]; [reflexivity|]. cbn [add_word]. pose proof (add_one_len x). destruct (((a + v) mod B >=? v)%Z); [|destruct (add_one x)]; cbn [fst length] in *; lia. Qed.
Lemma sub_word_len x v : length (fst (sub_word x v)) = length x.
Proof. destruct x as [|a x]; [reflexivity|]. cbn [sub_word]. pose proof (sub_one_len x). destruct (a >=? v)%Z; [|destruct (sub_one x)]; cbn [fst length] in *; lia. Qed.

Lemma mul_rows_ok ys : forall k i z x y m xs zs, length ys = k -> length zs = length xs + i -> reads m x xs -> reads m z zs -> reads m (at_ y i) ys ->
  room m z (length xs + i + k) -> apart z (length xs + i + k) x (length xs) -> apart z (length xs + i + k) (at_ y i) k ->
  exists m', mul_rows_r k i z x y (length xs) m = Ok m' /\ writes m z (mul_rows zs xs i ys) m' /\ length (mul_rows zs xs i ys) = length xs + i + k.
Proof.
  induction ys as [|a ys IH]; intros k i z x y m xs zs L Lz Rx Rz Ry Rm Ax Ay; cbn [length] in *; subst k.
  - exists m. split; [reflexivity|]. split; [now apply reads_writes|cbn [mul_rows]; lia].
  - cbn [mul_rows_r mul_rows]. rewrite (reads_hd _ _ _ _ _ Ry). cbn [bind].
    assert (Ls : length (skipn i zs) = length xs) by (rewrite skipn_length; lia).
    destruct (mul_word_add_n_ok m (at_ z i) x a (length xs) xs (skipn i zs) eq_refl Ls Rx) as (m1 & -> & W1);
      [apply reads_skipn; [assumption|lia]|revert Ax; unfold apart, upward, at_; cbn [fst snd]; lia|]. cbn [bind fst snd].
    assert (Lr : length (fst (mul_word_add_n (skipn i zs) xs a)) = length xs).
    { unfold mul_word_add_n. pose proof (mul_word_add_loop_len xs (skipn i zs) a 0%Z Ls). destruct (mul_word_add_loop (skipn i zs) xs a 0). assumption. }
    destruct (mul_word_add_n (skipn i zs) xs a) as [r h]. cbn [fst snd] in *.
    destruct (st_ok m1 z (length xs + i) h) as (m2 & -> & W2); [apply (writes_room _ _ _ _ _ _ W1 Rm); lia|]. cbn [bind].
    assert (Lf : length (firstn i zs) = i) by (apply firstn_length_le; lia).
    assert (W : writes m z (firstn i zs ++ r ++ [h]) m2).
    { apply (writes_up m z (firstn i zs) m (r ++ [h]) m2); [apply reads_writes; now apply reads_firstn|]. rewrite Lf.
      apply (writes_up m (at_ z i) r m1 [h] m2 W1). rewrite at_at, Lr. now replace (i + length xs) with (length xs + i) by lia. }
    assert (LW : length (firstn i zs ++ r ++ [h]) = length xs + S i) by (rewrite !app_length, Lf, Lr; cbn [length]; lia).
    destruct (IH (length ys) (S i) z x y m2 xs (firstn i zs ++ r ++ [h]) eq_refl LW) as (m3 & -> & W3 & L3).
    + eapply writes_frame; [exact W|exact Rx|]. rewrite LW. revert Ax. unfold apart. lia.
    + apply (writes_reads _ _ _ _ W).
    + eapply writes_frame; [exact W|apply (reads_tl _ _ _ _ _ Ry)|]. rewrite LW. revert Ay. unfold apart, at_. cbn [fst snd]. lia.
    + replace (length xs + S i + length ys) with (length xs + i + S (length ys)) by lia. apply (writes_room _ _ _ _ _ _ W Rm).
    + revert Ax. unfold apart. lia.
    + revert Ay. unfold apart, at_. cbn [fst snd]. lia.
    + exists m3. split; [reflexivity|]. split; [|rewrite L3; lia]. apply (writes_over m z _ m2 _ m3 W W3). rewrite LW, L3. lia.
Qed.

Lemma copy_aside junk m z N x xs : reads m x xs -> room m z N -> 0 < N -> same_or_apart z N x (length xs) ->
  exists p m1, (if loc_eqb z x then let '(m1, p) := alloca m junk (length xs) in let* m1 := copy_n_r m1 p x (length xs) in Ok (p, m1) else Ok (x, m)) = Ok (p, m1) /\
    extends m m1 /\ reads m1 p xs /\ apart z N p (length xs).
Proof.
  intros Rx Rz HN SA. destruct (loc_eqb z x) eqn:E.
  - destruct (alloca_ok m junk (length xs)) as (m1 & -> & Ex & Rp & _).
    pose proof (room_block m z N Rz HN) as Hz. pose proof Hz as Hx. apply loc_eqb_spec in E. rewrite E in Hx.
    destruct (copy_n_ok m1 (length m, 0) x (length xs) xs eq_refl (extends_reads _ _ _ _ Ex Rx) Rp) as (m2 & -> & W2); [left; cbn [fst]; lia|].
    cbn [bind]. exists (length m, 0), m2. split; [reflexivity|]. split; [apply (extends_writes m m1 _ _ m2 Ex W2); cbn [fst]; lia|].
    split; [apply (writes_reads _ _ _ _ W2)|]. left. cbn [fst]. lia.
  - exists x, m. split; [reflexivity|]. split; [apply extends_refl|]. split; [assumption|]. apply loc_eqb_neq in E. destruct SA as [SA|SA]; [congruence|assumption].
Qed.

Lemma mul_core_ok junk m z x y xs y0 ys : length ys < length xs -> reads m x xs -> reads m y (y0 :: ys) -> room m z (length xs + S (length ys)) ->
  same_or_apart z (length xs + S (length ys)) x (length xs) -> same_or_apart z (length xs + S (length ys)) y (S (length ys)) ->
  exists m', (let xn := length xs in let yn := S (length ys) in
    let* r := (if loc_eqb z x then let '(m1, p) := alloca m (junk 0%nat) xn in let* m1 := copy_n_r m1 p x xn in Ok (p, m1) else Ok (x, m)) in
    let '(x, m1) := r in
    let* r := (if loc_eqb z y then let '(m2, p) := alloca m1 (junk 1%nat) yn in let* m2 := copy_n_r m2 p y yn in Ok (p, m2) else Ok (y, m1)) in
    let '(y, m2) := r in
    let* y0 := ld m2 y 0 in
    let* r := mul_word_n_r m2 z x y0 xn in
    let* m3 := st (snd r) z xn (fst r) in
    let* m4 := mul_rows_r (yn - 1) 1 z x y xn m3 in
    Ok (true, leave m m4)) = Ok (true, m') /\
  writes m z (let '(r, h) := mul_word_n xs y0 in mul_rows (r ++ [h]) xs 1 ys) m'.
Proof.
  intros L Rx Ry Rz Sx Sy. cbv zeta. set (N := length xs + S (length ys)) in *.
  destruct (copy_aside (junk 0) m z N x xs Rx Rz ltac:(lia) Sx) as (x1 & m1 & -> & E1 & Rx1 & Ax). cbn [bind].
  destruct (copy_aside (junk 1) m1 z N y (y0 :: ys) (extends_reads _ _ _ _ E1 Ry) (extends_room _ _ _ _ E1 Rz) ltac:(lia) Sy) as (y1 & m2 & Ec & E2 & Ry1 & Ay).
  cbn [length] in Ec. rewrite Ec. cbn [bind]. clear Ec.
  pose proof (extends_reads _ _ _ _ E2 Rx1) as Rx2. pose proof (extends_room _ _ _ _ E2 (extends_room _ _ _ _ E1 Rz)) as Rz2.
  rewrite (reads_ld0 _ _ _ 0 Ry1) by (cbn [length]; lia). cbn [bind nth].
  destruct (mul_word_n_ok m2 z x1 y0 (length xs) xs eq_refl Rx2) as (m3 & -> & W3); [intros j Hj; apply Rz2; lia|revert Ax; unfold apart, upward; lia|]. cbn [bind fst snd].
  pose proof (mul_word_loop_len xs y0 0%Z) as Lr. fold (mul_word_n xs y0) in Lr. destruct (mul_word_n xs y0) as [r h]. cbn [fst snd] in *.
  destruct (st_ok m3 z (length xs) h) as (m4 & -> & W4); [apply (writes_room _ _ _ _ _ _ W3 Rz2); lia|]. cbn [bind].
  assert (W : writes m2 z (r ++ [h]) m4) by (apply (writes_up m2 z r m3 [h] m4 W3); now rewrite Lr).
  assert (LW : length (r ++ [h]) = length xs + 1) by (rewrite app_length, Lr; reflexivity).
  rewrite <- (at_0 y1) in Ry1. pose proof (reads_tl _ _ _ _ _ Ry1) as Ryt.
  replace (S (length ys) - 1) with (length ys) by lia.
  destruct (mul_rows_ok ys (length ys) 1 z x1 y1 m4 xs (r ++ [h]) eq_refl LW) as (m5 & -> & W5 & L5).
  - eapply writes_frame; [exact W|exact Rx2|]. rewrite LW. revert Ax. unfold apart. lia.
  - apply (writes_reads _ _ _ _ W).
  - eapply writes_frame; [exact W|exact Ryt|]. rewrite LW. revert Ay. unfold apart, at_. cbn [fst snd length]. lia.
  - replace (length xs + 1 + length ys) with N by (unfold N; lia). apply (writes_room _ _ _ _ _ _ W Rz2).
  - revert Ax. unfold apart. lia.
  - revert Ay. unfold apart, at_. cbn [fst snd length]. lia.
  - cbn [bind]. exists (leave m m5). split; [reflexivity|]. apply (leave_writes m m2 z _ m5 (extends_trans _ _ _ E1 E2)).
    + apply (writes_over m2 z _ m4 _ m5 W W5). rewrite LW, L5. lia.
    + apply (room_block m z N Rz). lia.
Qed.
Lemma mul_nm_ok junk m z x y xs ys : xs <> [] -> ys <> [] -> reads m x xs -> reads m y ys -> room m z (length xs + length ys) ->
  same_or_apart z (length xs + length ys) x (length xs) -> same_or_apart z (length xs + length ys) y (length ys) ->
  exists m', mul_nm_r junk m z x (length xs) y (length ys) = Ok (true, m') /\ writes m z (mul_nm xs ys) m'.
Proof.
  intros Nx Ny Rx Ry Rz Sx Sy. unfold mul_nm_r, mul_nm.
  replace (Nat.eqb (length xs) 0 || Nat.eqb (length ys) 0) with false by (destruct xs, ys; try congruence; reflexivity).
  destruct (Nat.ltb_spec (length xs) (length ys)) as [Hl|Hl].
  - replace (length xs <=? length ys) with true by (symmetry; apply Nat.leb_le; lia). cbn [check bind].
    destruct xs as [|x0 xs]; [congruence|]. cbn [length] in *. rewrite (Nat.add_comm (S (length xs)) (length ys)) in *.
    apply (mul_core_ok junk m z y x ys x0 xs); try assumption. lia.
  - replace (length ys <=? length xs) with true by (symmetry; apply Nat.leb_le; lia). cbn [check bind].
    destruct ys as [|y0 ys]; [congruence|]. cbn [length] in *.
    apply (mul_core_ok junk m z x y xs y0 ys); try assumption; lia.
Qed.
