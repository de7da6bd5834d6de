(** Proofs about BigHeapModel, part 4: copies, moves, swaps, division; programs. *)
From Coq Require Import List ZArith Bool Lia.
From Verif Require Import Outcome LoopModel WordsModel WordsSpec WordsProofs DivProofs BigintModel BigintSpec BigintProofs BigintClaims BufferModel BufferSpec BufferProofs BigHeapModel BigHeapSpec BigHeapProofs BigHeapOps BigHeapRest.
Import ListNotations.
Local Open Scope nat_scope.

Lemma list_ext {A} (l m : list A) : length l = length m -> (forall j, j < length l -> nth_error l j = nth_error m j) -> l = m.
Proof.
  revert m. induction l as [|a l IH]; intros [|b m] L H; cbn in *; try lia; [reflexivity|].
  pose proof (H 0 ltac:(lia)) as H0. cbn in H0. injection H0 as <-. f_equal. apply IH; [lia|]. intros j Hj. apply (H (S j)). lia.
Qed.
Lemma changed_eq A i l A' : changed A i l A' -> A' = upd A i l.
Proof.
  intros (L & E & H). assert (Hi : i < length A) by (rewrite <- L; apply nth_error_Some; congruence). apply list_ext; [rewrite upd_length; exact L|].
  intros j _. rewrite upd_nth. rewrite (proj2 (Nat.ltb_lt _ _) Hi). destruct (Nat.eqb_spec j i) as [->|Nj]; [exact E|apply H; exact Nj].
Qed.
Lemma upd_comm {A} (l : list A) i j a b : i <> j -> upd (upd l i a) j b = upd (upd l j b) i a.
Proof. revert i j. induction l as [|x l IH]; intros [|i] [|j] H; cbn; try congruence. f_equal. apply IH. congruence. Qed.
Lemma var_nth vs i v : nth_error vs i = Some v -> var vs i = v.
Proof. intros H. apply nth_error_nth. exact H. Qed.
Lemma var_same vs z v : z < length vs -> var (upd vs z v) z = v.
Proof. intros H. apply var_nth. apply upd_same. exact H. Qed.
Lemma var_other vs z v x : x <> z -> var (upd vs z v) x = var vs x.
Proof. intros H. unfold var. rewrite <- !nth_default_eq. unfold nth_default. rewrite upd_other by exact H. reflexivity. Qed.
Lemma values_length N s : hinv N s -> length (values s) = length (objs (bufs s)).
Proof. intros H. rewrite values_view, map_length. apply (view_length N). exact H. Qed.

(** copying and moving buffers *)
Lemma copy_buf N junk p z x c : flex_inv N p -> z < length (objs p) -> nth_error (contents p) x = Some c ->
  exists p', flex_step N junk (Copy z x) p = Ok (RUnit, p') /\ flex_inv N p' /\ contents p' = upd (contents p) z c /\ length (objs p') = length (objs p).
Proof.
  intros Hi Hz E. assert (Hx : x < length (objs p)) by (rewrite <- (map_length (flex_contents (hp p))); apply nth_error_Some; unfold contents in E; congruence).
  destruct (flex_step_spec N junk (Copy z x) p Hi (conj Hz Hx)) as (A & F & L). destruct (flex_step N junk (Copy z x) p) as [[r p']| | |]; cbn [outcome_of state_of] in *; inversion A; subst.
  exists p'. split; [reflexivity|]. split; [exact F|]. split; [|exact L]. apply changed_eq. assert (l = c) by congruence. subst l. assumption.
Qed.
Lemma move_buf N junk p z x c : flex_inv N p -> z < length (objs p) -> nth_error (contents p) x = Some c ->
  exists p', flex_step N junk (Move z x) p = Ok (RUnit, p') /\ flex_inv N p' /\ contents p' = (if Nat.eqb z x then contents p else upd (upd (contents p) z c) x []) /\ length (objs p') = length (objs p).
Proof.
  intros Hi Hz E. assert (Hx : x < length (objs p)) by (rewrite <- (map_length (flex_contents (hp p))); apply nth_error_Some; unfold contents in E; congruence).
  destruct (flex_step_spec N junk (Move z x) p Hi (conj Hz Hx)) as (A & F & L). destruct (flex_step N junk (Move z x) p) as [[r p']| | |]; cbn [outcome_of state_of] in *;
    inversion A as [| | | | | | | |A0 i l Q1|A0 i j l A1 A2 Q1 Q2 Q3 Q4|]; subst.
  - rewrite Nat.eqb_refl. exists p'. split; [reflexivity|]. split; [exact F|]. split; [congruence|exact L].
  - rewrite (proj2 (Nat.eqb_neq _ _) Q1). exists p'. split; [reflexivity|]. split; [exact F|]. split; [|exact L]. apply changed_eq in Q3, Q4. rewrite Q4, Q3. congruence.
Qed.

Ltac conj := repeat match goal with |- _ /\ _ => split end.

Section Main.
  Variables (N : nat) (junk : nat -> Z) (s : hstate).
  Hypothesis Hi : hinv N s.
  Let n := length (objs (bufs s)).

  (** the copy of an object, valued or not *)
  Lemma copy_ok z x : z < n -> x < n -> exists p c m, nth_error (contents (bufs s)) x = Some c /\ nth_error (meta s) x = Some m /\ good (c, m) /\ var (values s) x = held c m /\
    copy_h N junk s z x = Ok (mkh p (upd (meta s) z m)) /\ flex_inv N p /\ contents p = upd (contents (bufs s)) z c /\ length (objs p) = length (objs (bufs s)).
  Proof.
    intros Hz Hx. destruct (obj_ex N s x Hi Hx) as (b & c & m & E & Ec & Em & G & Ev & Lc). unfold copy_h.
    destruct (Nat.eqb_spec z x) as [->|Nx].
    - exists (bufs s), c, m. unfold get. rewrite Em. cbn [bind]. rewrite !upd_id by assumption. conj; auto; [apply var_nth; exact Ev|destruct s; reflexivity|apply Hi].
    - destruct (copy_buf N junk (bufs s) z x c (proj1 Hi) Hz Ec) as (p & E1 & P1 & P2 & P3). exists p, c, m. rewrite E1. cbn [bind snd]. unfold get. rewrite Em. cbn [bind].
      destruct (meta_ex N junk s Hi z Hz) as (k & g & Ez). rewrite Ez. cbn [bind]. conj; auto. apply var_nth. exact Ev.
  Qed.
  Lemma copy_goes z x : z < n -> x < n -> goes N s (copy_h N junk s z x) (upd (values s) z (var (values s) x)).
  Proof.
    intros Hz Hx. destruct (copy_ok z x Hz Hx) as (p & c & m & Ec & Em & G & Ev & E & P1 & P2 & P3). rewrite E, Ev. eexists. split; [reflexivity|]. apply change_one; auto.
  Qed.
  Lemma move_goes z x : z < n -> x < n -> goes N s (move_h N junk s z x) (if Nat.eqb z x then values s else upd (upd (values s) z (var (values s) x)) x None).
  Proof.
    intros Hz Hx. destruct (obj_ex N s x Hi Hx) as (b & c & m & E & Ec & Em & G & Ev & Lc). unfold move_h.
    destruct (meta_ex N junk s Hi z Hz) as (k & g & Ez).
    destruct (Nat.eqb_spec z x) as [->|Nx].
    - unfold get. rewrite Ez. cbn [bind]. exists s. auto.
    - destruct (move_buf N junk (bufs s) z x c (proj1 Hi) Hz Ec) as (p & E1 & P1 & P2 & P3). rewrite (proj2 (Nat.eqb_neq _ _) Nx) in P2. rewrite E1. cbn [bind snd]. unfold get. rewrite Em. cbn [bind]. rewrite Ez. cbn [bind].
      eexists. split; [reflexivity|].
      assert (V : view (mkh p (upd (meta s) z m)) = upd (upd (view s) z (c, m)) x ([], m)).
      { unfold view. cbn [bufs meta]. rewrite P2. rewrite <- (upd_id (upd (meta s) z m) x m) at 1 by (rewrite upd_other by congruence; exact Em). rewrite !combine_upd. reflexivity. }
      split; [split; [exact P1|split; [cbn; rewrite upd_length; rewrite P3; apply Hi|]]|split; [|exact P3]].
      + rewrite V. apply Forall_upd; [apply Forall_upd; [apply Hi|exact G]|left; reflexivity].
      + rewrite !values_view, V, !upd_map. cbn [fst snd held]. rewrite <- values_view, (var_nth _ _ _ Ev). reflexivity.
  Qed.

  Lemma add_obj : flex_inv N (mkprog (objs (bufs s) ++ [flex_new N]) (hp (bufs s))).
  Proof.
    destruct Hi as ([H1 H2] & _). split; cbn [objs hp].
    - intros i b E. destruct (Nat.ltb_spec i (length (objs (bufs s)))) as [L|L].
      + rewrite nth_error_app1 in E by exact L. apply (H1 i b E).
      + rewrite nth_error_app2 in E by exact L. destruct (i - length (objs (bufs s))) as [|u]; [|destruct u; discriminate E]. injection E as <-. split; [apply repeat_length|]. cbn. lia.
    - intros i j a bi bj Ei Ej Di Dj.
      assert (Lt : forall u bu, nth_error (objs (bufs s) ++ [flex_new N]) u = Some bu -> dd bu = Some a -> u < length (objs (bufs s))).
      { intros u bu Eu Du. destruct (Nat.ltb_spec u (length (objs (bufs s)))) as [L|L]; [exact L|]. rewrite nth_error_app2 in Eu by exact L.
        destruct (u - length (objs (bufs s))) as [|v]; [|destruct v; discriminate Eu]. injection Eu as <-. discriminate Du. }
      pose proof (Lt _ _ Ei Di). pose proof (Lt _ _ Ej Dj). rewrite nth_error_app1 in Ei, Ej by assumption. eapply H2; eauto.
  Qed.
  Lemma drop_obj p t : flex_inv N p -> flex_inv N (mkprog (firstn t (objs p)) (hp p)).
  Proof.
    intros [H1 H2]. assert (Sub : forall i b, nth_error (firstn t (objs p)) i = Some b -> nth_error (objs p) i = Some b).
    { intros i b E. rewrite <- E. symmetry. apply nth_error_firstn. destruct (Nat.ltb_spec i t); [assumption|]. assert (X : i < length (firstn t (objs p))) by (apply nth_error_Some; congruence). rewrite firstn_length in X. lia. }
    split; cbn [objs hp].
    - intros i b E. apply (H1 i b). apply Sub. exact E.
    - intros i j a bi bj Ei Ej. apply (H2 i j a bi bj); apply Sub; assumption.
  Qed.
  Lemma swap_bufs_ok x y cx cy : nth_error (contents (bufs s)) x = Some cx -> nth_error (contents (bufs s)) y = Some cy ->
    exists p, swap_bufs N junk (bufs s) x y = Ok p /\ flex_inv N p /\ contents p = upd (upd (contents (bufs s)) x cy) y cx /\ length (objs p) = n.
  Proof.
    intros Ex Ey. pose proof (contents_len N junk s Hi) as CL || pose proof (contents_len s) as CL. fold n in CL.
    assert (Hx : x < n) by (rewrite <- CL; apply nth_error_Some; congruence). assert (Hy : y < n) by (rewrite <- CL; apply nth_error_Some; congruence).
    set (p0 := mkprog (objs (bufs s) ++ [flex_new N]) (hp (bufs s))). set (c0 := contents (bufs s)) in *.
    assert (C0 : contents p0 = c0 ++ [[]]) by (unfold contents, p0, c0; cbn [objs hp]; rewrite map_app; reflexivity).
    assert (L0 : length (objs p0) = S n) by (unfold p0; cbn [objs]; rewrite app_length; cbn; unfold n; lia).
    assert (LC : length (c0 ++ [[]]) = S n) by (rewrite app_length, CL; cbn; lia).
    assert (App : forall i c, nth_error c0 i = Some c -> nth_error (c0 ++ [[]]) i = Some c).
    { intros i c E. rewrite nth_error_app1; [exact E|apply nth_error_Some; congruence]. }
    unfold swap_bufs. fold n. fold p0.
    destruct (move_buf N junk p0 n x cx add_obj) as (p1 & E1 & I1 & C1 & L1); [lia|rewrite C0; apply App; exact Ex|].
    rewrite E1. cbn [bind snd]. rewrite (proj2 (Nat.eqb_neq n x)) in C1 by lia. rewrite C0 in C1.
    assert (Y1 : exists d, nth_error (contents p1) y = Some d /\ (y <> x -> d = cy)).
    { destruct (Nat.eq_dec y x) as [->|Nyx].
      - exists []. split; [rewrite C1; apply upd_same; rewrite upd_length; lia|congruence].
      - exists cy. split; [|reflexivity]. rewrite C1, upd_other by exact Nyx. rewrite upd_other by lia. apply App. exact Ey. }
    destruct Y1 as (d & Y1 & Yd).
    destruct (move_buf N junk p1 x y d I1) as (p2 & E2 & I2 & C2 & L2); [lia|exact Y1|]. rewrite E2. cbn [bind snd].
    assert (T2 : nth_error (contents p2) n = Some cx).
    { rewrite C2. destruct (Nat.eqb_spec x y) as [_|_]; [|rewrite !upd_other by lia]; rewrite C1; rewrite upd_other by lia; apply upd_same; lia. }
    destruct (move_buf N junk p2 y n cx I2) as (p3 & E3 & I3 & C3 & L3); [lia|exact T2|]. rewrite E3. cbn [bind snd].
    rewrite (proj2 (Nat.eqb_neq y n)) in C3 by lia.
    eexists. split; [reflexivity|]. split; [apply drop_obj; exact I3|]. split.
    2:{ cbn [objs]. rewrite firstn_length. lia. }
    assert (CF : contents (mkprog (firstn n (objs p3)) (hp p3)) = firstn n (contents p3)) by (unfold contents; cbn [objs hp]; symmetry; apply firstn_map).
    rewrite CF. apply list_ext.
    { rewrite firstn_length, C3, !upd_length. assert (length (contents p2) = S n) by (unfold contents; rewrite map_length; lia). fold c0. rewrite CL. lia. }
    intros j Hj. rewrite firstn_length in Hj. rewrite nth_error_firstn by lia. rewrite C3, upd_other by lia.
    rewrite !upd_nth, !upd_length. assert (LP2 : length (contents p2) = S n) by (unfold contents; rewrite map_length; lia). rewrite LP2, CL.
    rewrite (proj2 (Nat.ltb_lt y (S n))), (proj2 (Nat.ltb_lt y n)), (proj2 (Nat.ltb_lt x n)) by lia.
    destruct (Nat.eqb_spec j y) as [->|Njy]; [reflexivity|]. rewrite C2. destruct (Nat.eqb_spec x y) as [->|Nxy].
    - rewrite (proj2 (Nat.eqb_neq j y)) by lia. rewrite C1. rewrite !upd_other by lia. apply nth_error_app1. lia.
    - rewrite upd_other by exact Njy. rewrite upd_nth. rewrite C1, !upd_length, LC, (proj2 (Nat.ltb_lt x (S n))) by lia. destruct (Nat.eqb_spec j x) as [->|Njx].
      + rewrite Yd by congruence. reflexivity.
      + rewrite !upd_other by lia. apply nth_error_app1. lia.
  Qed.
  Lemma swap_goes x y : x < n -> y < n -> goes N s (swap_h N junk s x y) (upd (upd (values s) x (var (values s) y)) y (var (values s) x)).
  Proof.
    intros Hx Hy. destruct (obj_ex N s x Hi Hx) as (bx & cx & mx & _ & Ex & Mx & Gx & Vx & _). destruct (obj_ex N s y Hi Hy) as (by_ & cy & my & _ & Ey & My & Gy & Vy & _).
    destruct (swap_bufs_ok x y cx cy Ex Ey) as (p & E & P1 & P2 & P3). unfold swap_h. rewrite E. cbn [bind]. unfold get. rewrite Mx, My. cbn [bind].
    eexists. split; [reflexivity|].
    assert (V : view (mkh p (upd (upd (meta s) x my) y mx)) = upd (upd (view s) x (cy, my)) y (cx, mx)) by (unfold view; cbn [bufs meta]; rewrite P2, !combine_upd; reflexivity).
    split; [split; [exact P1|split; [cbn; rewrite !upd_length; rewrite P3; apply Hi|]]|split; [|exact P3]].
    - rewrite V. apply Forall_upd; [apply Forall_upd; [apply Hi|exact Gy]|exact Gx].
    - rewrite !values_view, V, !upd_map. cbn [fst snd]. rewrite <- values_view, (var_nth _ _ _ Vx), (var_nth _ _ _ Vy). reflexivity.
  Qed.

  (** changing the sign of a valued object *)
  Lemma value_neg c k g g' : value (mk c k g') = (if g' then - Z.abs (value (mk c k g)) else Z.abs (value (mk c k g)))%Z \/ ~ valid (Flex 0) (cut (c, (k, g))).
  Proof.
    destruct (Z_lt_le_dec (magnitude (mk c k g)) 0) as [H|H].
    - right. intros V. pose proof (magnitude_range (Flex 0) _ V) as R. unfold magnitude, cut in *. cbn in *. rewrite firstn_firstn, Nat.min_id in R. lia.
    - left. unfold value. cbn [neg]. change (magnitude (mk c k g')) with (magnitude (mk c k g)). destruct g, g'; lia.
  Qed.
  Lemma good_neg c k g g' : good (c, (k, g)) -> good (c, (k, g')).
  Proof. intros [H|[H1 H2]]; [left; exact H|right; split; [exact H1|exact H2]]. Qed.
  Lemma held_neg c k g g' v : good (c, (k, g)) -> held c (k, g) = Some v -> held c (k, g') = Some (if g' then - Z.abs v else Z.abs v)%Z.
  Proof.
    intros G H. destruct G as [G|[_ G]]; [cbn in G; subst c; discriminate H|]. destruct (value_neg c k g g') as [E|E]; [|contradiction].
    destruct c as [|w c]; [discriminate H|]. cbn [held fst snd] in *. injection H as <-. rewrite E. reflexivity.
  Qed.
  Lemma set_neg_goes z g v : z < n -> var (values s) z = Some v -> goes N s (set_neg_h s z g) (upd (values s) z (Some (if g then - Z.abs v else Z.abs v)%Z)).
  Proof.
    intros Hz V. destruct (obj_ex N s z Hi Hz) as (b & c & [k g0] & _ & Ec & Em & G & Ev & _). rewrite (set_neg_ok s z k g0 g Em). eexists. split; [reflexivity|].
    rewrite (var_nth _ _ _ Ev) in V. rewrite <- (held_neg c k g0 g v G V). apply change_one; auto; [apply Hi|rewrite upd_id by exact Ec; reflexivity].
  Qed.
End Main.

(** composing steps *)
Lemma goes_bind N s o f vs vs' : goes N s o vs ->
  (forall s', hinv N s' -> values s' = vs -> length (objs (bufs s')) = length (objs (bufs s)) -> o = Ok s' -> goes N s' (f s') vs') -> goes N s (bind o f) vs'.
Proof.
  intros (s' & -> & H1 & H2 & H3) F. cbn [bind]. destruct (F s' H1 H2 H3 eq_refl) as (s2 & E & I & V & L). exists s2. split; [exact E|]. split; [exact I|]. split; [exact V|lia].
Qed.

Section Unary.
  Variables (N : nat) (junk : nat -> Z) (s : hstate).
  Hypothesis Hi : hinv N s.
  Let n := length (objs (bufs s)).
  Lemma sign_of x a : x < n -> var (values s) x = Some a -> exists g, neg_h s x = Ok g /\ a = (if g then - Z.abs a else Z.abs a)%Z.
  Proof.
    intros Hx V. destruct (live_ex N s x a Hi Hx V) as (X & LX & <-). exists (neg X). split; [apply neg_live; exact LX|].
    pose proof (magnitude_range (Flex 0) X (l_valid _ _ _ LX)) as R. unfold value. destruct (neg X); lia.
  Qed.
  Lemma neg_goes z x a : z < n -> x < n -> var (values s) x = Some a -> goes N s (neg_op_h N junk s z x) (upd (values s) z (Some (- a)%Z)).
  Proof.
    intros Hz Hx V. unfold neg_op_h. eapply goes_bind; [apply (copy_goes N junk s Hi z x Hz Hx)|]. intros s' I' V' L' _. rewrite V in V'.
    assert (VX : var (values s') x = Some a).
    { rewrite V'. destruct (Nat.eq_dec x z) as [->|Nx]; [apply var_same; rewrite (values_length N) by exact Hi; exact Hz|rewrite var_other by exact Nx; exact V]. }
    assert (VZ : var (values s') z = Some a) by (rewrite V'; unfold var; erewrite nth_error_nth; [reflexivity|]; apply upd_same; rewrite (values_length N) by exact Hi; exact Hz).
    assert (Sx : exists g, neg_h s' x = Ok g /\ a = (if g then - Z.abs a else Z.abs a)%Z).
    { destruct (live_ex N s' x a I' ltac:(fold n in L'; lia) VX) as (X & LX & <-). exists (neg X). split; [apply neg_live; exact LX|].
      pose proof (magnitude_range (Flex 0) X (l_valid _ _ _ LX)) as R. unfold value. destruct (neg X); lia. }
    destruct Sx as (g & Sg & Ea). rewrite Sg. cbn [bind].
    destruct (set_neg_goes N junk s' I' z (negb g) a ltac:(fold n in L'; lia) VZ) as (s2 & E2 & I2 & V2 & L2). exists s2. split; [exact E2|]. split; [exact I2|]. split; [|exact L2].
    rewrite V2, V', upd_upd. do 2 f_equal. destruct g; cbn [negb]; lia.
  Qed.
  Lemma abs_goes z x a : z < n -> x < n -> var (values s) x = Some a -> goes N s (abs_op_h N junk s z x) (upd (values s) z (Some (Z.abs a)%Z)).
  Proof.
    intros Hz Hx V. unfold abs_op_h. eapply goes_bind; [apply (copy_goes N junk s Hi z x Hz Hx)|]. intros s' I' V' L' _. rewrite V in V'.
    assert (VZ : var (values s') z = Some a) by (rewrite V'; unfold var; erewrite nth_error_nth; [reflexivity|]; apply upd_same; rewrite (values_length N) by exact Hi; exact Hz).
    destruct (set_neg_goes N junk s' I' z false a ltac:(fold n in L'; lia) VZ) as (s2 & E2 & I2 & V2 & L2). exists s2. split; [exact E2|]. split; [exact I2|]. split; [|exact L2].
    rewrite V2, V', upd_upd. reflexivity.
  Qed.
End Unary.
