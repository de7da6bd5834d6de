From Coq Require Import List ZArith Bool Lia.
From Verif Require Import Outcome LoopModel LoopProofs WordsModel WordsSpec WordsProofs DivProofs RawModel RawSpec RawProofs RawLoops RawAlloc RawMul RawAdd.
Import ListNotations.
Open Scope nat_scope.

(* two loops that proceed in step *)
Lemma run_sim {S A T C} (R : S -> T -> Prop) (RR : A -> C -> Prop) (step : S -> loopres S (outcome A)) (step' : T -> loopres T (outcome C)) :
  (forall s t, R s t -> match step' t with
     | Next t' => exists s', step s = Next s' /\ R s' t'
     | Done (Ok c) => exists a, step s = Done (Ok a) /\ RR a c
     | Done _ => True end) ->
  forall k s t c, R s t -> run_loop k step' t = Ok c -> exists a, run_loop k step s = Ok a /\ RR a c.
Proof.
  intros H. assert (G : forall k s t, R s t -> match loop2 k step' t with
     | Next t' => exists s', loop2 k step s = Next s' /\ R s' t'
     | Done (Ok c) => exists a, loop2 k step s = Done (Ok a) /\ RR a c
     | Done _ => True end).
  { induction k as [|k IH]; intros s t HR; cbn [loop2]; [apply H, HR|].
    pose proof (IH s t HR) as I. destruct (loop2 k step' t) as [t'|[c| | |]]; try exact Logic.I.
    - destruct I as (s' & -> & HR'). apply IH, HR'.
    - destruct I as (a & -> & Ha). eauto. }
  intros k s t c HR E. unfold run_loop in *. specialize (G k s t HR). destruct (loop2 k step' t) as [t'|r]; [discriminate|]. subst r.
  destruct G as (a & -> & Ha). eauto.
Qed.

Definition qroom (m : memory) (q : option loc) (qn : nat) : Prop := match q with None => True | Some q => room m q qn end.
Definition qreads (m : memory) (q : option loc) (ws : list Z) : Prop := match q with None => True | Some q => reads m q ws end.
Definition qapart (q : option loc) (qn : nat) (p : loc) (n : nat) : Prop := match q with None => True | Some q => apart q qn p n end.
Definition qrange (q : option loc) (qn : nat) : list (loc * nat) := match q with None => [] | Some q => [(q, qn)] end.

Lemma writes_in m p ws m' r rs : writes m p ws m' -> In r rs -> fst p = fst (fst r) -> snd (fst r) <= snd p -> snd p + length ws <= snd (fst r) + snd r -> only m m' rs.
Proof.
  intros W Hr E L1 L2. destruct r as [[rb ro] rn]. cbn [fst snd] in *. apply (only_mono m m' [(p, length ws)] rs (writes_only _ _ _ _ W)).
  intros r0 [<-|[]]. exists ((rb, ro), rn). split; [assumption|]. cbn [fst snd]. unfold within. cbn [fst snd]. intros b k [-> Hk]. split; [assumption|lia].
Qed.
Lemma only_app_l m m' rs rs' : only m m' rs -> only m m' (rs ++ rs').
Proof. intros O. apply (only_mono _ _ _ _ O). intros r Hr. exists r. split; [apply in_or_app; now left|auto]. Qed.
Lemma only_app_r m m' rs rs' : only m m' rs' -> only m m' (rs ++ rs').
Proof. intros O. apply (only_mono _ _ _ _ O). intros r Hr. exists r. split; [apply in_or_app; now right|auto]. Qed.
Lemma qapart_in q qn p n r : qapart q qn p n -> In r (qrange q qn) -> apart (fst r) (snd r) p n.
Proof. destruct q; cbn; [intros A [<-|[]]; exact A|tauto]. Qed.
Lemma only_qreads m m' rs q ws qn : only m m' rs -> qreads m q ws -> length ws = qn -> (forall r, In r rs -> match q with Some q => apart q qn (fst r) (snd r) | None => True end) -> qreads m' q ws.
Proof.
  intros O R L A. destruct q as [q|]; [|exact I]. apply (only_reads m m' rs q ws O R). intros r Hr. specialize (A r Hr). rewrite L. revert A. unfold apart. lia.
Qed.
Lemma apart_sym p n q k : apart p n q k -> apart q k p n.
Proof. unfold apart. lia. Qed.
Lemma apart_sub p n q k i j i' j' : apart p n q k -> i + j <= n -> i' + j' <= k -> apart (at_ p i) j (at_ q i') j'.
Proof. unfold apart, at_. cbn [fst snd]. lia. Qed.
Lemma apart_less p n q k j j' : apart p n q k -> j <= n -> j' <= k -> apart p j q j'.
Proof. unfold apart. lia. Qed.
Lemma qroom_only m m' rs q qn : only m m' rs -> qroom m q qn -> qroom m' q qn.
Proof. intros O. destruct q; [apply (only_room _ _ _ _ _ O)|auto]. Qed.

Lemma clear_q_ok m q qn qv x xs : 1 <= qn -> qroom m q qn -> reads m x xs -> qapart q qn x (length xs) ->
  exists m', clear_q_r m q qn qv x (length xs) = Ok (get_real_size xs, m') /\ qreads m' q (q_of qn qv) /\ reads m' x xs /\ only m m' (qrange q qn).
Proof.
  intros Hq Rq Rx A. unfold clear_q_r. destruct q as [q|].
  - cbn [qroom qapart qreads qrange] in *. destruct (st_ok m q 0 qv) as (m1 & -> & W1); [apply Rq; lia|]. cbn [bind]. unfold less.
    replace (qn <? 1) with false by (symmetry; apply Nat.ltb_ge; lia). cbn [bind]. rewrite at_0 in W1.
    destruct (clear_n_ok m1 (at_ q 1) (qn - 1)) as (m2 & -> & W2); [apply (room_sub m1 q qn); [apply (writes_room _ _ _ _ _ _ W1 Rq)|lia]|]. cbn [bind].
    assert (W : writes m q (q_of qn qv) m2) by (apply (writes_up m q [qv] m1 _ m2 W1 W2)).
    assert (L : length (q_of qn qv) = qn) by (unfold q_of; cbn [length]; rewrite repeat_length; lia).
    assert (Rx2 : reads m2 x xs) by (apply (writes_frame _ _ _ _ _ _ W Rx); now rewrite L).
    rewrite (real_size_ok m2 x (length xs) xs eq_refl Rx2). cbn [bind]. exists m2. split; [reflexivity|]. split; [apply (writes_reads _ _ _ _ W)|].
    split; [assumption|]. rewrite <- L at 1. apply (writes_only _ _ _ _ W).
  - cbn [bind]. rewrite (real_size_ok m x (length xs) xs eq_refl Rx). cbn [bind]. exists m. split; [reflexivity|]. split; [exact I|]. split; [assumption|]. apply only_refl.
Qed.

Lemma last_ld m x xs : xs <> [] -> reads m x xs -> ld m x (length xs - 1) = Ok (last xs 0%Z).
Proof.
  intros N R. destruct (exists_snoc xs N) as (u & a & ->). destruct (reads_snoc _ _ _ _ R) as [_ E]. rewrite app_length. cbn [length].
  rewrite last_snoc. now replace (length u + 1 - 1) with (length u) by lia.
Qed.

Section SMALL.
  Variables (junk : nat -> Z) (m : memory) (q : option loc) (qn : nat) (x y : loc) (xs ys : list Z).
  Hypothesis (Nx : xs <> []) (Ny : ys <> []) (Rx : reads m x xs) (Ry : reads m y ys) (Rq : qroom m q qn) (Hq : 1 <= qn).
  Hypothesis (Axy : apart x (length xs) y (length ys)) (Aqx : qapart q qn x (length xs)) (Aqy : qapart q qn y (length ys)).
  Hypothesis (Wy : all_words ys) (Wx : all_words xs) (Hl : last ys 0%Z <> 0%Z).

  Let done (m' : memory) (qw xw : list Z) : Prop := qreads m' q qw /\ reads m' x xw /\ only m m' (qrange q qn ++ [(x, length xs)]).

  Lemma small_finish m1 xw qv : reads m1 x xw -> length xw = length xs -> only m m1 [(x, length xs)] ->
    exists m', clear_q_r m1 q qn qv x (length xs) = Ok (get_real_size xw, m') /\ done m' (q_of qn qv) xw.
  Proof.
    intros R1 L O. rewrite <- L.
    destruct (clear_q_ok m1 q qn qv x xw Hq) as (m2 & E & Rq2 & Rx2 & O2).
    - exact (qroom_only _ _ _ _ _ O Rq).
    - assumption.
    - now rewrite L.
    - exists m2. split; [assumption|]. split; [assumption|]. split; [assumption|].
      apply (only_trans m m1 m2); [now apply only_app_r|now apply only_app_l].
  Qed.

  Lemma div_small_ok o : div_small qn xs ys = Ok o ->
    match o with
    | None => div_small_r junk m q qn x (length xs) y (length ys) = Ok (0, m)
    | Some (qw, xw, n) => exists m', div_small_r junk m q qn x (length xs) y (length ys) = Ok (n, m') /\ done m' qw xw /\ length xw = length xs
    end.
  Proof.
    unfold div_small, div_small_r. assert (Ly : 0 < length ys) by (destruct ys; [congruence|cbn [length]; lia]).
    assert (Lx : 0 < length xs) by (destruct xs; [congruence|cbn [length]; lia]).
    destruct (Nat.ltb_spec (length ys) (length xs)) as [L1|L1]; [intros E; injection E as <-; reflexivity|].
    replace (0 <? length ys) with true by (symmetry; now apply Nat.ltb_lt). cbn [check bind].
    rewrite (last_ld m y ys Ny Ry). cbn [bind].
    destruct (last_bounds ys Wy Ny) as (T0 & _).
    replace (last ys 0 >? 0)%Z with true by lia. cbn [check bind].
    assert (Eret : (if Nat.ltb (length xs) (length ys) then Ok (-1)%Z else cmp_r m x y (length ys)) = Ok (if Nat.ltb (length xs) (length ys) then -1 else cmp_n xs ys)%Z).
    { destruct (Nat.ltb_spec (length xs) (length ys)); [reflexivity|]. apply cmp_ok; [lia|reflexivity|assumption|assumption]. }
    rewrite Eret. cbn [bind]. assert (Hlt : (length xs < length ys -> (if Nat.ltb (length xs) (length ys) then -1 else cmp_n xs ys)%Z = (-1)%Z)) by (intros h; apply Nat.ltb_lt in h; now rewrite h).
    set (ret := (if Nat.ltb (length xs) (length ys) then -1 else cmp_n xs ys)%Z) in *. clearbody ret. clear Eret.
    destruct (Z.ltb_spec ret 0) as [H1|H1].
    { intros E. injection E as <-. destruct (small_finish m xs 0%Z Rx eq_refl (only_refl _ _)) as (m' & E & D). eauto. }
    destruct (Z.eqb_spec ret 0) as [H2|H2].
    { intros E. injection E as <-. destruct (clear_n_ok m x (length xs) (reads_room _ _ _ Rx)) as (m1 & -> & W1). cbn [bind].
      assert (L0 : length (repeat 0%Z (length xs)) = length xs) by apply repeat_length.
      destruct (small_finish m1 (repeat 0%Z (length xs)) 1%Z (writes_reads _ _ _ _ W1) L0) as (m' & E & D).
      - rewrite <- L0. apply (writes_only _ _ _ _ W1).
      - exists m'. rewrite L0. auto. }
    assert (L2 : length xs = length ys) by (destruct (Nat.eq_dec (length xs) (length ys)); [assumption|specialize (Hlt ltac:(lia)); lia]).
    replace (length xs =? length ys) with true by (symmetry; now apply Nat.eqb_eq). cbn [check bind].
    destruct (last ys 0 >=? 2 ^ 16)%Z; [|intros E; injection E as <-; reflexivity].
    (* first estimate *)
    match goal with |- context[let '(x1, qv) := ?e in _] => set (first := e) end.
    assert (H1st : exists m1, (if (last ys 0 =? B - 1)%Z then let* r := sub_n_r m x x y (length ys) in Ok (1%Z, snd r)
           else
             let '(m1, t) := alloca m junk (length ys) in
             let* top := ld m1 x (length ys - 1) in
             let qv := (top / ((last ys 0 + 1) mod B))%Z in
             let* r := mul_word_n_r m1 t y qv (length ys) in
             let* r := sub_n_r (snd r) x x t (length ys) in
             Ok (qv, leave m (snd r))) = Ok (snd first, m1) /\ reads m1 x (fst first) /\ length (fst first) = length xs /\ only m m1 [(x, length xs)]).
    { unfold first. destruct (last ys 0 =? B - 1)%Z.
      - destruct (sub_n_ok m x x y (length ys) xs ys L2 eq_refl Rx Ry) as (m1 & -> & W1).
        + rewrite <- L2. apply (reads_room _ _ _ Rx).
        + unfold upward; lia.
        + revert Axy. unfold upward, apart. lia.
        + cbn [bind fst snd]. assert (L : length (fst (sub_n xs ys)) = length xs) by (unfold sub_n; apply sub_loop_len; lia).
          exists m1. split; [reflexivity|]. split; [apply (writes_reads _ _ _ _ W1)|]. split; [assumption|]. rewrite <- L. apply (writes_only _ _ _ _ W1).
      - destruct (alloca_ok m junk (length ys)) as (m1 & -> & E1 & Rt & _). pose proof (room_block m x (length xs) (reads_room _ _ _ Rx) Lx) as Bx.
        pose proof (room_block m y (length ys) (reads_room _ _ _ Ry) Ly) as By.
        pose proof (extends_reads _ _ _ _ E1 Rx) as Rx1. pose proof (extends_reads _ _ _ _ E1 Ry) as Ry1.
        replace (ld m1 x (length ys - 1)) with (@Ok Z (last xs 0%Z)) by (rewrite <- L2; symmetry; now apply last_ld). cbn [bind].
        set (qv := (last xs 0 / ((last ys 0 + 1) mod B))%Z). cbv zeta.
        destruct (mul_word_n_ok m1 (length m, 0) y qv (length ys) ys eq_refl Ry1 Rt) as (m2 & -> & W2); [left; cbn [fst]; lia|]. cbn [bind fst snd].
        assert (Lt : length (fst (mul_word_n ys qv)) = length ys) by apply mul_word_loop_len.
        destruct (sub_n_ok m2 x x (length m, 0) (length ys) xs (fst (mul_word_n ys qv)) L2 Lt) as (m3 & -> & W3).
        + apply (writes_frame _ _ _ _ _ _ W2 Rx1). left. cbn [fst]. lia.
        + apply (writes_reads _ _ _ _ W2).
        + rewrite <- L2. apply (writes_room _ _ _ _ _ _ W2). apply (reads_room _ _ _ Rx1).
        + unfold upward; lia.
        + left. cbn [fst]. lia.
        + cbn [bind fst snd]. set (xw := fst (sub_n xs (fst (mul_word_n ys qv)))) in *.
          assert (L : length xw = length xs) by (unfold xw, sub_n; apply sub_loop_len; lia).
          assert (E2 : extends m m2) by (apply (extends_writes m m1 _ _ m2 E1 W2); cbn [fst]; lia).
          pose proof (leave_writes m m2 x xw m3 E2 W3 Bx) as W4.
          exists (leave m m3). split; [reflexivity|]. split; [apply (writes_reads _ _ _ _ W4)|]. split; [assumption|]. rewrite <- L. apply (writes_only _ _ _ _ W4). }
    destruct H1st as (m1 & E1 & R1 & Lf & O1). cbv zeta in E1. cbv zeta. rewrite E1. cbn [bind]. clear E1. destruct first as [x1 qv]. cbn [fst snd] in *.
    destruct (run_loop (32 * length xs + 1) (div_small_step ys) (x1, qv)) as [[x2 qv2]| | |] eqn:EL; try discriminate. cbn [bind]. intros E. injection E as <-.
    destruct (run_sim (fun s t => fst s = snd t /\ reads (snd s) x (fst t) /\ length (fst t) = length xs /\ only m (snd s) [(x, length xs)])
                      (fun s t => fst s = snd t /\ reads (snd s) x (fst t) /\ length (fst t) = length xs /\ only m (snd s) [(x, length xs)])
                      (div_small_step_r x y (length ys)) (div_small_step ys)) with (k := 32 * length xs + 1) (s := (qv, m1)) (t := (x1, qv)) (c := (x2, qv2)) as ([qv' m2] & -> & H).
    - intros [qv' m'] [x' qv''] (E & R & L & O). cbn [fst snd] in *. subst qv''. unfold div_small_step, div_small_step_r.
      assert (Ry' : reads m' y ys) by (apply (only_reads _ _ _ _ _ O Ry); intros r [<-|[]]; exact Axy).
      rewrite (cmp_ge_ok m' x y (length ys) x' ys ltac:(lia) eq_refl R Ry'). cbn [bind].
      destruct (cmp_ge_n x' ys).
      + destruct (sub_n_ok m' x x y (length ys) x' ys ltac:(lia) eq_refl R Ry') as (m2 & -> & W2).
        * rewrite <- L2, <- L. apply (reads_room _ _ _ R).
        * unfold upward; lia.
        * revert Axy. unfold upward, apart. lia.
        * cbn [bind stepo snd]. eexists. split; [reflexivity|]. cbn [fst snd].
          assert (L' : length (fst (sub_n x' ys)) = length xs) by (unfold sub_n; rewrite sub_loop_len; lia).
          split; [reflexivity|]. split; [apply (writes_reads _ _ _ _ W2)|]. split; [assumption|]. apply (only_trans _ _ _ _ O). rewrite <- L'. apply (writes_only _ _ _ _ W2).
      + cbn [stepo]. eexists. split; [reflexivity|]. cbn [fst snd]. auto.
    - cbn [fst snd]. auto.
    - assumption.
    - cbn [fst snd bind] in *. destruct H as (-> & R & L & O).
      destruct (small_finish m2 x2 qv2 R L O) as (m' & E & D). eauto.
  Qed.
End SMALL.
