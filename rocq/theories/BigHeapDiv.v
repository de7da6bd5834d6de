(** Proofs about BigHeapModel, part 5: division with quotient and remainder; divisors 0. *)
From Coq Require Import List ZArith Bool Lia.
From Verif Require Import Outcome LoopModel WordsModel WordsSpec WordsProofs DivProofs BigintModel BigintSpec BigintProofs BigintClaims BufferModel BufferSpec BufferProofs BigHeapModel BigHeapSpec BigHeapProofs BigHeapOps BigHeapRest BigHeapMain.
Import ListNotations.
Local Open Scope nat_scope.

(** two objects changed *)
Lemma change_two N s p q r cq mq cr mr : hinv N s -> flex_inv N p -> contents p = upd (upd (contents (bufs s)) q cq) r cr -> length (objs p) = length (objs (bufs s)) ->
  good (cq, mq) -> good (cr, mr) ->
  hinv N (mkh p (upd (upd (meta s) q mq) r mr)) /\ values (mkh p (upd (upd (meta s) q mq) r mr)) = upd (upd (values s) q (held cq mq)) r (held cr mr) /\
  length (objs (bufs (mkh p (upd (upd (meta s) q mq) r mr)))) = length (objs (bufs s)).
Proof.
  intros (Hi & L & G) Hp C Lp Gq Gr.
  assert (V : view (mkh p (upd (upd (meta s) q mq) r mr)) = upd (upd (view s) q (cq, mq)) r (cr, mr)) by (unfold view; cbn [bufs meta]; rewrite C, !combine_upd; reflexivity).
  split; [|split; [|exact Lp]].
  - split; [exact Hp|]. split; [cbn; rewrite !upd_length; lia|]. rewrite V. apply Forall_upd; [apply Forall_upd; assumption|assumption].
  - rewrite !values_view, V, !upd_map. reflexivity.
Qed.

(** trimming a buffer of which only the first n words matter *)
Lemma good_trim c k g n : 1 <= n <= length c -> all_words (firstn n c) ->
  let T := trim (mk c k g) n in
  good (c, (size T, neg T)) /\ exists v, held c (size T, neg T) = Some v /\ Z.abs v = eval (firstn n c).
Proof.
  intros Hn W T. destruct n as [|m]; [lia|]. set (d := firstn (S m) c) in *. assert (Ld : length d = S m) by (unfold d; rewrite firstn_length; lia).
  destruct (trim_spec (Flex 0) (mk d k g) (S m)) as (V & M & _ & _ & Sz).
  { split; [exact W|cbn; lia]. } { cbn [mem]. lia. }
  assert (ES : size T = size (trim (mk d k g) (S m)) /\ neg T = neg (trim (mk d k g) (S m))).
  { unfold T. cbn [trim size neg mem]. unfold word0. cbn [mem]. fold d. rewrite (firstn_all2 d) by lia. split; [reflexivity|].
    replace (nth 0 c 0%Z) with (nth 0 d 0%Z); [reflexivity|]. unfold d. destruct c; reflexivity. }
  destruct ES as [E1 E2]. rewrite <- E1 in *.
  assert (FS : firstn (size T) d = firstn (size T) c) by (unfold d; rewrite firstn_firstn; f_equal; lia).
  assert (Mm : mem (trim (mk d k g) (S m)) = d) by reflexivity.
  assert (EM : eval (firstn (size T) c) = eval d).
  { rewrite <- FS. cbn [mem] in M. rewrite (firstn_all2 d) in M by lia. rewrite <- M. unfold magnitude. rewrite Mm, <- E1. reflexivity. }
  split.
  - right. cbn [fst snd]. split; [lia|]. pose proof (valid_cut _ V) as VC. rewrite Mm, <- E1, <- E2 in VC. unfold cut in *. cbn [fst snd] in *. rewrite FS in VC. exact VC.
  - assert (R : (0 <= eval d)%Z) by (apply eval_range in W; lia).
    exists (value (mk c (size T) (neg T))). split; [destruct c; [cbn in Hn; lia|reflexivity]|].
    unfold value, magnitude. cbn [mem size neg]. rewrite EM. destruct (neg T); lia.
Qed.

Section Div.
  Variables (N : nat) (junk : nat -> Z) (s : hstate).
  Hypothesis Hi : hinv N s.
  Let n := length (objs (bufs s)).

  (** magnitudes in r and q, before the signs are set *)
  Lemma div_mod_goes q r x y X Y : live s x X -> live s y Y -> q < n -> r < n -> q <> r -> q <> y -> value Y <> 0%Z ->
    goes N s (div_mod_h N junk s q r x y) (upd (upd (values s) q (Some (Z.quot (value X) (value Y)))) r (Some (Z.rem (value X) (value Y)))).
  Proof.
    intros LX LY Hq Hr Nqr Nqy Y0. pose proof (live_size s x X LX) as SX || pose proof (live_size N junk s Hi x X LX) as SX.
    pose proof (l_valid _ _ _ LX) as VX. pose proof (l_valid _ _ _ LY) as VY.
    pose proof (magnitude_range _ X VX) as RX. pose proof (magnitude_range _ Y VY) as RY. assert (MY : (0 < magnitude Y)%Z) by (rewrite value_zero_iff in Y0; lia).
    unfold div_mod_h. rewrite (neg_live _ _ _ LX), (neg_live _ _ _ LY), (size_live _ _ _ LX), (size_live _ _ _ LY). cbn [bind].
    set (mid := if Nat.ltb (size X) (size Y) then _ else _).
    assert (MID : exists vq vr, goes N s mid (upd (upd (values s) q (Some vq)) r (Some vr)) /\ Z.abs vq = (magnitude X / magnitude Y)%Z /\ Z.abs vr = (magnitude X mod magnitude Y)%Z).
    2:{ destruct MID as (vq & vr & G & Aq & Ar). eapply goes_bind; [exact G|]. clear G. intros s1 I1 V1 L1 _. pose proof (values_length N s Hi) as LV.
      assert (Q1 : var (values s1) r = Some vr) by (rewrite V1; apply var_same; rewrite upd_length; unfold n in *; lia).
      assert (Q2 : var (values s1) q = Some vq) by (rewrite V1, var_other by congruence; apply var_same; unfold n in *; lia).
      eapply goes_bind; [apply (set_neg_goes N junk s1 I1 r (neg X) vr); [unfold n in *; lia|exact Q1]|]. intros s2 I2 V2 L2 _.
      destruct (set_neg_goes N junk s2 I2 q (xorb (neg X) (neg Y)) vq) as (s3 & E3 & I3 & V3 & L3); [unfold n in *; lia|rewrite V2, var_other by congruence; exact Q2|].
      exists s3. split; [exact E3|]. split; [exact I3|]. split; [|exact L3]. rewrite V3, V2, V1, upd_upd. rewrite (upd_comm _ r q) by congruence. rewrite !upd_upd.
      rewrite !value_sgn, quot_sgn, rem_sgn by lia. rewrite Aq, Ar. reflexivity. }
    unfold mid. destruct (Nat.ltb_spec (size X) (size Y)) as [H1|H1].
    - (* the dividend is shorter: it is the remainder *)
      assert (Hlt : (magnitude X < magnitude Y)%Z).
      { pose proof (magnitude_lower (Flex 0) Y VY ltac:(lia)). pose proof (Bn_mono (size X) (size Y - 1) ltac:(lia)). lia. }
      rewrite Z.mod_small, Z.div_small by lia.
      assert (Hx : x < n) by (pose proof (l_meta _ _ _ LX) as M; unfold n; rewrite <- (proj1 (proj2 Hi)); apply nth_error_Some; congruence).
      destruct (obj_ex N s x Hi Hx) as (b & c & m & _ & Ec & Em & G & Ev & _).
      assert (RD : firstn (size X) c = mem X /\ size X <= length c).
      { pose proof (l_words _ _ _ LX) as W. pose proof (l_read _ _ _ LX) as R. unfold read_of, readable in *. cbn [fst snd] in *. rewrite (nth_error_nth _ _ _ Ec) in *. split; [exact W|lia]. }
      destruct RD as [RD LC].
      destruct (copy_buf N junk (bufs s) r x c (proj1 Hi) Hr Ec) as (p & E1 & P1 & P2 & P3). rewrite E1. cbn [bind snd].
      destruct (meta_ex N junk s Hi r Hr) as (k & g & Er).
      assert (Cr : nth_error (contents p) r = Some c) by (rewrite P2; apply upd_same; unfold contents; rewrite map_length; exact Hr).
      rewrite (trim_ok N (mkh p (meta s)) r c k g (size X) P1 Cr Er ltac:(lia)). cbn [bind bufs meta].
      destruct (good_trim c k g (size X) ltac:(lia)) as (GT & v & Hv & Av). { rewrite RD. apply (live_all _ _ _ LX). }
      destruct (change_one N s p r c _ Hi P1 P2 P3 GT) as (I1 & V1 & L1). rewrite Hv in V1.
      exists 0%Z, v. split.
      + destruct (clear_goes N junk _ I1 q) as (s2 & E2 & I2 & V2 & L2); [rewrite L1; exact Hq|].
        exists s2. split; [exact E2|]. split; [exact I2|]. split; [|lia]. rewrite V2, V1. apply upd_comm. congruence.
      + split; [reflexivity|]. rewrite Av, RD. unfold magnitude. rewrite firstn_all2 by (rewrite (l_len _ _ _ LX); lia). reflexivity.
    - pose proof (live_words _ _ _ LX) as WX. pose proof (live_words _ _ _ LY) as WY.
      destruct (words_valid _ X VX) as (AX & LnX & NX). destruct (words_valid _ Y VY) as (AY & LnY & NY).
      assert (Hl : (last (words Y) 0 <> 0)%Z).
      { rewrite (nth_last_words _ Y VY). destruct VY as (G1 & G2 & G3). destruct (Nat.eq_dec (size Y) 1) as [E1|E1]; [|apply G3; lia].
        rewrite E1. change (nth (1 - 1) (mem Y) 0%Z) with (word0 Y). rewrite <- (size1 (Flex 0) Y (conj G1 (conj G2 G3)) E1). lia. }
      assert (SY : 1 <= size Y) by apply VY.
      destruct (div_spec (size X - size Y + 1) (words X) (words Y) AX AY NX NY Hl ltac:(lia) ltac:(lia)) as ([[qw xw] rn] & Ed & Hok).
      destruct Hok as (Wq & Lq & Wxw & Hrn & E & Rr & _ & _). rewrite <- !magnitude_words in *.
      destruct (quot_of_euclid (magnitude X) (magnitude Y) (eval qw) (eval (firstn rn xw)) ltac:(lia) ltac:(lia) Rr E) as (Eq & Erem).
      assert (Lfr : length (firstn rn xw) = rn) by (apply firstn_length_le; lia).
      (* the quotient is written *)
      set (qn := size X - size Y + 1) in *. assert (Qn : 1 <= qn) by (unfold qn; lia).
      destruct (get_ok (objs (bufs s)) q Hq) as (bq & Ebq & Gq).
      destruct (flex_resize_spec N junk (hp (bufs s)) bq qn (proj1 (proj1 Hi) q bq Ebq)) as (h' & b' & R & B1 & B2 & B3 & B4 & _).
      destruct (update_one N (bufs s) q bq b' h' (proj1 Hi) Ebq B1 B3 B4) as [U1 U2].
      assert (Eb' : nth_error (objs (mkprog (upd (objs (bufs s)) q b') h')) q = Some b') by (cbn; apply upd_same; exact Hq).
      destruct (load_after N junk (bufs s) q qn h' b' bq (x, size X) (proj1 Hi) Ebq Qn R U1 B3 B2 (l_read _ _ _ LX)) as (px & PX1 & PX2).
      destruct (load_after N junk (bufs s) q qn h' b' bq (y, size Y) (proj1 Hi) Ebq Qn R U1 B3 B2 (l_read _ _ _ LY)) as (py & PY1 & PY2).
      cbn [fst snd] in *. rewrite (l_words _ _ _ LX) in PX2. rewrite (l_words _ _ _ LY) in PY2.
      destruct (save_ok N _ q b' qw U1 Eb' ltac:(lia)) as (p & S1 & S2 & S3 & S4). rewrite U2, upd_upd in S3. cbn [objs] in S4. rewrite upd_length in S4.
      unfold resize_h at 1. cbn [flex_step]. rewrite Gq. cbn [bind]. rewrite R. cbn [bind snd bufs meta]. rewrite PX1. cbn [bind]. rewrite PX2. cbn [bind].
      rewrite (first_ptr_ok _ q b' Eb') by lia. cbn [bind]. rewrite PY1. cbn [bind]. rewrite PY2. cbn [bind]. rewrite WX, WY in Ed. rewrite Ed. cbn [bind]. rewrite S1. cbn [bind].
      (* the remainder *)
      pose proof (into_gen N junk (mkh p (meta s)) r rn [] (fun _ => Ok (firstn rn xw)) S2) as IG. cbn [bufs meta map] in IG.
      destruct (IG ltac:(rewrite S4; exact Hr) ltac:(lia) ltac:(constructor) Lfr) as (p2 & IE & I1 & I2 & I3). clear IG. unfold into in IE. cbn [load_all bind] in IE.
      destruct (resize_h N junk (mkh p (meta s)) r rn) as [t| | |] eqn:Et; cbn [bind] in IE |- *; try discriminate IE.
      destruct (first_ptr (bufs t) r) as [pr| | |]; cbn [bind] in IE |- *; try discriminate IE.
      destruct (save (bufs t) pr (firstn rn xw)) as [p3| | |]; cbn [bind] in IE |- *; try discriminate IE. injection IE as -> ->. rewrite S3 in I2.
      pose proof (contents_len s) as CL || pose proof (contents_len N junk s Hi) as CL. 
      assert (Cq : nth_error (contents p2) q = Some qw) by (rewrite I2, upd_other by exact Nqr; apply upd_same; rewrite CL; exact Hq).
      assert (Cr : nth_error (contents p2) r = Some (firstn rn xw)) by (rewrite I2; apply upd_same; rewrite upd_length, CL; exact Hr).
      destruct (meta_ex N junk s Hi q Hq) as (kq & gq & Mq). destruct (meta_ex N junk s Hi r Hr) as (kr & gr & Mr).
      rewrite (trim_ok N (mkh p2 (meta s)) q qw kq gq qn I1 Cq Mq ltac:(lia)). cbn [bind bufs meta].
      match goal with |- context [trim_h ?st r rn] => rewrite (trim_ok N st r (firstn rn xw) kr gr rn I1 Cr ltac:(cbn [meta]; rewrite upd_other by congruence; exact Mr) ltac:(lia)) end. cbn [bufs meta].
      destruct (good_trim qw kq gq qn ltac:(lia)) as (GQ & vq & HvQ & AvQ). { rewrite firstn_all2 by lia. exact Wq. }
      destruct (good_trim (firstn rn xw) kr gr rn ltac:(lia)) as (GR & vr & HvR & AvR). { rewrite firstn_all2 by lia. apply words_firstn. exact Wxw. }
      rewrite (firstn_all2 qw) in AvQ by lia. rewrite (firstn_all2 (firstn rn xw)) in AvR by lia.
      exists vq, vr. split; [|split; congruence].
      eexists. split; [reflexivity|]. rewrite <- HvQ, <- HvR. apply change_two; auto. lia.
  Qed.
  Lemma div_mod_zero q r x y X Y : live s x X -> live s y Y -> q < n -> value Y = 0%Z -> div_mod_h N junk s q r x y = Abort.
  Proof.
    intros LX LY Hq Y0. pose proof (l_valid _ _ _ LX) as VX. pose proof (l_valid _ _ _ LY) as VY.
    unfold div_mod_h. rewrite (neg_live _ _ _ LX), (neg_live _ _ _ LY), (size_live _ _ _ LX), (size_live _ _ _ LY). cbn [bind].
    pose proof (udiv_by_zero (Flex 0) None Z0 X Y VX VY (proj1 (value_zero_iff Y) Y0)) as U. unfold udiv in U.
    destruct (Nat.ltb (size X) (size Y)) eqn:H1; [discriminate U|]. set (qn := size X - size Y + 1) in *. assert (Qn : 1 <= qn) by (unfold qn; lia).
    destruct (get_ok (objs (bufs s)) q Hq) as (bq & Ebq & Gq).
    destruct (flex_resize_spec N junk (hp (bufs s)) bq qn (proj1 (proj1 Hi) q bq Ebq)) as (h' & b' & R & B1 & B2 & B3 & B4 & _).
    destruct (update_one N (bufs s) q bq b' h' (proj1 Hi) Ebq B1 B3 B4) as [U1 U2].
    assert (Eb' : nth_error (objs (mkprog (upd (objs (bufs s)) q b') h')) q = Some b') by (cbn; apply upd_same; exact Hq).
    destruct (load_after N junk (bufs s) q qn h' b' bq (x, size X) (proj1 Hi) Ebq Qn R U1 B3 B2 (l_read _ _ _ LX)) as (px & PX1 & PX2).
    destruct (load_after N junk (bufs s) q qn h' b' bq (y, size Y) (proj1 Hi) Ebq Qn R U1 B3 B2 (l_read _ _ _ LY)) as (py & PY1 & PY2).
    cbn [fst snd] in *. rewrite (l_words _ _ _ LX) in PX2. rewrite (l_words _ _ _ LY) in PY2.
    unfold resize_h at 1. cbn [flex_step]. rewrite Gq. cbn [bind]. rewrite R. cbn [bind snd bufs meta]. rewrite PX1. cbn [bind]. rewrite PX2. cbn [bind].
    rewrite (first_ptr_ok _ q b' Eb') by lia. cbn [bind]. rewrite PY1. cbn [bind]. rewrite PY2. cbn [bind].
    rewrite (live_words _ _ _ LX), (live_words _ _ _ LY) in U. destruct (div qn (mem X) (mem Y)) as [[[qw xw] rn]| | |]; cbn [bind] in *; [destruct (can_resize _ _) in U; discriminate U|reflexivity|discriminate U..].
  Qed.
  Lemma divs1_zero z x X : live s x X -> z < n -> divs1_h N junk s z x 0 = Abort.
  Proof.
    intros LX Hz. destruct (meta_ex N junk s Hi z Hz) as (k0 & g & Em). assert (SX : 1 <= size X) by apply (l_valid _ _ _ LX).
    unfold divs1_h. rewrite (neg_live _ _ _ LX). cbn [bind]. rewrite (size_live _ _ _ LX). cbn [bind]. rewrite (set_neg_ok s z k0 g _ Em). cbn [bind].
    match goal with |- context [into N junk ?s1 z ?m ?srcs ?f] => pose proof (into_gen N junk s1 z m srcs f (proj1 Hi) Hz SX (rd1 s x X LX)) as IG; assert (FA : f [mem X] = Abort) by reflexivity end.
    cbn [bufs] in IG. rewrite (ws1 s x X LX), FA in IG. rewrite IG. reflexivity.
  Qed.
End Div.

(** the hazard of uadd *)
Lemma load_ok_or_ub p q m : (exists w, load p q m = Ok w) \/ load p q m = UB.
Proof.
  destruct q as [i|a]; cbn [load].
  - unfold get. destruct (nth_error (objs p) i) as [b|]; cbn [bind]; [|right; reflexivity]. destruct (Nat.leb _ _); [left; eexists; reflexivity|right; reflexivity].
  - destruct (block (hp p) a) as [d|]; [|right; reflexivity]. destruct (Nat.leb _ _); [left; eexists; reflexivity|right; reflexivity].
Qed.
Lemma uadd_flex_moves N junk s z x xn y yn bx by_ bz : flex_inv N s -> nth_error (objs s) x = Some bx -> nth_error (objs s) y = Some by_ -> nth_error (objs s) z = Some bz ->
  0 < fsize bx -> 0 < fsize by_ -> z = x \/ z = y -> moves_block N bz (Nat.max xn yn + 1) -> uadd_flex N junk s z x xn y yn = UB.
Proof.
  intros Hi Ex Ey Ez Hx Hy Hz (R1 & R2 & R3). pose proof (proj1 Hi z bz Ez) as (Ls & H). unfold uadd_flex.
  rewrite (first_ptr_ok s x bx Ex) by lia. rewrite (first_ptr_ok s y by_ Ey) by lia. cbn [bind].
  destruct (dd bz) as [a|] eqn:Ed; [|congruence]. destruct H as (d & B1 & B2 & B3 & B4).
  assert (P : ptr_of bx x = PHeap a \/ ptr_of by_ y = PHeap a).
  { destruct Hz as [->| ->]; [left; assert (bx = bz) by congruence|right; assert (by_ = bz) by congruence]; subst; unfold ptr_of; rewrite Ed; reflexivity. }
  set (L := if Nat.ltb xn yn then _ else _).
  assert (EL : exists u v p1 p2, L = (u, v, p1, p2) /\ u = Nat.max xn yn /\ (p1 = PHeap a \/ p2 = PHeap a)).
  { unfold L. destruct (Nat.ltb_spec xn yn); eexists _, _, _, _; (split; [reflexivity|]); (split; [lia|]); tauto. }
  destruct EL as (u & v & p1 & p2 & -> & -> & PP). unfold get at 1. rewrite Ez. cbn [bind].
  unfold flex_resize. rewrite (proj2 (Nat.ltb_lt _ _) R2), (proj2 (Nat.ltb_lt _ _) R3). cbn [andb]. rewrite Ed, B1, memcpy_ok by (rewrite ?fresh_length; lia).
  cbn [bind]. unfold alloc, free. rewrite (block_app _ _ _ _ B1). cbn [bind].
  assert (Lz : z < length (objs s)) by (apply nth_error_Some; congruence).
  erewrite first_ptr_ok; [|cbn; apply upd_same; exact Lz|cbn; lia]. cbn [bind].
  match goal with |- context [load ?st p1 _] => assert (D : forall m, load st (PHeap a) m = UB) by
    (intros m; cbn [load hp]; unfold block at 1; rewrite upd_nth, Nat.eqb_refl; destruct (Nat.ltb _ _); reflexivity);
    destruct (load_ok_or_ub st p1 (Nat.max xn yn)) as [[w W]|W] end; rewrite W; cbn [bind]; [|reflexivity].
  destruct PP as [->| ->]; [rewrite D in W; discriminate W|rewrite D; reflexivity].
Qed.
