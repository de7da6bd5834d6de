(** Proofs about BigHeapModel, part 2: the operations one by one. *)
From Coq Require Import List ZArith Bool Lia.
From Verif Require Import Outcome LoopModel WordsModel WordsSpec WordsProofs DivProofs BigintModel BigintSpec BigintProofs BigintClaims BufferModel BufferSpec BufferProofs BigHeapModel BigHeapSpec BigHeapProofs.
Import ListNotations.
Local Open Scope nat_scope.

Definition Z0 : bigint := mk [0%Z] 1 false.
Lemma Z0_ok : valid (Flex 0) Z0.
Proof. split; [split; [constructor; [unfold is_word; lia|constructor]|cbn; lia]|]. cbn. split; [lia|lia]. Qed.
Lemma Z0_st : storage_ok (Flex 0) Z0. Proof. apply Z0_ok. Qed.

Lemma trim_shape r k g n : 1 <= n -> mem (trim (mk r k g) n) = r.
Proof. destruct n; [lia|]. reflexivity. Qed.
Lemma set_neg_trim r k g k' g' n h : 1 <= n -> set_neg (trim (mk r k g) n) h = set_neg (trim (mk r k' g') n) h.
Proof. destruct n; [lia|]. reflexivity. Qed.
Lemma trim_size r k g k' n : 1 <= n -> trim (mk r k g) n = trim (mk r k' g) n.
Proof. destruct n; [lia|]. reflexivity. Qed.
Lemma put_eq Z r : length (mem Z) <= length r -> put Z r = mk r (size Z) (neg Z).
Proof. intros H. unfold put. rewrite skipn_all2 by exact H. rewrite app_nil_r. reflexivity. Qed.
Lemma store_eq Z r : length (mem Z) <= length r -> store Z r = trim (mk r (size Z) (neg Z)) (length r).
Proof. intros H. unfold store. rewrite put_eq by exact H. reflexivity. Qed.

(** the outcome [o] leaves object z as R and the others as they were *)
Definition done (N : nat) (s : hstate) (z : nat) (o : outcome hstate) (R : bigint) : Prop :=
  exists p, o = Ok (mkh p (upd (meta s) z (size R, neg R))) /\ flex_inv N p /\ contents p = upd (contents (bufs s)) z (mem R) /\ length (objs p) = length (objs (bufs s)).
(** the step of the claim *)
Definition goes (N : nat) (s : hstate) (o : outcome hstate) (vs : list (option Z)) : Prop :=
  exists s', o = Ok s' /\ hinv N s' /\ values s' = vs /\ length (objs (bufs s')) = length (objs (bufs s)).
Lemma done_goes N s z o R : hinv N s -> done N s z o R -> valid (Flex 0) R -> goes N s o (upd (values s) z (Some (value R))).
Proof.
  intros Hi (p & -> & H1 & H2 & H3) HR. eexists. split; [reflexivity|]. apply change_to; assumption.
Qed.
Lemma done_neg N s z o R g : hinv N s -> z < length (objs (bufs s)) -> done N s z o R -> done N s z (let* s := o in set_neg_h s z g) (set_neg R g).
Proof.
  intros (Hi & L & _) Hz (p & -> & H1 & H2 & H3). cbn [bind]. exists p. split; [|auto].
  rewrite (set_neg_ok _ z (size R) (neg R)) by (cbn; apply upd_same; lia). cbn [meta bufs]. rewrite upd_upd. reflexivity.
Qed.

Section Ops.
  Variables (N : nat) (junk : nat -> Z) (s : hstate).
  Hypothesis Hi : hinv N s.
  Let n := length (objs (bufs s)).
  Lemma meta_ex z : z < n -> exists k g, nth_error (meta s) z = Some (k, g).
  Proof. intros H. destruct Hi as (_ & L & _). destruct (get_ok (meta s) z ltac:(unfold n in H; lia)) as ([k g] & E & _). eauto. Qed.
  Lemma contents_len : length (contents (bufs s)) = n.
  Proof. unfold contents. apply map_length. Qed.
  Lemma nth_upd_c p z r : z < n -> contents p = upd (contents (bufs s)) z r -> nth_error (contents p) z = Some r.
  Proof. intros H E. rewrite E. apply upd_same. rewrite contents_len. exact H. Qed.

  (** resize, word loop, trim *)
  Lemma into_done z m srcs f r k g : z < n -> 1 <= m -> Forall (readable (bufs s)) srcs -> f (map (read_of (bufs s)) srcs) = Ok r -> length r = m ->
    nth_error (meta s) z = Some (k, g) ->
    done N s z (into N junk s z m srcs f) (mk r k g).
  Proof.
    intros Hz Hm Hs Ef Lr Em. pose proof (into_gen N junk s z m srcs f (proj1 Hi) Hz Hm Hs) as H. rewrite Ef in H.
    destruct (H Lr) as (p & E & P1 & P2 & P3). exists p. rewrite E. cbn [size neg mem]. rewrite upd_id by exact Em. auto.
  Qed.
  Lemma done_trim z o R m : z < n -> done N s z o R -> 1 <= m <= length (mem R) -> done N s z (let* s := o in trim_h s z m) (trim R m).
  Proof.
    intros Hz (p & -> & P1 & P2 & P3) Hm. cbn [bind]. destruct Hi as (_ & L & _). exists p.
    rewrite (trim_ok N _ z (mem R) (size R) (neg R) m); [|exact P1|cbn; eapply nth_upd_c; eauto|cbn; apply upd_same; unfold n in *; lia|exact Hm].
    cbn [bufs meta]. destruct R as [r k g]. cbn [mem size neg] in *. rewrite upd_upd. split; [reflexivity|]. rewrite trim_shape by lia. auto.
  Qed.
  Lemma into_trim z m srcs f r k g : z < n -> 1 <= m -> Forall (readable (bufs s)) srcs -> f (map (read_of (bufs s)) srcs) = Ok r -> length r = m ->
    nth_error (meta s) z = Some (k, g) ->
    done N s z (let* s := into N junk s z m srcs f in trim_h s z m) (trim (mk r k g) m).
  Proof. intros. apply done_trim; [assumption|apply into_done; assumption|cbn; lia]. Qed.
  (** a flag read after object z has changed *)
  Lemma neg_after z R p i X : z < n -> live s i X -> neg_h (mkh p (upd (meta s) z (size R, neg R))) i = Ok (if Nat.eqb z i then neg R else neg X).
  Proof.
    intros Hz Hl. unfold neg_h, get. cbn [meta]. rewrite upd_nth. destruct Hi as (_ & L & _). rewrite (proj2 (Nat.ltb_lt z (length (meta s)))) by (unfold n in *; lia).
    rewrite (Nat.eqb_sym z i). destruct (Nat.eqb i z); [reflexivity|]. rewrite (l_meta _ _ _ Hl). reflexivity.
  Qed.

  Lemma assign_done z w : z < n -> done N s z (assign_word_h N junk s z w) (mk [w] 1 false).
  Proof.
    intros Hz. destruct (meta_ex z Hz) as (k & g & Em). destruct Hi as (Hf & L & _).
    assert (Lm : z < length (meta s)) by (apply nth_error_Some; congruence).
    unfold assign_word_h. set (WR := flex_step N junk (Write z 0 w)). rewrite (set_neg_ok s z k g false Em). cbn [bind]. unfold resize_h. cbn [bufs meta].
    destruct (flex_step_spec N junk (Resize z 1) (bufs s) Hf Hz) as (A & F & LL).
    destruct (get_ok (objs (bufs s)) z Hz) as (b & E & G). cbn [flex_step] in *. rewrite G in *. cbn [bind] in *.
    destruct (flex_resize_spec N junk (hp (bufs s)) b 1 (proj1 Hf z b E)) as (h' & b' & R & B1 & B2 & B3 & B4 & _). rewrite R in *. cbn [bind snd state_of bufs meta] in *.
    destruct (update_one N (bufs s) z b b' h' Hf E B1 B3 B4) as [U1 U2].
    assert (Ez : nth_error (upd (objs (bufs s)) z b') z = Some b') by (apply upd_same; exact Hz).
    destruct (flex_step_spec N junk (Write z 0 w) (mkprog (upd (objs (bufs s)) z b') h') F) as (A2 & F2 & LL2); [cbn; rewrite upd_length; exact Hz|]. fold WR in A2, F2, LL2.
    assert (Ec : nth_error (contents (mkprog (upd (objs (bufs s)) z b') h')) z = Some (flex_contents h' b')) by (unfold contents; cbn [objs hp]; apply (map_nth_error (flex_contents h')); exact Ez).
    assert (Lc : length (flex_contents h' b') = 1) by (rewrite (contents_length N) by exact B1; exact B2).
    destruct (WR _) as [[rv p]| | |] eqn:EW; cbn [outcome_of state_of] in *; inversion A2 as [| | |? ? ? ? l l' ? Q1 Q2 Q3 Q4 Q5|? ? ? ? l Q1 Q2| | | | | |]; subst;
      try (assert (l = flex_contents h' b') by congruence; subst l; lia).
    cbn [bind snd]. exists p. unfold set_size_h, get. cbn [meta bufs]. rewrite upd_same by exact Lm. cbn [bind snd]. rewrite upd_upd.
    split; [reflexivity|]. split; [exact F2|]. split; [|rewrite LL2; cbn; apply upd_length].
    assert (l = flex_contents h' b') by congruence. subst l. assert (l' = [w]).
    { destruct l' as [|a [|? ?]]; cbn in *; try lia. congruence. }
    subst l'. cbn [mem]. destruct Q5 as (C1 & C2 & C3). apply nth_ext with (d := []) (d' := []).
    { rewrite C1, U2, !upd_length. reflexivity. }
    intros j Hj. destruct (Nat.eq_dec j z) as [->|Nj].
    - rewrite (nth_error_nth _ _ _ C2). rewrite (nth_error_nth _ _ _ (upd_same _ _ _ (eq_ind_r (fun x => z < x) Hz contents_len))). reflexivity.
    - specialize (C3 j Nj). rewrite U2, upd_other in C3 by exact Nj. assert (C4 : nth_error (contents p) j = nth_error (upd (contents (bufs s)) z [w]) j) by (rewrite upd_other by exact Nj; exact C3).
      destruct (nth_error (contents p) j) as [u|] eqn:EU; [|apply nth_error_None in EU; lia]. symmetry in C4. rewrite (nth_error_nth _ _ _ EU), (nth_error_nth _ _ _ C4). reflexivity.
  Qed.
  Lemma word_goes z w : z < n -> (0 <= w < 2 ^ 32)%Z -> goes N s (assign_word_h N junk s z w) (upd (values s) z (Some w)).
  Proof.
    intros Hz Hw. pose proof (of_word_value (Flex 0) w I Hw) as ((V & _) & E).
    replace (Some w) with (Some (value (of_word (Flex 0) w))) by (f_equal; exact E).
    apply done_goes; [exact Hi| |exact V]. apply (assign_done z w Hz).
  Qed.

  (** ** sums *)
  Section Sum.
    Variables (x y : nat) (X Y : bigint).
    Hypothesis LX : live s x X.
    Hypothesis LY : live s y Y.
    Lemma rd2 : Forall (readable (bufs s)) [(x, size X); (y, size Y)].
    Proof. repeat constructor; [apply (l_read _ _ _ LX)..|apply (l_read _ _ _ LY)|apply (l_read _ _ _ LY)]. Qed.
    Lemma ws2 : map (read_of (bufs s)) [(x, size X); (y, size Y)] = [mem X; mem Y].
    Proof. cbn [map]. rewrite (l_words _ _ _ LX), (l_words _ _ _ LY). reflexivity. Qed.
    Lemma usub_words_len : size Y <= size X -> length (usub_words (mem X) (mem Y)) = size X.
    Proof.
      intros H. unfold usub_words. pose proof (l_len _ _ _ LX) as A. pose proof (l_len _ _ _ LY) as B.
      pose proof (sub_n_spec (firstn (length (mem Y)) (mem X)) (mem Y)) as S1. destruct (sub_n _ _) as [lo c]. destruct S1 as (_ & L1 & C1 & _).
      { unfold all_words. eapply Forall_firstn_le || (pose proof (live_all _ _ _ LX) as W; unfold all_words in *; rewrite <- (firstn_skipn (length (mem Y))) in W; apply Forall_app in W; tauto). }
      { apply (live_all _ _ _ LY). } { rewrite firstn_length. lia. }
      rewrite firstn_length in L1. destruct (Nat.ltb_spec (length (mem Y)) (length (mem X))) as [Q|Q]; [|lia].
      pose proof (sub_word_spec (skipn (length (mem Y)) (mem X)) c) as S2. destruct (sub_word _ c) as [hi c']. destruct S2 as (_ & L2 & _).
      { pose proof (live_all _ _ _ LX) as W; unfold all_words in *; rewrite <- (firstn_skipn (length (mem Y))) in W; apply Forall_app in W; tauto. }
      { pose proof B_pos. lia. } { intros E. apply (f_equal (@length Z)) in E. rewrite skipn_length in E. cbn in E. lia. }
      rewrite skipn_length in L2. cbn [fst]. rewrite app_length. lia.
    Qed.
    Lemma usub_done z k g : z < n -> size Y <= size X -> nth_error (meta s) z = Some (k, g) ->
      done N s z (usub_h N junk s z x y) (trim (mk (usub_words (mem X) (mem Y)) k g) (size X)).
    Proof.
      intros Hz H Em. unfold usub_h. rewrite (size_live _ _ _ LX), (size_live _ _ _ LY). cbn [bind].
      apply into_trim; auto; [apply (l_valid _ _ _ LX)|apply rd2|rewrite ws2; reflexivity|apply usub_words_len; exact H].
    Qed.
    Lemma uadd_done z k g : z < n -> nth_error (meta s) z = Some (k, g) ->
      (z = x \/ z = y -> forall b, nth_error (objs (bufs s)) z = Some b -> ~ moves_block N b (Nat.max (size X) (size Y) + 1)) ->
      done N s z (uadd_h N junk s z x y) (trim (mk (uadd_words (mem X) (mem Y)) k g) (Nat.max (size X) (size Y) + 1)).
    Proof.
      intros Hz Em Hh. unfold uadd_h. rewrite (size_live _ _ _ LX), (size_live _ _ _ LY). cbn [bind].
      destruct (get_ok (objs (bufs s)) z Hz) as (bz & Ez & _).
      destruct (readable_obj N _ _ (proj1 Hi) (l_read _ _ _ LX)) as (bx & Ex & Rx & Wx). destruct (readable_obj N _ _ (proj1 Hi) (l_read _ _ _ LY)) as (by_ & Ey & Ry & Wy).
      cbn [fst snd] in *.
      destruct (uadd_flex_spec N junk (bufs s) z x (size X) y (size Y) bz bx by_ (proj1 Hi) Ez Ex Ey) as (p & S1 & S2 & S3); [lia|lia|intros Q; apply Hh; auto|].
      rewrite S1. cbn [bind].
      assert (D : forall i W b, nth_error (objs (bufs s)) i = Some b -> live s i W -> firstn (size W) (flex_contents (hp (bufs s)) b) = mem W).
      { intros i W b Eb HW. rewrite <- (l_words _ _ _ HW). unfold read_of. cbn [fst snd]. destruct (nth_contents N _ _ _ (proj1 Hi) Eb) as [C _]. rewrite C. reflexivity. }
      rewrite (D x X bx Ex LX), (D y Y by_ Ey LY) in S3.
      assert (Lo : length (objs p) = n) by (apply (f_equal (@length (list Z))) in S3; rewrite upd_length in S3; unfold contents in S3; rewrite !map_length in S3; exact S3).
      apply (done_trim z (Ok (mkh p (meta s))) (mk (uadd_words (mem X) (mem Y)) k g)); [exact Hz| |].
      - exists p. cbn [size neg mem]. rewrite upd_id by exact Em. auto.
      - cbn [mem]. rewrite uadd_words_length, (l_len _ _ _ LX), (l_len _ _ _ LY). lia.
    Qed.
    Lemma ucompare_live : ucompare_h s x y = Ok (ucompare X Y).
    Proof.
      unfold ucompare_h, ucompare. rewrite (size_live _ _ _ LX), (size_live _ _ _ LY). cbn [bind].
      rewrite (live_words _ _ _ LX), (live_words _ _ _ LY). destruct (Nat.eqb (size X) (size Y)); [|reflexivity].
      assert (One : forall i W, live s i W -> exists p, first_ptr (bufs s) i = Ok p /\ load (bufs s) p (size W) = Ok (mem W)).
      { intros i W HW. destruct (readable_obj N _ _ (proj1 Hi) (l_read _ _ _ HW)) as (b & Eb & Rb & Wb). cbn [fst snd] in *. exists (ptr_of b i).
        split; [apply first_ptr_ok; [exact Eb|lia]|]. destruct (data_ok N _ _ (proj1 (proj1 Hi) i b Eb)) as (_ & D & _).
        rewrite (load_data N _ i b (size W) (proj1 Hi) Eb) by lia. rewrite <- Wb, (l_words _ _ _ HW). reflexivity. }
      destruct (One x X LX) as (px & P1 & P2). destruct (One y Y LY) as (py & P3 & P4). rewrite P1, P3. cbn [bind]. rewrite P2. cbn [bind]. rewrite P4. reflexivity.
    Qed.
    Lemma uadd_store : uadd (Flex 0) Z0 X Y = trim (mk (uadd_words (mem X) (mem Y)) 1 false) (Nat.max (size X) (size Y) + 1).
    Proof.
      unfold uadd. cbn [can_resize]. rewrite (live_words _ _ _ LX), (live_words _ _ _ LY). rewrite store_eq by (rewrite uadd_words_length; cbn; lia).
      rewrite uadd_words_length, (l_len _ _ _ LX), (l_len _ _ _ LY). cbn [Z0 size neg]. f_equal. lia.
    Qed.
    Lemma usub_store : size Y <= size X -> usub (Flex 0) Z0 X Y = trim (mk (usub_words (mem X) (mem Y)) 1 false) (size X).
    Proof.
      intros H. unfold usub. cbn [can_resize]. rewrite (live_words _ _ _ LX), (live_words _ _ _ LY).
      pose proof (usub_words_len H) as L. rewrite store_eq by (rewrite L; cbn; apply (l_valid _ _ _ LX)). rewrite L. reflexivity.
    Qed.
  End Sum.
  Lemma ucompare_sizes X Y : valid (Flex 0) X -> valid (Flex 0) Y -> (0 <=? ucompare X Y)%Z = true -> size Y <= size X.
  Proof. unfold ucompare. intros _ _. destruct (Nat.eqb_spec (size X) (size Y)) as [H|H]; [lia|]. destruct (Nat.ltb_spec (size Y) (size X)); [lia|discriminate]. Qed.
  Lemma ucompare_sizes' X Y : (0 <=? ucompare X Y)%Z = false -> size X <= size Y.
  Proof. unfold ucompare. destruct (Nat.eqb_spec (size X) (size Y)) as [H|H]; [lia|]. destruct (Nat.ltb_spec (size Y) (size X)); [discriminate|lia]. Qed.

  Lemma add_signed_done x y X Y z gx gy : live s x X -> live s y Y -> z < n ->
    (gx = gy -> z = x \/ z = y -> forall b, nth_error (objs (bufs s)) z = Some b -> ~ moves_block N b (Nat.max (size X) (size Y) + 1)) ->
    done N s z (add_signed_h N junk s z x gx y gy) (add_signed (Flex 0) Z0 X gx Y gy).
  Proof.
    intros LX LY Hz Hh. destruct (meta_ex z Hz) as (k & g & Em). unfold add_signed_h, add_signed.
    pose proof (proj1 (proj2 (l_valid _ _ _ LX))) as SX. pose proof (proj1 (proj2 (l_valid _ _ _ LY))) as SY.
    destruct (negb (xorb gx gy)) eqn:Eg.
    - rewrite (uadd_store x y X Y LX LY). rewrite (set_neg_trim _ 1 false k g) by lia.
      apply done_neg; auto. apply uadd_done; auto. apply Hh. destruct gx, gy; cbn in Eg; congruence.
    - rewrite (ucompare_live x y X Y LX LY). cbn [bind]. destruct (0 <=? ucompare X Y)%Z eqn:Ec.
      + pose proof (ucompare_sizes X Y (l_valid _ _ _ LX) (l_valid _ _ _ LY) Ec) as H. rewrite (usub_store x y X Y LX LY H), (set_neg_trim _ 1 false k g) by lia.
        apply done_neg; auto. apply usub_done; auto.
      + pose proof (ucompare_sizes' X Y Ec) as H. rewrite (usub_store y x Y X LY LX H), (set_neg_trim _ 1 false k g) by lia.
        apply done_neg; auto. apply usub_done; auto.
  Qed.
  Lemma add_goes x y X Y z : live s x X -> live s y Y -> z < n ->
    (neg X = neg Y -> z = x \/ z = y -> forall b, nth_error (objs (bufs s)) z = Some b -> ~ moves_block N b (Nat.max (size X) (size Y) + 1)) ->
    goes N s (hstep N junk (HAdd z x y) s) (upd (values s) z (Some (value X + value Y)%Z)).
  Proof.
    intros LX LY Hz Hh. cbn [hstep]. rewrite (neg_live _ _ _ LX), (neg_live _ _ _ LY). cbn [bind].
    destruct (add_claim (Flex 0) Z0 X Y Z0_ok (l_valid _ _ _ LX) (l_valid _ _ _ LY) I) as [V E]. rewrite <- E.
    apply done_goes; [exact Hi| |exact V]. apply add_signed_done; auto.
  Qed.
  Lemma sub_goes x y X Y z : live s x X -> live s y Y -> z < n ->
    (neg X = negb (neg Y) -> z = x \/ z = y -> forall b, nth_error (objs (bufs s)) z = Some b -> ~ moves_block N b (Nat.max (size X) (size Y) + 1)) ->
    goes N s (hstep N junk (HSub z x y) s) (upd (values s) z (Some (value X - value Y)%Z)).
  Proof.
    intros LX LY Hz Hh. cbn [hstep]. rewrite (neg_live _ _ _ LX), (neg_live _ _ _ LY). cbn [bind].
    destruct (sub_claim (Flex 0) Z0 X Y Z0_ok (l_valid _ _ _ LX) (l_valid _ _ _ LY) I) as [V E]. rewrite <- E.
    apply done_goes; [exact Hi| |exact V]. apply add_signed_done; auto.
  Qed.
End Ops.
