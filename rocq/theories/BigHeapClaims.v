(** Proofs about BigHeapModel, part 6: steps, hazards, programs. *)
From Coq Require Import List ZArith Bool Lia.
From Verif Require Import Outcome LoopModel WordsModel WordsSpec WordsProofs BigintModel BigintSpec BigintProofs BigintClaims BufferModel BufferSpec BufferProofs BigHeapModel BigHeapSpec BigHeapProofs BigHeapOps BigHeapRest BigHeapMain BigHeapDiv.
Import ListNotations.
Local Open Scope nat_scope.

Section Step.
  Variables (N : nat) (junk : nat -> Z) (s : hstate).
  Hypothesis Hi : hinv N s.
  Let n := length (objs (bufs s)).

  Lemma hstep_goes o vs : hnames n o -> zstep o (values s) = Some vs -> ~ hazard N s o -> goes N s (hstep N junk o s) vs.
  Proof.
    intros Hn Hz Hh. assert (LE : forall i a, i < n -> var (values s) i = Some a -> exists X, live s i X /\ value X = a) by (intros; apply (live_ex N); assumption).
    destruct o; cbn [hnames zstep hstep] in *; unfold unary, binary in Hz.
    - injection Hz as <-. apply word_goes; tauto.
    - injection Hz as <-. apply copy_goes; tauto.
    - injection Hz as <-. apply move_goes; tauto.
    - injection Hz as <-. apply swap_goes; tauto.
    - destruct Hn as (H1 & H2 & H3). destruct (var (values s) x) as [a|] eqn:Ea; [|discriminate Hz]. destruct (var (values s) y) as [b|] eqn:Eb; [|discriminate Hz]. injection Hz as <-.
      destruct (LE x a H2 Ea) as (X & LX & <-). destruct (LE y b H3 Eb) as (Y & LY & <-). apply (add_goes N junk s Hi x y X Y z LX LY H1).
      intros Sg P bz Ez M. apply Hh. split; [exact P|]. exists bz, (size X), (neg X), (size Y), (neg Y). conj; auto using (l_meta s x X LX), (l_meta s y Y LY).
    - destruct Hn as (H1 & H2 & H3). destruct (var (values s) x) as [a|] eqn:Ea; [|discriminate Hz]. destruct (var (values s) y) as [b|] eqn:Eb; [|discriminate Hz]. injection Hz as <-.
      destruct (LE x a H2 Ea) as (X & LX & <-). destruct (LE y b H3 Eb) as (Y & LY & <-). apply (sub_goes N junk s Hi x y X Y z LX LY H1).
      intros Sg P bz Ez M. apply Hh. split; [exact P|]. exists bz, (size X), (neg X), (size Y), (neg Y). conj; auto using (l_meta s x X LX), (l_meta s y Y LY).
    - destruct Hn as (H1 & H2 & H3). destruct (var (values s) x) as [a|] eqn:Ea; [|discriminate Hz]. destruct (var (values s) y) as [b|] eqn:Eb; [|discriminate Hz]. injection Hz as <-.
      destruct (LE x a H2 Ea) as (X & LX & <-). destruct (LE y b H3 Eb) as (Y & LY & <-). apply mul_goes; assumption.
    - destruct Hn as (H1 & H2 & H3). destruct (var (values s) x) as [a|] eqn:Ea; [|discriminate Hz]. injection Hz as <-. destruct (LE x a H2 Ea) as (X & LX & <-).
      apply (add1_goes N junk s Hi z x X w false LX H1 H3).
    - destruct Hn as (H1 & H2 & H3). destruct (var (values s) x) as [a|] eqn:Ea; [|discriminate Hz]. injection Hz as <-. destruct (LE x a H2 Ea) as (X & LX & <-).
      rewrite <- Z.add_opp_r. apply (add1_goes N junk s Hi z x X w true LX H1 H3).
    - destruct Hn as (H1 & H2 & H3). destruct (var (values s) x) as [a|] eqn:Ea; [|discriminate Hz]. injection Hz as <-. destruct (LE x a H2 Ea) as (X & LX & <-). apply mulu1_goes; assumption.
    - destruct Hn as (H1 & H2 & H3). destruct (Z.eqb_spec k 0) as [->|K0]; [discriminate Hz|]. destruct (var (values s) x) as [a|] eqn:Ea; [|discriminate Hz]. injection Hz as <-. destruct (LE x a H2 Ea) as (X & LX & <-). apply divs1_goes; assumption.
    - destruct Hn as (H1 & H2 & H3 & H4 & H5 & H6). destruct (var (values s) x) as [a|] eqn:Ea; [|discriminate Hz]. destruct (var (values s) y) as [b|] eqn:Eb; [|discriminate Hz].
      destruct (Z.eqb_spec b 0) as [->|B0]; [discriminate Hz|]. injection Hz as <-.
      destruct (LE x a H3 Ea) as (X & LX & <-). destruct (LE y b H4 Eb) as (Y & LY & <-). apply div_mod_goes; assumption.
    - destruct Hn as (H1 & H2 & H3). destruct (var (values s) x) as [a|] eqn:Ea; [|discriminate Hz]. injection Hz as <-. destruct (LE x a H2 Ea) as (X & LX & <-). apply shl_goes; assumption.
    - destruct Hn as (H1 & H2 & H3). destruct (var (values s) x) as [a|] eqn:Ea; [|discriminate Hz]. injection Hz as <-. destruct (LE x a H2 Ea) as (X & LX & <-). apply shr_goes; assumption.
    - destruct (var (values s) x) as [a|] eqn:Ea; [|discriminate Hz]. injection Hz as <-. apply neg_goes; tauto.
    - destruct (var (values s) x) as [a|] eqn:Ea; [|discriminate Hz]. injection Hz as <-. apply abs_goes; tauto.
  Qed.

  Lemma live_obj x X : live s x X -> exists b, nth_error (objs (bufs s)) x = Some b /\ 0 < fsize b.
  Proof.
    intros L. pose proof (l_read _ _ _ L) as R. assert (S1 : 1 <= size X) by apply (l_valid _ _ _ L). destruct (readable_obj N (bufs s) _ (proj1 Hi) R) as (b & E & H & _). exists b. cbn [fst snd] in *. split; [exact E|lia].
  Qed.
  Lemma uadd_hazard z x y X Y bz g : live s x X -> live s y Y -> nth_error (objs (bufs s)) z = Some bz -> z = x \/ z = y -> moves_block N bz (Nat.max (size X) (size Y) + 1) ->
    (let* s' := uadd_h N junk s z x y in set_neg_h s' z g) = UB.
  Proof.
    intros LX LY Ez P M. destruct (live_obj x X LX) as (bx & Ex & Fx). destruct (live_obj y Y LY) as (by_ & Ey & Fy). unfold uadd_h. rewrite (size_live _ _ _ LX), (size_live _ _ _ LY). cbn [bind].
    rewrite (uadd_flex_moves N junk (bufs s) z x (size X) y (size Y) bx by_ bz (proj1 Hi) Ex Ey Ez Fx Fy P M). reflexivity.
  Qed.
  Lemma hstep_hazard o : hnames n o -> zstep o (values s) <> None -> hazard N s o -> hstep N junk o s = UB.
  Proof.
    intros Hn Hz (P & Hh). destruct o; cbn [hnames zstep hstep in_place] in *; try contradiction; unfold binary in Hz;
      destruct Hn as (H1 & H2 & H3); destruct Hh as (bz & xn & gx & yn & gy & Ez & Mx & My & Sg & M);
      (destruct (var (values s) x) as [a|] eqn:Ea; [|congruence]); (destruct (var (values s) y) as [b|] eqn:Eb; [|congruence]);
      destruct (live_ex N s x a Hi H2 Ea) as (X & LX & _); destruct (live_ex N s y b Hi H3 Eb) as (Y & LY & _);
      rewrite (neg_live _ _ _ LX), (neg_live _ _ _ LY); cbn [bind]; rewrite (l_meta _ _ _ LX) in Mx; rewrite (l_meta _ _ _ LY) in My; injection Mx as <- <-; injection My as <- <-; unfold add_signed_h.
    - rewrite Sg, xorb_nilpotent. cbn [negb]. eapply uadd_hazard; eauto.
    - rewrite Sg, xorb_nilpotent. cbn [negb]. eapply uadd_hazard; eauto.
  Qed.
  Lemma hstep_div_zero o : hnames n o -> by_zero (values s) o ->
    hstep N junk o s = Abort.
  Proof.
    intros Hn H. destruct o; try contradiction; cbn [hnames hstep by_zero] in *.
    - destruct Hn as (H1 & H2 & _). destruct H as (H & ->). destruct (var (values s) x) as [a|] eqn:Ea; [|congruence]. destruct (live_ex N s x a Hi H2 Ea) as (X & LX & _). eapply divs1_zero; eauto.
    - destruct Hn as (H1 & H2 & H3 & H4 & _). destruct H as (H & Hy). destruct (var (values s) x) as [a|] eqn:Ea; [|congruence]. destruct (live_ex N s x a Hi H3 Ea) as (X & LX & _).
      destruct (live_ex N s y 0%Z Hi H4 Hy) as (Y & LY & E). eapply div_mod_zero; eauto.
  Qed.
End Step.

(** ** programs *)
Lemma hazard_dec N s o : hazard N s o \/ ~ hazard N s o.
Proof.
  assert (D : forall z x y (f : bool -> bool), let Q := (z = x \/ z = y) /\ exists b xn gx yn gy, nth_error (objs (bufs s)) z = Some b /\
        nth_error (meta s) x = Some (xn, gx) /\ nth_error (meta s) y = Some (yn, gy) /\ gx = f gy /\ moves_block N b (Nat.max xn yn + 1) in Q \/ ~ Q).
  { intros z x y f Q. assert (P : (z = x \/ z = y) \/ ~ (z = x \/ z = y)) by lia. destruct P as [P|P]; [|right; intros [H _]; tauto].
    destruct (nth_error (objs (bufs s)) z) as [b|] eqn:Ez; [|right; intros (_ & ? & ? & ? & ? & ? & H & _); discriminate H].
    destruct (nth_error (meta s) x) as [[xn gx]|] eqn:Ex; [|right; intros (_ & ? & ? & ? & ? & ? & _ & H & _); discriminate H].
    destruct (nth_error (meta s) y) as [[yn gy]|] eqn:Ey; [|right; intros (_ & ? & ? & ? & ? & ? & _ & _ & H & _); discriminate H].
    destruct (bool_dec gx (f gy)) as [G|G]; [|right; intros (_ & ? & ? & ? & ? & ? & _ & H1 & H2 & H3 & _); injection H1 as <- <-; injection H2 as <- <-; contradiction].
    assert (M : moves_block N b (Nat.max xn yn + 1) \/ ~ moves_block N b (Nat.max xn yn + 1)).
    { unfold moves_block. destruct (dd b); [|right; intros [H _]; congruence]. assert (K : (N < Nat.max xn yn + 1 /\ dsize b < Nat.max xn yn + 1) \/ ~ (N < Nat.max xn yn + 1 /\ dsize b < Nat.max xn yn + 1)) by lia.
      destruct K as [K|K]; [left; split; [congruence|exact K]|right; tauto]. }
    destruct M as [M|M]; [left; split; [exact P|exists b, xn, gx, yn, gy; auto]|].
    right; intros (_ & ? & ? & ? & ? & ? & H0 & H1 & H2 & H3 & H4). injection H0 as <-. injection H1 as <- <-. injection H2 as <- <-. contradiction. }
  destruct o; try (right; intros [[] _]; fail).
  - exact (D z x y (fun g => g)).
  - exact (D z x y negb).
Qed.

Lemma hrun_app N l1 l2 s : hrun N (l1 ++ l2) s = (let* s' := hrun N l1 s in hrun N l2 s').
Proof. revert s. induction l1 as [|[o junk] l1 IH]; intros s; [reflexivity|]. cbn [app hrun]. destruct (hstep N junk o s); cbn [bind]; try reflexivity. apply IH. Qed.

Definition hrun_post (N : nat) (l : list (hop * (nat -> Z))) (s : hstate) (vs : list (option Z)) : Prop :=
  match hrun N l s with
  | Ok s' => hinv N s' /\ values s' = vs /\ length (objs (bufs s')) = length (objs (bufs s))
  | UB => exists l1 o junk l2 s1, l = l1 ++ (o, junk) :: l2 /\ hrun N l1 s = Ok s1 /\ hazard N s1 o
  | _ => False
  end.
Lemma hrun_spec N l s vs : hinv N s -> Forall (fun q => hnames (length (objs (bufs s))) (fst q)) l -> zrun l (values s) = Some vs -> hrun_post N l s vs.
Proof.
  revert s. induction l as [|[o junk] l IH]; intros s Hi Hn Hz; cbn [zrun] in Hz; unfold hrun_post; cbn [hrun].
  - injection Hz as <-. auto.
  - inversion Hn as [|? ? H1 H2]; subst. cbn [fst] in H1. destruct (zstep o (values s)) as [vs1|] eqn:Es; [|discriminate Hz].
    destruct (hazard_dec N s o) as [H|H].
    + rewrite (hstep_hazard N junk s Hi o H1 ltac:(congruence) H). cbn [bind]. exists [], o, junk, l, s. auto.
    + destruct (hstep_goes N junk s Hi o vs1 H1 Es H) as (s1 & E & I1 & V1 & L1). rewrite E. cbn [bind]. rewrite <- L1 in H2. rewrite <- V1 in Hz. specialize (IH s1 I1 H2 Hz). unfold hrun_post in IH.
      destruct (hrun N l s1) as [s2| | |] eqn:Er; try contradiction; [destruct IH as (? & ? & ?); split; [|split]; auto; lia|].
      destruct IH as (l1 & o' & j' & l2 & s3 & -> & Q1 & Q2). exists ((o, junk) :: l1), o', j', l2, s3. split; [reflexivity|]. split; [|exact Q2]. cbn [hrun]. rewrite E. exact Q1.
Qed.

Lemma hinit_inv N n : hinv N (hinit N n) /\ values (hinit N n) = repeat None n /\ length (objs (bufs (hinit N n))) = n.
Proof.
  unfold hinit. cbn [bufs objs]. split; [|split; [|apply repeat_length]].
  - split; [apply (flex_init_inv N n)|]. split; [cbn; rewrite !repeat_length; reflexivity|]. unfold view, contents. cbn [bufs meta objs hp]. induction n as [|n IH]; cbn; constructor; [left; reflexivity|exact IH].
  - unfold values, contents. cbn [bufs meta objs hp]. induction n as [|n IH]; cbn; [reflexivity|]. f_equal. exact IH.
Qed.

Lemma programs_claim N n l vs : Forall (fun q => hnames n (fst q)) l -> zrun l (repeat None n) = Some vs ->
  match hrun N l (hinit N n) with
  | Ok s => values s = vs
  | UB => exists l1 o junk l2 s, l = l1 ++ (o, junk) :: l2 /\ hrun N l1 (hinit N n) = Ok s /\ hazard N s o
  | _ => False
  end.
Proof.
  intros Hn Hz. destruct (hinit_inv N n) as (I & V & L). rewrite <- L in Hn. rewrite <- V in Hz. pose proof (hrun_spec N l _ vs I Hn Hz) as P. unfold hrun_post in P.
  destruct (hrun N l (hinit N n)); auto. tauto.
Qed.
Lemma no_inplace_claim N n l vs : Forall (fun q => hnames n (fst q)) l -> Forall (fun q => ~ in_place (fst q)) l -> zrun l (repeat None n) = Some vs ->
  exists s, hrun N l (hinit N n) = Ok s /\ values s = vs.
Proof.
  intros Hn Hp Hz. pose proof (programs_claim N n l vs Hn Hz) as P. destruct (hrun N l (hinit N n)) as [s| | |]; try contradiction; [exists s; auto|].
  destruct P as (l1 & o & j & l2 & s & -> & _ & (Q & _)). apply Forall_app in Hp as (_ & Hp). inversion Hp; subst. contradiction.
Qed.
(** a completed prefix *)
Lemma prefix_claim N n l vs s : Forall (fun q => hnames n (fst q)) l -> zrun l (repeat None n) = Some vs -> hrun N l (hinit N n) = Ok s -> hinv N s /\ values s = vs /\ length (objs (bufs s)) = n.
Proof.
  intros Hn Hz E. destruct (hinit_inv N n) as (I & V & L). rewrite <- L in Hn. rewrite <- V in Hz. pose proof (hrun_spec N l _ vs I Hn Hz) as P. unfold hrun_post in P. rewrite E in P. destruct P as (P1 & P2 & P3). split; [exact P1|]. split; [exact P2|lia].
Qed.
Lemma hazard_claim N n l vs s junk o : Forall (fun q => hnames n (fst q)) l -> zrun l (repeat None n) = Some vs -> hrun N l (hinit N n) = Ok s ->
  hnames n o -> zstep o vs <> None -> hazard N s o -> hstep N junk o s = UB.
Proof. intros Hn Hz E Ho Hs Hh. destruct (prefix_claim N n l vs s Hn Hz E) as (I & <- & <-). apply hstep_hazard; assumption. Qed.
Lemma div_zero_claim N n l vs s junk o : Forall (fun q => hnames n (fst q)) l -> zrun l (repeat None n) = Some vs -> hrun N l (hinit N n) = Ok s ->
  hnames n o -> by_zero vs o -> hstep N junk o s = Abort.
Proof. intros Hn Hz E Ho Hs. destruct (prefix_claim N n l vs s Hn Hz E) as (I & <- & <-). apply hstep_div_zero; assumption. Qed.

(** ** doubling in place *)
Lemma doubling_names k junk : Forall (fun q => hnames 1 (fst q)) (doubling k junk).
Proof.
  constructor; [cbn; lia|]. apply Forall_forall. intros q H. apply in_map_iff in H as (i & <- & _). cbn. lia.
Qed.
Lemma doublings l v : (forall q, In q l -> fst q = HAdd 0 0 0) -> zrun l [Some v] = Some [Some (v * 2 ^ Z.of_nat (length l))%Z].
Proof.
  revert v. induction l as [|[o j] l IH]; intros v H; [cbn; rewrite Z.mul_1_r; reflexivity|].
  pose proof (H (o, j) (or_introl eq_refl)) as E. cbn [fst] in E. subst o. cbn [zrun]. change (zstep (HAdd 0 0 0) [Some v]) with (Some [Some (v + v)%Z]). cbv beta iota.
  rewrite IH by (intros q Hq; apply H; right; exact Hq). cbn [length]. do 3 f_equal. rewrite Nat2Z.inj_succ, Z.pow_succ_r by lia. lia.
Qed.
Lemma doubling_value k junk : zrun (doubling k junk) (repeat None 1) = Some [Some (2 ^ Z.of_nat k)%Z].
Proof.
  unfold doubling. cbn [zrun]. change (zstep (HWord 0 1) (repeat None 1)) with (Some [Some 1%Z]). cbv beta iota. rewrite doublings.
  - rewrite map_length, seq_length, Z.mul_1_l. reflexivity.
  - intros q H. apply in_map_iff in H as (i & <- & _). reflexivity.
Qed.

(** the block of object 0, once there is one, has at most N + 1 words *)
Definition one_block (N : nat) (p : prog) : Prop := forall b, nth_error (objs p) 0 = Some b -> dd b <> None -> dsize b <= N + 1.
Lemma set_size_bufs s o k s' : set_size_h s o k = Ok s' -> bufs s' = bufs s.
Proof. unfold set_size_h. destruct (get _ _); cbn [bind]; try discriminate. intros E. injection E as <-. reflexivity. Qed.
Lemma set_neg_bufs s o k s' : set_neg_h s o k = Ok s' -> bufs s' = bufs s.
Proof. unfold set_neg_h. destruct (get _ _); cbn [bind]; try discriminate. intros E. injection E as <-. reflexivity. Qed.
Lemma trim_bufs s o n s' : trim_h s o n = Ok s' -> bufs s' = bufs s.
Proof.
  destruct n as [|m]; cbn [trim_h]; [intros E; injection E as <-; reflexivity|]. destruct (trim_scan s o m) as [[|k]| | |]; cbn [bind]; try discriminate; [|apply set_size_bufs].
  destruct (set_size_h s o 1) as [s1| | |] eqn:E1; cbn [bind]; try discriminate. apply set_size_bufs in E1. destruct (word_h s1 o 0) as [w| | |]; cbn [bind]; try discriminate.
  destruct (w =? 0)%Z; intros E; [apply set_neg_bufs in E; congruence|injection E as <-; exact E1].
Qed.
Lemma save_block N s p ws s' : one_block N s -> save s p ws = Ok s' -> one_block N s'.
Proof.
  intros H E. destruct p as [i|a]; cbn [save] in E.
  - unfold get in E. destruct (nth_error (objs s) i) as [b|] eqn:Eb; cbn [bind] in E; [|discriminate E]. destruct (memcpy _ _ _); cbn [bind] in E; try discriminate E. injection E as <-.
    intros b0 E0 D. cbn [objs] in E0. rewrite upd_nth in E0. destruct (Nat.eqb_spec 0 i) as [<-|_]; [|apply (H b0 E0 D)].
    destruct (Nat.ltb _ _); [|discriminate E0]. injection E0 as <-. cbn in *. apply (H b Eb D).
  - destruct (block (hp s) a); [|discriminate E]. destruct (memcpy _ _ _); cbn [bind] in E; try discriminate E. injection E as <-. exact H.
Qed.
Lemma resize_block N junk h b n h' b' : buf_ok N h b -> (dd b <> None -> dsize b <= N + 1) -> ~ moves_block N b n -> (dd b = None -> n <= N + 1) ->
  flex_resize N junk h b n = Ok (h', b') -> dd b' <> None -> dsize b' <= N + 1.
Proof.
  intros (_ & Hb) H Hm Hn E D. unfold flex_resize in E. destruct (Nat.ltb N n && Nat.ltb (dsize b) n)%bool eqn:C; [|injection E as <- <-; cbn in *; auto].
  apply andb_prop in C as [C1 C2]. apply Nat.ltb_lt in C1, C2. destruct (dd b) as [a|] eqn:Ed; [exfalso; apply Hm; split; [congruence|lia]|]. specialize (Hn eq_refl).
  destruct (memcpy _ _ _); cbn [bind] in E; try discriminate E. destruct (alloc _ _) as [h2 a2]. injection E as <- <-. cbn. lia.
Qed.
(** one doubling *)
Lemma double_block N junk s s' v : hinv N s -> values s = [Some v] -> one_block N (bufs s) -> hstep N junk (HAdd 0 0 0) s = Ok s' -> one_block N (bufs s').
Proof.
  intros Hi Hv H E. pose proof (values_length N s Hi) as LV. rewrite Hv in LV. cbn [length] in LV. assert (H0 : 0 < length (objs (bufs s))) by lia.
  destruct (live_ex N s 0 v Hi H0) as (X & LX & _); [rewrite Hv; reflexivity|].
  destruct (hazard_dec N s (HAdd 0 0 0)) as [Hh|Hh]; [rewrite (hstep_hazard N junk s Hi (HAdd 0 0 0)) in E; [discriminate E|cbn; lia|rewrite Hv; discriminate|exact Hh]|].
  destruct (obj_ex N s 0 Hi H0) as (b & c & m & Eb & Ec & Em & _ & _ & Lc).
  cbn [hstep] in E. rewrite (neg_live _ _ _ LX) in E. cbn [bind] in E. unfold add_signed_h in E. rewrite xorb_nilpotent in E. cbn [negb] in E.
  destruct (uadd_h N junk s 0 0 0) as [s1| | |] eqn:EU; cbn [bind] in E; try discriminate E. apply set_neg_bufs in E. rewrite E. clear E.
  unfold uadd_h in EU. rewrite (size_live _ _ _ LX) in EU. cbn [bind] in EU. destruct (uadd_flex _ _ _ _ _ _ _ _) as [p| | |] eqn:EF; cbn [bind] in EU; try discriminate EU. apply trim_bufs in EU. rewrite EU. clear EU. cbn [bufs].
  unfold uadd_flex in EF. rewrite Nat.ltb_irrefl in EF. destruct (first_ptr (bufs s) 0) as [px| | |]; cbn [bind] in EF; try discriminate EF.
  unfold get in EF. rewrite Eb in EF. cbn [bind] in EF. destruct (flex_resize N junk (hp (bufs s)) b (size X + 1)) as [[h' b']| | |] eqn:ER; cbn [bind] in EF; try discriminate EF.
  destruct (first_ptr _ 0) as [d| | |]; cbn [bind] in EF; try discriminate EF. destruct (load _ px _) as [w| | |]; cbn [bind] in EF; try discriminate EF.
  eapply save_block; [|exact EF]. intros b0 E0 D. cbn [objs] in E0. rewrite upd_same in E0 by exact H0. injection E0 as <-.
  pose proof (proj1 (proj1 Hi) 0 b Eb) as Hb. eapply resize_block; [exact Hb|exact (H b Eb)| | |exact ER|exact D].
  - intros M. apply Hh. split; [left; reflexivity|]. exists b, (size X), (neg X), (size X), (neg X). rewrite Nat.max_id. conj; auto using (l_meta s 0 X LX).
  - intros D0. destruct Hb as (_ & Hb). rewrite D0 in Hb. pose proof (l_read _ _ _ LX) as R. unfold readable in R. cbn [fst snd] in R. rewrite (nth_error_nth _ _ _ Ec) in R. lia.
Qed.
Lemma double_run N l : forall s s' v, hinv N s -> values s = [Some v] -> one_block N (bufs s) -> (forall q, In q l -> fst q = HAdd 0 0 0) -> hrun N l s = Ok s' -> one_block N (bufs s').
Proof.
  induction l as [|[o j] l IH]; intros s s' v Hi Hv H Hl E; cbn [hrun] in E; [injection E as <-; exact H|].
  pose proof (Hl (o, j) (or_introl eq_refl)) as Eo. cbn [fst] in Eo. subst o. destruct (hstep N j (HAdd 0 0 0) s) as [s1| | |] eqn:E1; cbn [bind] in E; try discriminate E.
  pose proof (double_block N j s s1 v Hi Hv H E1) as H1. pose proof (values_length N s Hi) as LV. rewrite Hv in LV. cbn [length] in LV.
  destruct (hazard_dec N s (HAdd 0 0 0)) as [Hh|Hh]; [rewrite (hstep_hazard N j s Hi (HAdd 0 0 0)) in E1; [discriminate E1|cbn; lia|rewrite Hv; discriminate|exact Hh]|].
  destruct (hstep_goes N j s Hi (HAdd 0 0 0) [Some (v + v)%Z]) as (s2 & E2 & I2 & V2 & _); [cbn; lia|rewrite Hv; reflexivity|exact Hh|]. assert (s2 = s1) by congruence. subst s2.
  apply (IH s1 s' (v + v)%Z I2 V2 H1); [intros q Hq; apply Hl; right; exact Hq|exact E].
Qed.
Lemma doubling_app k junk : doubling (S k) junk = doubling k junk ++ [(HAdd 0 0 0, junk (S k))].
Proof. unfold doubling. rewrite seq_S, map_app. reflexivity. Qed.
Lemma doubling_block N k junk s : 1 <= N -> hrun N (doubling k junk) (hinit N 1) = Ok s -> one_block N (bufs s).
Proof.
  intros HN E. unfold doubling in E. cbn [hrun] in E. destruct (hstep N (junk 0) (HWord 0 1) (hinit N 1)) as [s1| | |] eqn:E1; cbn [bind] in E; try discriminate E.
  destruct (prefix_claim N 1 [(HWord 0 1%Z, junk 0)] [Some 1%Z] s1) as (I1 & V1 & L1); [constructor; [cbn; lia|constructor]|reflexivity|cbn [hrun]; rewrite E1; reflexivity|].
  assert (O1 : one_block N (bufs s1)).
  { clear - E1 HN. destruct N as [|M]; [lia|]. cbn in E1. injection E1 as <-. intros b Eb D. cbn in Eb. injection Eb as <-. cbn in D. congruence. }
  refine (double_run N _ s1 s 1%Z I1 V1 O1 _ E). intros q H. apply in_map_iff in H as (i & <- & _). reflexivity.
Qed.
Lemma Bn_pow n : Bn n = (2 ^ (32 * Z.of_nat n))%Z.
Proof. unfold Bn. rewrite <- B_eq, <- Z.pow_mul_r by lia. reflexivity. Qed.
(** the size of 2^k *)
Lemma pow_size N s k X : hinv N s -> live s 0 X -> value X = (2 ^ Z.of_nat k)%Z -> (Z.of_nat k / 32 = Z.of_nat (size X - 1))%Z.
Proof.
  intros I LX EX. pose proof (magnitude_range _ X (l_valid _ _ _ LX)) as RX. rewrite Bn_pow in RX.
  assert (MX : magnitude X = (2 ^ Z.of_nat k)%Z) by (rewrite value_sgn in EX; unfold sgn in EX; destruct (neg X); lia).
  assert (S1 : 1 <= size X) by apply (l_valid _ _ _ LX). rewrite MX in RX. destruct RX as [_ RX]. apply Z.pow_lt_mono_r_iff in RX; [|lia..].
  assert (LO : (32 * Z.of_nat (size X - 1) <= Z.of_nat k)%Z).
  { destruct (Nat.eq_dec (size X) 1) as [Q|Q]; [rewrite Q; cbn; lia|]. pose proof (magnitude_lower _ X (l_valid _ _ _ LX) ltac:(lia)) as LW. rewrite Bn_pow, MX in LW. apply Z.pow_le_mono_r_iff in LW; lia. }
  symmetry. apply Z.div_unique with (Z.of_nat k - 32 * Z.of_nat (size X - 1))%Z; lia.
Qed.
Lemma doubling_step N k junk s : 1 <= N -> hrun N (doubling k junk) (hinit N 1) = Ok s -> (hazard N s (HAdd 0 0 0) <-> 32 * N <= k).
Proof.
  intros HN E. destruct (prefix_claim N 1 _ _ s (doubling_names k junk) (doubling_value k junk) E) as (I & V & L).
  pose proof (doubling_block N k junk s HN E) as O.
  destruct (live_ex N s 0 (2 ^ Z.of_nat k)%Z I ltac:(lia)) as (X & LX & EX); [rewrite V; reflexivity|].
  destruct (obj_ex N s 0 I ltac:(lia)) as (b & c & m & Eb & Ec & Em & _ & _ & Lc). pose proof (l_read _ _ _ LX) as R. unfold readable in R. cbn [fst snd] in R. rewrite (nth_error_nth _ _ _ Ec) in R.
  pose proof (pow_size N s k X I LX EX) as SZ. pose proof (proj1 (proj1 I) 0 b Eb) as (_ & Hb). assert (S1 : 1 <= size X) by apply (l_valid _ _ _ LX).
  pose proof (Z.div_mod (Z.of_nat k) 32 ltac:(lia)) as DM. pose proof (Z.mod_pos_bound (Z.of_nat k) 32 ltac:(lia)) as MB.
  split.
  - intros (_ & b' & xn & gx & yn & gy & E0 & M1 & M2 & _ & (D & M3 & M4)). assert (b' = b) by congruence. subst b'. rewrite (l_meta _ _ _ LX) in M1, M2. injection M1 as <- <-. injection M2 as <- <-.
    rewrite Nat.max_id in *. destruct (dd b) as [a|]; [|congruence]. destruct Hb as (d & _ & _ & H1 & H2). lia.
  - intros Hk. split; [left; reflexivity|]. exists b, (size X), (neg X), (size X), (neg X). rewrite Nat.max_id. conj; auto using (l_meta s 0 X LX). unfold moves_block.
    assert (N + 1 <= size X) by lia. destruct (dd b) as [a|] eqn:D; [|lia]. pose proof (O b Eb ltac:(congruence)). split; [congruence|lia].
Qed.
Lemma doubling_claim N k junk : 1 <= N ->
  (k <= 32 * N -> exists s, hrun N (doubling k junk) (hinit N 1) = Ok s /\ values s = [Some (2 ^ Z.of_nat k)%Z]) /\
  (32 * N < k -> hrun N (doubling k junk) (hinit N 1) = UB).
Proof.
  intros HN.
  assert (Sm : forall k, k <= 32 * N -> exists s, hrun N (doubling k junk) (hinit N 1) = Ok s).
  { clear k. induction k as [|k IH]; intros Hk.
    - destruct (no_inplace_claim N 1 (doubling 0 junk) [Some 1%Z] (doubling_names 0 junk)) as (s & E & _); [constructor; [cbn; tauto|constructor]|apply (doubling_value 0)|]. exists s. exact E.
    - destruct (IH ltac:(lia)) as (s & E). destruct (prefix_claim N 1 _ _ s (doubling_names k junk) (doubling_value k junk) E) as (I & V & L).
      destruct (hstep_goes N (junk (S k)) s I (HAdd 0 0 0) [Some (2 ^ Z.of_nat k + 2 ^ Z.of_nat k)%Z]) as (s2 & E2 & _); [cbn; lia|rewrite V; reflexivity|rewrite (doubling_step N k junk s HN E); lia|].
      exists s2. rewrite doubling_app, hrun_app, E. cbn [bind hrun]. rewrite E2. reflexivity. }
  split.
  - intros Hk. destruct (Sm k Hk) as (s & E). exists s. split; [exact E|]. apply (prefix_claim N 1 _ _ s (doubling_names k junk) (doubling_value k junk) E).
  - intros Hk. induction k as [|k IH]; [lia|]. rewrite doubling_app, hrun_app. destruct (Nat.eq_dec k (32 * N)) as [->|Nk]; [|rewrite IH by lia; reflexivity].
    destruct (Sm (32 * N) ltac:(lia)) as (s & E). rewrite E. cbn [bind hrun]. destruct (prefix_claim N 1 _ _ s (doubling_names _ junk) (doubling_value _ junk) E) as (I & V & L).
    rewrite (hstep_hazard N _ s I (HAdd 0 0 0)); [reflexivity|cbn; lia|rewrite V; discriminate|apply (doubling_step N _ junk s HN E); lia].
Qed.

(** ** moved-from objects *)
Lemma moved_claim : exists N l s, Forall (fun q => hnames 3 (fst q)) l /\ hrun N l (hinit N 3) = Ok s /\ values s = [None; Some (5 * 2 ^ 64)%Z; None] /\
  (forall junk, hstep N junk (HMul 2 0 1) s = Abort) /\
  exists j1 j2 s1 s2, hstep N j1 (HMul 0 0 1) s = Ok s1 /\ hstep N j2 (HMul 0 0 1) s = Ok s2 /\ values s1 <> values s2.
Proof.
  set (j := fun _ : nat => 0%Z). set (l := [(HWord 0 5%Z, j); (HShl 0 0 64%Z, j); (HMove 1 0, j)]).
  destruct (hrun 1 l (hinit 1 3)) as [s| | |] eqn:E; try (vm_compute in E; discriminate E).
  exists 1, l, s. split; [repeat constructor; cbn; lia|]. split; [exact E|]. vm_compute in E. injection E as <-. split; [vm_compute; reflexivity|]. split; [intros junk; vm_compute; reflexivity|].
  exists j, (fun _ => 1%Z). eexists _, _. split; [vm_compute; reflexivity|]. split; [vm_compute; reflexivity|]. vm_compute. discriminate.
Qed.
