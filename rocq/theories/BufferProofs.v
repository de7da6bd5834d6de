(** Proofs for BufferModel. *)
From Coq Require Import List ZArith Bool Lia.
From Verif Require Import Outcome WordsModel BigintModel BufferModel BufferSpec.
Import ListNotations.
Local Open Scope nat_scope.

Lemma upd_length {A} (l : list A) k v : length (upd l k v) = length l.
Proof. revert k. induction l as [|a l IH]; intros [|k]; cbn; auto. Qed.
Lemma upd_same {A} (l : list A) k v : k < length l -> nth_error (upd l k v) k = Some v.
Proof. revert k. induction l as [|a l IH]; intros [|k] H; cbn in *; try lia; auto. apply IH. lia. Qed.
Lemma upd_other {A} (l : list A) k v j : j <> k -> nth_error (upd l k v) j = nth_error l j.
Proof.
  revert k j. induction l as [|a l IH]; intros [|k] [|j] H; cbn; auto; try congruence.
Qed.
Lemma upd_nth {A} (l : list A) k v j : nth_error (upd l k v) j = if Nat.eqb j k then (if Nat.ltb k (length l) then Some v else None) else nth_error l j.
Proof.
  destruct (Nat.eqb_spec j k) as [->|N]; [|apply upd_other; exact N].
  destruct (Nat.ltb_spec k (length l)) as [H|H]; [apply upd_same; exact H|]. apply nth_error_None. rewrite upd_length. exact H.
Qed.
Lemma upd_map {A B} (f : A -> B) l k v : map f (upd l k v) = upd (map f l) k (f v).
Proof. revert k. induction l as [|a l IH]; intros [|k]; cbn; auto. f_equal. apply IH. Qed.
Lemma upd_id {A} (l : list A) k v : nth_error l k = Some v -> upd l k v = l.
Proof. revert k. induction l as [|a l IH]; intros [|k] H; cbn in *; try congruence. f_equal. auto. Qed.
Lemma changed_upd A i l : i < length A -> changed A i l (upd A i l).
Proof. intros H. split; [apply upd_length|]. split; [apply upd_same; exact H|]. intros j Hj. apply upd_other. exact Hj. Qed.
Lemma get_ok {A} (l : list A) i : i < length l -> exists a, nth_error l i = Some a /\ get l i = Ok a.
Proof.
  intros H. unfold get. destruct (nth_error l i) eqn:E; [eauto|]. apply nth_error_None in E. lia.
Qed.
Lemma nth_error_firstn {A} (l : list A) n k : k < n -> nth_error (firstn n l) k = nth_error l k.
Proof. revert n k. induction l as [|a l IH]; intros [|n] [|k] H; cbn; auto; try lia. apply IH. lia. Qed.
Lemma firstn_upd {A} (l : list A) n k v : firstn n (upd l k v) = upd (firstn n l) k v.
Proof. revert n k. induction l as [|a l IH]; intros [|n] [|k]; cbn; auto. f_equal. apply IH. Qed.

(** ** fixed_buffer *)
Definition fix_inv (N : nat) (s : list fixbuf) : Prop := Forall (fun b => length (xdata b) = N /\ xsize b <= N) s.
Lemma fix_inv_upd N s i b : fix_inv N s -> length (xdata b) = N -> xsize b <= N -> fix_inv N (upd s i b).
Proof.
  intros H H1 H2. apply Forall_forall. intros x Hx. apply In_nth_error in Hx. destruct Hx as (j & Hj). rewrite upd_nth in Hj.
  destruct (Nat.eqb j i).
  - destruct (Nat.ltb i (length s)); [|discriminate Hj]. injection Hj as <-. split; assumption.
  - unfold fix_inv in H. rewrite Forall_forall in H. apply H. eapply nth_error_In. exact Hj.
Qed.
Lemma fix_nth N s i b : fix_inv N s -> nth_error s i = Some b -> length (xdata b) = N /\ xsize b <= N.
Proof. intros H E. unfold fix_inv in H. rewrite Forall_forall in H. apply H. eapply nth_error_In. exact E. Qed.
Lemma fix_contents_length N s i b : fix_inv N s -> nth_error s i = Some b -> length (fix_contents b) = xsize b.
Proof. intros H E. destruct (fix_nth _ _ _ _ H E). unfold fix_contents. rewrite firstn_length. lia. Qed.

Lemma fix_step_spec N o s : fix_inv N s -> names o (length s) ->
  aspec (Some N) true o (map fix_contents s) (outcome_of (fix_step N o s)) (map fix_contents (state_of (fix_step N o s) s))
  /\ fix_inv N (state_of (fix_step N o s) s) /\ length (state_of (fix_step N o s) s) = length s.
Proof.
  intros Hi Hn. assert (L : length (map fix_contents s) = length s) by apply map_length.
  destruct o as [i n|i|i k v|i k|i j|i j|i j]; cbn [names] in Hn; cbn [fix_step].
  - destruct (get_ok s i Hn) as (b & E & G). rewrite G. cbn [bind]. unfold fix_resize. destruct (fix_nth _ _ _ _ Hi E) as [L1 L2].
    destruct (Nat.ltb_spec N n) as [HN|HN]; cbn [outcome_of state_of].
    + rewrite upd_id by exact E. split; [|split; [exact Hi|reflexivity]]. apply A_resize_fail. cbn. lia.
    + rewrite upd_map, upd_length. split; [|split; [apply fix_inv_upd; cbn; auto|reflexivity]].
      eapply A_resize with (l := fix_contents b) (l' := fix_contents (mkfix (xdata b) n)).
      * apply map_nth_error. exact E.
      * cbn. lia.
      * unfold fix_contents. cbn. rewrite firstn_length. lia.
      * intros k H1 H2. unfold fix_contents in *. cbn [xsize xdata] in *. rewrite firstn_length in H2. rewrite !nth_error_firstn by lia. reflexivity.
      * apply changed_upd. lia.
  - destruct (get_ok s i Hn) as (b & E & G). rewrite G. cbn [bind outcome_of state_of]. destruct (fix_nth _ _ _ _ Hi E) as [L1 L2].
    rewrite upd_map, upd_length. split; [|split; [apply fix_inv_upd; cbn; auto; lia|reflexivity]]. apply A_clear. apply changed_upd. lia.
  - destruct (get_ok s i Hn) as (b & E & G). rewrite G. cbn [bind]. destruct (fix_nth _ _ _ _ Hi E) as [L1 L2].
    pose proof (fix_contents_length _ _ _ _ Hi E) as Lc. pose proof (map_nth_error fix_contents i s E) as EA.
    unfold fix_write. destruct (Nat.ltb_spec k (xsize b)) as [Hk|Hk]; cbn [check bind].
    + destruct (nth_error (xdata b) k) eqn:EK; [|apply nth_error_None in EK; lia]. cbn [bind outcome_of state_of].
      rewrite upd_map, upd_length. split; [|split; [apply fix_inv_upd; cbn; auto; rewrite upd_length; exact L1|reflexivity]].
      assert (EQ : fix_contents (mkfix (upd (xdata b) k v) (xsize b)) = upd (fix_contents b) k v) by (unfold fix_contents; cbn; apply firstn_upd).
      rewrite EQ. eapply A_write with (l := fix_contents b) (l' := upd (fix_contents b) k v).
      * exact EA. * apply upd_length. * apply upd_same. lia. * intros m Hm. apply upd_other. exact Hm. * apply changed_upd. lia.
    + cbn [outcome_of state_of]. split; [|split; [exact Hi|reflexivity]]. eapply A_write_out; [exact EA|lia].
  - destruct (get_ok s i Hn) as (b & E & G). rewrite G. cbn [bind]. destruct (fix_nth _ _ _ _ Hi E) as [L1 L2].
    pose proof (fix_contents_length _ _ _ _ Hi E) as Lc. pose proof (map_nth_error fix_contents i s E) as EA.
    unfold fix_read. destruct (Nat.ltb_spec k (xsize b)) as [Hk|Hk]; cbn [check bind].
    + destruct (nth_error (xdata b) k) eqn:EK; [|apply nth_error_None in EK; lia]. cbn [bind outcome_of state_of].
      split; [|split; [exact Hi|reflexivity]]. eapply A_read; [exact EA|]. unfold fix_contents. rewrite nth_error_firstn by exact Hk. exact EK.
    + cbn [outcome_of state_of]. split; [|split; [exact Hi|reflexivity]]. eapply A_read_out; [exact EA|lia].
  - destruct Hn as [Hn1 Hn2]. destruct (get_ok s i Hn1) as (a & Ea & Ga). destruct (get_ok s j Hn2) as (b & E & G). rewrite Ga, G.
    cbn [bind outcome_of state_of]. destruct (fix_nth _ _ _ _ Hi E) as [L1 L2]. rewrite upd_map, upd_length.
    split; [|split; [apply fix_inv_upd; auto|reflexivity]]. eapply A_copy; [apply map_nth_error; exact E|apply changed_upd; lia].
  - destruct Hn as [Hn1 Hn2]. destruct (get_ok s i Hn1) as (a & Ea & Ga). destruct (get_ok s j Hn2) as (b & E & G). rewrite Ga, G.
    cbn [bind outcome_of state_of]. destruct (fix_nth _ _ _ _ Hi E) as [L1 L2]. rewrite upd_map, upd_length.
    split; [|split; [apply fix_inv_upd; auto|reflexivity]].
    pose proof (map_nth_error fix_contents j s E) as EA.
    destruct (Nat.eq_dec i j) as [<-|Nij].
    + rewrite upd_id by exact EA. eapply A_move_self. exact EA.
    + eapply A_move with (A1 := upd (map fix_contents s) i (fix_contents b)); [exact Nij|exact EA|apply changed_upd; lia|].
      split; [reflexivity|]. split; [rewrite upd_other by congruence; exact EA|reflexivity].
  - destruct Hn as [Hn1 Hn2]. destruct (get_ok s i Hn1) as (a & Ea & Ga). destruct (get_ok s j Hn2) as (b & E & G). rewrite Ga, G.
    cbn [bind outcome_of state_of]. destruct (fix_nth _ _ _ _ Hi E) as [L1 L2]. destruct (fix_nth _ _ _ _ Hi Ea) as [L1' L2'].
    rewrite !upd_map, !upd_length.
    split; [|split; [apply fix_inv_upd; auto; apply fix_inv_upd; auto|reflexivity]].
    eapply A_swap; [apply map_nth_error; exact Ea|apply map_nth_error; exact E|apply changed_upd; lia|apply changed_upd; rewrite upd_length; lia].
Qed.
Lemma fix_init_inv N n : fix_inv N (fix_init N n).
Proof. apply Forall_forall. intros x Hx. apply repeat_spec in Hx. subst. cbn. rewrite repeat_length. lia. Qed.

(** every operation of a run names existing objects *)
Lemma fix_run_inv N l : forall s s', fix_inv N s -> Forall (fun o => names o (length s)) l -> fix_run N l s = Ok s' ->
  fix_inv N s' /\ length s' = length s.
Proof.
  induction l as [|o l IH]; intros s s' Hi Hn E; cbn in E.
  - inversion E; subst. auto.
  - inversion Hn as [|? ? Ho Hl]; subst. destruct (fix_step_spec N o s Hi Ho) as (_ & H2 & H3).
    destruct (fix_step N o s) as [[r t]| | |]; try discriminate E. cbn [bind snd state_of] in *.
    destruct (IH t s' H2) as [I1 I2]; [rewrite H3; exact Hl|exact E|]. split; [exact I1|lia].
Qed.
Lemma fix_claim N n l s o : Forall (fun o => names o n) l -> fix_run N l (fix_init N n) = Ok s -> names o n ->
  aspec (Some N) true o (map fix_contents s) (outcome_of (fix_step N o s)) (map fix_contents (state_of (fix_step N o s) s)).
Proof.
  intros Hl E Ho. assert (Ln : length (fix_init N n) = n) by apply repeat_length.
  destruct (fix_run_inv N l _ s (fix_init_inv N n)) as [I1 I2]; [rewrite Ln; exact Hl|exact E|].
  apply fix_step_spec; [exact I1|]. rewrite I2, Ln. exact Ho.
Qed.

(** ** flexbuffer *)
Definition buf_ok (N : nat) (h : heap) (b : flexbuf) : Prop :=
  length (sd b) = N /\
  match dd b with
  | None => dsize b = 0 /\ fsize b <= N
  | Some a => exists d, block h a = Some d /\ length d = dsize b /\ N < dsize b /\ fsize b <= dsize b
  end.
Definition separate (l : list flexbuf) : Prop :=
  forall i j a bi bj, nth_error l i = Some bi -> nth_error l j = Some bj -> dd bi = Some a -> dd bj = Some a -> i = j.
Definition flex_inv (N : nat) (s : prog) : Prop :=
  (forall i b, nth_error (objs s) i = Some b -> buf_ok N (hp s) b) /\ separate (objs s).

Lemma block_lt h a d : block h a = Some d -> a < length h.
Proof. unfold block. intros H. apply nth_error_Some. destruct (nth_error h a) as [[x|]|]; congruence. Qed.
Lemma block_app h a d b : block h a = Some d -> block (h ++ [Some b]) a = Some d.
Proof. intros H. pose proof (block_lt _ _ _ H). unfold block in *. rewrite nth_error_app1 by assumption. exact H. Qed.
Lemma block_new h b : block (h ++ [Some b]) (length h) = Some b.
Proof. unfold block. rewrite nth_error_app2 by lia. rewrite Nat.sub_diag. reflexivity. Qed.
Lemma block_upd_other h a x p : p <> a -> block (upd h a x) p = block h p.
Proof. intros H. unfold block. rewrite upd_other by exact H. reflexivity. Qed.
Lemma block_upd_same h a d : a < length h -> block (upd h a (Some d)) a = Some d.
Proof. intros H. unfold block. rewrite upd_same by exact H. reflexivity. Qed.
Lemma fresh_length junk n : length (fresh junk n) = n.
Proof. unfold fresh. rewrite map_length, seq_length. reflexivity. Qed.
Lemma memcpy_ok dst src n : n <= length src -> n <= length dst -> memcpy dst src n = Ok (firstn n src ++ skipn n dst).
Proof. intros H1 H2. unfold memcpy. rewrite (proj2 (Nat.leb_le _ _) H1), (proj2 (Nat.leb_le _ _) H2). reflexivity. Qed.

(** [h'] agrees with [h] on the blocks other than [own] *)
Definition frame (h h' : heap) (own : option nat) : Prop :=
  forall p d, block h p = Some d -> own <> Some p -> block h' p = Some d.
(** the block of b' is b's or new *)
Definition owned (h : heap) (b b' : flexbuf) : Prop :=
  forall p, dd b' = Some p -> dd b = Some p \/ length h <= p.

Lemma contents_frame N h h' own b : buf_ok N h b -> frame h h' own -> (forall p, dd b = Some p -> own <> Some p) ->
  flex_contents h' b = flex_contents h b /\ buf_ok N h' b.
Proof.
  intros (L & H) F Hd. unfold flex_contents, buf_ok. destruct (dd b) as [a|] eqn:E; [|auto].
  destruct H as (d & H1 & H2 & H3). rewrite H1, (F a d H1) by (apply Hd; reflexivity). split; [reflexivity|]. split; [exact L|]. exists d. auto.
Qed.

(** updating one object *)
Lemma update_one N s i b b' h' : flex_inv N s -> nth_error (objs s) i = Some b -> buf_ok N h' b' -> frame (hp s) h' (dd b) -> owned (hp s) b b' ->
  flex_inv N (mkprog (upd (objs s) i b') h') /\ contents (mkprog (upd (objs s) i b') h') = upd (contents s) i (flex_contents h' b').
Proof.
  intros [HI HS] E Hb F O. assert (Li : i < length (objs s)) by (apply nth_error_Some; congruence).
  assert (OTH : forall j bj, j <> i -> nth_error (objs s) j = Some bj -> flex_contents h' bj = flex_contents (hp s) bj /\ buf_ok N h' bj).
  { intros j bj Nj Ej. eapply contents_frame; [apply (HI j bj Ej)|exact F|]. intros p Ep Eb. apply Nj. eapply HS; eauto. }
  split; [split|].
  - intros j bj Ej. cbn [objs hp] in *. rewrite upd_nth in Ej. destruct (Nat.eqb_spec j i) as [->|Nj].
    + rewrite (proj2 (Nat.ltb_lt _ _) Li) in Ej. inversion Ej; subst. exact Hb.
    + apply (OTH j bj Nj Ej).
  - cbn [objs]. intros j k a bj bk Ej Ek Dj Dk. rewrite upd_nth in Ej, Ek. rewrite (proj2 (Nat.ltb_lt _ _) Li) in Ej, Ek.
    assert (X : forall m bm, m <> i -> nth_error (objs s) m = Some bm -> dd bm = Some a -> dd b' = Some a -> False).
    { intros m bm Nm Em Dm Db. destruct (O a Db) as [Ob|Ob]; [apply Nm; eapply HS; eauto|].
      destruct (HI m bm Em) as (_ & H). rewrite Dm in H. destruct H as (d & H & _). apply block_lt in H. lia. }
    destruct (Nat.eqb_spec j i) as [->|Nj]; destruct (Nat.eqb_spec k i) as [->|Nk]; auto.
    + inversion Ej; subst. exfalso. eapply X; eauto.
    + inversion Ek; subst. exfalso. eapply X; eauto.
    + eapply HS; eauto.
  - unfold contents. cbn [objs hp]. rewrite upd_map. apply nth_ext with (d := []) (d' := []).
    { rewrite !upd_length, !map_length. reflexivity. }
    intros j Hj. rewrite upd_length, map_length in Hj.
    assert (G : forall (l l' : arrays), nth_error l j = nth_error l' j -> nth j l [] = nth j l' []).
    { intros l l' H. destruct (nth_error l j) eqn:E1; symmetry in H.
      - rewrite (nth_error_nth _ _ _ E1), (nth_error_nth _ _ _ H). reflexivity.
      - apply nth_error_None in E1. apply nth_error_None in H. rewrite !nth_overflow by assumption. reflexivity. }
    apply G. rewrite !upd_nth, !map_length. destruct (Nat.eqb_spec j i) as [->|Nj]; [reflexivity|].
    destruct (nth_error (objs s) j) as [bj|] eqn:Ej; [|apply nth_error_None in Ej; lia].
    rewrite (map_nth_error _ _ _ Ej), (map_nth_error _ _ _ Ej). f_equal. apply (OTH j bj Nj Ej).
Qed.

Definition data_of (h : heap) (b : flexbuf) : list Z :=
  match dd b with Some p => match block h p with Some d => d | None => [] end | None => sd b end.
Lemma contents_data h b : flex_contents h b = firstn (fsize b) (data_of h b).
Proof. reflexivity. Qed.
Lemma data_ok N h b : buf_ok N h b -> flex_data h b = Ok (data_of h b) /\ fsize b <= length (data_of h b) /\ N <= length (data_of h b).
Proof.
  intros (L & H). unfold flex_data, data_of. destruct (dd b) as [a|].
  - destruct H as (d & H1 & H2 & H3 & H4). rewrite H1. split; [reflexivity|lia].
  - split; [reflexivity|lia].
Qed.
Lemma contents_length N h b : buf_ok N h b -> length (flex_contents h b) = fsize b.
Proof. intros H. rewrite contents_data, firstn_length. destruct (data_ok _ _ _ H) as (_ & H1 & _). lia. Qed.

Lemma frame_refl h own : frame h h own.
Proof. intros p d H _. exact H. Qed.
Lemma owned_same h b b' : dd b' = dd b -> owned h b b'.
Proof. intros E p H. left. congruence. Qed.

Lemma flex_resize_spec N junk h b n : buf_ok N h b ->
  exists h' b', flex_resize N junk h b n = Ok (h', b') /\ buf_ok N h' b' /\ fsize b' = n /\ frame h h' (dd b) /\ owned h b b' /\
    (forall k, k < n -> k < fsize b -> nth_error (flex_contents h' b') k = nth_error (flex_contents h b) k).
Proof.
  intros Hb. pose proof Hb as (L & H). unfold flex_resize.
  destruct (Nat.ltb_spec N n) as [H1|H1]; cbn [andb].
  - destruct (Nat.ltb_spec (dsize b) n) as [H2|H2].
    + destruct (dd b) as [a|] eqn:Ed.
      * destruct H as (d & B1 & B2 & B3 & B4). rewrite B1. rewrite memcpy_ok by (rewrite ?fresh_length; lia). cbn [bind].
        unfold alloc, free.
        set (blk := firstn (dsize b + Nat.max N n - Nat.max N n) d ++ skipn (dsize b + Nat.max N n - Nat.max N n) (fresh junk (dsize b + Nat.max N n))).
        assert (LB : length blk = dsize b + Nat.max N n).
        { unfold blk. rewrite app_length, firstn_length, skipn_length, fresh_length. lia. }
        rewrite (block_app _ _ _ (blk) B1). cbn [bind].
        pose proof (block_lt _ _ _ B1) as La.
        assert (BN : block (upd (h ++ [Some blk]) a None) (length h) = Some blk) by (rewrite block_upd_other by lia; apply block_new).
        eexists. eexists. split; [reflexivity|]. split; [|split; [reflexivity|split; [|split]]].
        -- split; [exact L|]. cbn [dd dsize fsize]. exists blk. split; [exact BN|]. lia.
        -- intros p x Hx Hp. rewrite block_upd_other by congruence. apply block_app. exact Hx.
        -- intros p Hp. cbn in Hp. inversion Hp. right. lia.
        -- intros k K1 K2. unfold flex_contents. cbn [dd fsize]. rewrite BN, Ed, B1. rewrite !nth_error_firstn by lia.
           unfold blk. replace (dsize b + Nat.max N n - Nat.max N n) with (dsize b) by lia.
           rewrite nth_error_app1 by (rewrite firstn_length; lia). apply nth_error_firstn. lia.
      * destruct H as (D0 & D1). rewrite memcpy_ok by (rewrite ?fresh_length; lia). cbn [bind]. unfold alloc.
        set (blk := firstn N (sd b) ++ skipn N (fresh junk (dsize b + Nat.max N n))).
        assert (LB : length blk = dsize b + Nat.max N n).
        { unfold blk. rewrite app_length, firstn_length, skipn_length, fresh_length. lia. }
        eexists. eexists. split; [reflexivity|]. split; [|split; [reflexivity|split; [|split]]].
        -- split; [exact L|]. cbn [dd dsize fsize]. exists blk. split; [apply block_new|]. lia.
        -- intros p x Hx Hp. apply block_app. exact Hx.
        -- intros p Hp. cbn in Hp. inversion Hp. right. lia.
        -- intros k K1 K2. unfold flex_contents. cbn [dd fsize]. rewrite block_new, Ed. rewrite !nth_error_firstn by lia.
           unfold blk. rewrite nth_error_app1 by (rewrite firstn_length; lia). apply nth_error_firstn. lia.
    + eexists. eexists. split; [reflexivity|]. split; [|split; [reflexivity|split; [apply frame_refl|split; [apply owned_same; reflexivity|]]]].
      * split; [exact L|]. cbn [dd dsize fsize]. destruct (dd b) as [a|]; [|lia]. destruct H as (d & H). exists d. intuition lia.
      * intros k K1 K2. unfold flex_contents. cbn [dd fsize sd]. rewrite !nth_error_firstn by lia. reflexivity.
  - eexists. eexists. split; [reflexivity|]. split; [|split; [reflexivity|split; [apply frame_refl|split; [apply owned_same; reflexivity|]]]].
    + split; [exact L|]. cbn [dd dsize fsize]. destruct (dd b) as [a|]; [|lia]. destruct H as (d & H). exists d. intuition lia.
    + intros k K1 K2. unfold flex_contents. cbn [dd fsize sd]. rewrite !nth_error_firstn by lia. reflexivity.
Qed.

Lemma flex_clear_spec N h b : buf_ok N h b ->
  exists h', flex_clear h b = Ok (h', mkflex (sd b) None 0 0) /\ length h' = length h /\ frame h h' (dd b).
Proof.
  intros (L & H). unfold flex_clear. destruct (dd b) as [a|].
  - destruct H as (d & H1 & _). unfold free. rewrite H1. cbn [bind]. eexists. split; [reflexivity|]. split; [apply upd_length|].
    intros p x Hx Hp. rewrite block_upd_other by congruence. exact Hx.
  - eexists. split; [reflexivity|]. split; [reflexivity|]. apply frame_refl.
Qed.

Lemma flex_dup_spec N junk h r : buf_ok N h r ->
  exists h' b', flex_dup junk h r = Ok (h', b') /\ buf_ok N h' b' /\ frame h h' None /\ (forall p, dd b' = Some p -> length h <= p) /\
    flex_contents h' b' = flex_contents h r.
Proof.
  intros Hb. pose proof Hb as (L & H). unfold flex_dup. destruct (dd r) as [a|] eqn:Ed.
  - destruct H as (d & H1 & H2 & H3 & H4). rewrite H1. rewrite memcpy_ok by (rewrite ?fresh_length; lia). cbn [bind]. unfold alloc.
    assert (Eb : firstn (dsize r) d ++ skipn (dsize r) (fresh junk (dsize r)) = d).
    { rewrite firstn_all2 by lia. rewrite skipn_all2 by (rewrite fresh_length; lia). apply app_nil_r. }
    rewrite Eb. eexists. eexists. split; [reflexivity|]. split; [|split; [|split]].
    + split; [exact L|]. cbn [dd dsize fsize]. exists d. split; [apply block_new|]. lia.
    + intros p x Hx _. apply block_app. exact Hx.
    + intros p Hp. cbn in Hp. inversion Hp. lia.
    + unfold flex_contents. cbn [dd fsize]. rewrite block_new, Ed, H1. reflexivity.
  - eexists. eexists. split; [reflexivity|]. split; [|split; [apply frame_refl|split]].
    + split; [exact L|]. cbn. exact H.
    + intros p Hp. discriminate Hp.
    + unfold flex_contents. cbn [dd fsize sd]. rewrite Ed. reflexivity.
Qed.

Lemma flex_step_spec N junk o s : flex_inv N s -> names o (length (objs s)) ->
  aspec None false o (contents s) (outcome_of (flex_step N junk o s)) (contents (state_of (flex_step N junk o s) s))
  /\ flex_inv N (state_of (flex_step N junk o s) s) /\ length (objs (state_of (flex_step N junk o s) s)) = length (objs s).
Proof.
  intros Hi Hn. pose proof Hi as [HI HS]. assert (LC : length (contents s) = length (objs s)) by apply map_length.
  assert (EC : forall i b, nth_error (objs s) i = Some b -> nth_error (contents s) i = Some (flex_contents (hp s) b)) by (intros i b E; apply map_nth_error; exact E).
  destruct o as [i n|i|i k v|i k|i j|i j|i j]; cbn [names] in Hn; cbn [flex_step].
  - destruct (get_ok (objs s) i Hn) as (b & E & G). rewrite G. cbn [bind].
    destruct (flex_resize_spec N junk (hp s) b n (HI i b E)) as (h' & b' & R & B1 & B2 & B3 & B4 & B5). rewrite R. cbn [bind outcome_of state_of].
    destruct (update_one N s i b b' h' Hi E B1 B3 B4) as [U1 U2]. rewrite U2. split; [|split; [exact U1|apply upd_length]].
    eapply A_resize with (l := flex_contents (hp s) b) (l' := flex_contents h' b'); [apply EC; exact E|exact I|rewrite (contents_length N) by exact B1; exact B2| |apply changed_upd; lia].
    intros k K1 K2. apply B5; [exact K1|]. rewrite (contents_length N) in K2 by (apply (HI i b E)). exact K2.
  - destruct (get_ok (objs s) i Hn) as (b & E & G). rewrite G. cbn [bind].
    destruct (flex_clear_spec N (hp s) b (HI i b E)) as (h' & R & Lh & F). rewrite R. cbn [bind outcome_of state_of].
    destruct (update_one N s i b (mkflex (sd b) None 0 0) h' Hi E) as [U1 U2].
    { split; [apply (HI i b E)|]. cbn. lia. } { exact F. } { intros p Hp. discriminate Hp. }
    rewrite U2. split; [|split; [exact U1|apply upd_length]]. apply A_clear. apply changed_upd. lia.
  - destruct (get_ok (objs s) i Hn) as (b & E & G). rewrite G. cbn [bind]. unfold flex_write.
    pose proof (HI i b E) as Hb. pose proof (contents_length _ _ _ Hb) as Lc. destruct (data_ok _ _ _ Hb) as (D1 & D2 & D3).
    destruct (Nat.ltb_spec k (fsize b)) as [Hk|Hk]; cbn [check bind].
    + rewrite D1. cbn [bind]. destruct (get_ok (data_of (hp s) b) k) as (w & _ & G2); [lia|]. rewrite G2. cbn [bind].
      unfold flex_put. destruct (dd b) as [a|] eqn:Ed.
      * assert (Hd : exists d, block (hp s) a = Some d /\ length d = dsize b /\ N < dsize b /\ fsize b <= dsize b) by (destruct Hb as (_ & H); rewrite Ed in H; exact H).
        destruct Hd as (d & H1 & H2 & H3 & H4). assert (DD : data_of (hp s) b = d) by (unfold data_of; rewrite Ed, H1; reflexivity). rewrite DD in *.
        cbn [bind outcome_of state_of]. pose proof (block_lt _ _ _ H1) as La.
        assert (BU : block (upd (hp s) a (Some (upd d k v))) a = Some (upd d k v)) by (apply block_upd_same; exact La).
        destruct (update_one N s i b b (upd (hp s) a (Some (upd d k v))) Hi E) as [U1 U2].
        { split; [apply Hb|]. rewrite Ed. exists (upd d k v). rewrite upd_length. auto. }
        { intros p x Hx Hp. rewrite block_upd_other by congruence. exact Hx. } { apply owned_same. reflexivity. }
        rewrite U2. split; [|split; [exact U1|apply upd_length]].
        assert (EQ : flex_contents (upd (hp s) a (Some (upd d k v))) b = upd (flex_contents (hp s) b) k v).
        { unfold flex_contents. rewrite Ed, BU, H1. apply firstn_upd. }
        rewrite EQ. eapply A_write with (l := flex_contents (hp s) b); [apply EC; exact E|apply upd_length|apply upd_same; lia|intros m Hm; apply upd_other; exact Hm|apply changed_upd; lia].
      * cbn [bind outcome_of state_of]. assert (DD : data_of (hp s) b = sd b) by (unfold data_of; rewrite Ed; reflexivity). rewrite DD in *.
        destruct (update_one N s i b (mkflex (upd (sd b) k v) None (fsize b) (dsize b)) (hp s) Hi E) as [U1 U2].
        { destruct Hb as (L & H). rewrite Ed in H. split; [cbn; rewrite upd_length; exact L|]. cbn. exact H. }
        { apply frame_refl. } { intros p Hp. discriminate Hp. }
        rewrite U2. split; [|split; [exact U1|apply upd_length]].
        assert (EQ : flex_contents (hp s) (mkflex (upd (sd b) k v) None (fsize b) (dsize b)) = upd (flex_contents (hp s) b) k v).
        { unfold flex_contents. cbn [dd fsize sd]. rewrite Ed. apply firstn_upd. }
        rewrite EQ. eapply A_write with (l := flex_contents (hp s) b); [apply EC; exact E|apply upd_length|apply upd_same; lia|intros m Hm; apply upd_other; exact Hm|apply changed_upd; lia].
    + cbn [outcome_of state_of]. split; [|split; [exact Hi|reflexivity]]. eapply A_write_out; [apply EC; exact E|lia].
  - destruct (get_ok (objs s) i Hn) as (b & E & G). rewrite G. cbn [bind]. unfold flex_read.
    pose proof (HI i b E) as Hb. pose proof (contents_length _ _ _ Hb) as Lc. destruct (data_ok _ _ _ Hb) as (D1 & D2 & D3).
    destruct (Nat.ltb_spec k (fsize b)) as [Hk|Hk]; cbn [check bind].
    + rewrite D1. cbn [bind]. destruct (get_ok (data_of (hp s) b) k) as (w & Ew & G2); [lia|]. rewrite G2. cbn [bind outcome_of state_of].
      split; [|split; [exact Hi|reflexivity]]. eapply A_read; [apply EC; exact E|]. rewrite contents_data, nth_error_firstn by exact Hk. exact Ew.
    + cbn [outcome_of state_of]. split; [|split; [exact Hi|reflexivity]]. eapply A_read_out; [apply EC; exact E|lia].
  - destruct Hn as [Hn1 Hn2]. destruct (get_ok (objs s) i Hn1) as (b & E & G). destruct (get_ok (objs s) j Hn2) as (r & Er & Gr). rewrite G, Gr. cbn [bind].
    destruct (Nat.eqb_spec i j) as [<-|Nij].
    + cbn [outcome_of state_of]. split; [|split; [exact Hi|reflexivity]]. eapply A_copy; [apply EC; exact E|].
      split; [reflexivity|]. split; [apply EC; exact E|reflexivity].
    + destruct (flex_clear_spec N (hp s) b (HI i b E)) as (h1 & R & Lh & F). rewrite R. cbn [bind fst].
      destruct (contents_frame N (hp s) h1 (dd b) r (HI j r Er) F) as [C1 C2].
      { intros p Hp Hb. apply Nij. eapply HS; eauto. }
      destruct (flex_dup_spec N junk h1 r C2) as (h2 & b2 & R2 & B1 & B2 & B3 & B4). rewrite R2. cbn [bind outcome_of state_of].
      destruct (update_one N s i b b2 h2 Hi E B1) as [U1 U2].
      { intros p d Hp Hb. apply B2; [apply F; assumption|discriminate]. }
      { intros p Hp. right. specialize (B3 p Hp). lia. }
      rewrite U2. split; [|split; [exact U1|apply upd_length]]. rewrite B4, C1. eapply A_copy; [apply EC; exact Er|apply changed_upd; lia].
  - destruct Hn as [Hn1 Hn2]. destruct (get_ok (objs s) i Hn1) as (b & E & G). destruct (get_ok (objs s) j Hn2) as (r & Er & Gr). rewrite G, Gr. cbn [bind].
    destruct (Nat.eqb_spec i j) as [<-|Nij].
    + cbn [outcome_of state_of]. split; [|split; [exact Hi|reflexivity]]. eapply A_move_self. apply EC. exact E.
    + destruct (flex_clear_spec N (hp s) b (HI i b E)) as (h1 & R & Lh & F). rewrite R. cbn [bind fst outcome_of state_of].
      assert (OTH : forall m x, m <> i -> nth_error (objs s) m = Some x -> flex_contents h1 x = flex_contents (hp s) x /\ buf_ok N h1 x).
      { intros m x Nm Em. eapply contents_frame; [apply (HI m x Em)|exact F|]. intros p Hp Hb. apply Nm. eapply HS; eauto. }
      destruct (OTH j r (not_eq_sym Nij) Er) as [C1 C2].
      set (b0 := mkflex (sd r) None 0 0). set (l := upd (upd (objs s) i r) j b0).
      assert (LL : length l = length (objs s)) by (unfold l; rewrite !upd_length; reflexivity).
      assert (NL : forall m, nth_error l m = if Nat.eqb m j then Some b0 else if Nat.eqb m i then Some r else nth_error (objs s) m).
      { intros m. unfold l. rewrite !upd_nth, upd_length. rewrite (proj2 (Nat.ltb_lt _ _) Hn1), (proj2 (Nat.ltb_lt _ _) Hn2). reflexivity. }
      split; [|split; [split|exact LL]].
      * eapply A_move with (l := flex_contents (hp s) r) (A1 := upd (contents s) i (flex_contents (hp s) r)); [exact Nij|apply EC; exact Er|apply changed_upd; lia|].
        assert (NC : forall m, nth_error (contents (mkprog l h1)) m = option_map (flex_contents h1) (nth_error l m)) by (intros m; unfold contents; cbn; apply nth_error_map).
        split; [unfold contents; cbn [objs]; rewrite upd_length, !map_length; exact LL|]. split.
        -- rewrite NC, NL, Nat.eqb_refl. reflexivity.
        -- intros m Hm. rewrite NC, NL. rewrite (proj2 (Nat.eqb_neq m j) Hm). rewrite upd_nth.
           rewrite (proj2 (Nat.ltb_lt i (length (contents s)))) by lia.
           destruct (Nat.eqb_spec m i) as [->|Nm]; cbn [option_map]; [rewrite C1; reflexivity|].
           unfold contents. rewrite nth_error_map. destruct (nth_error (objs s) m) as [x|] eqn:Em; cbn; [|reflexivity]. f_equal. apply (OTH m x Nm Em).
      * cbn [objs hp]. intros m x Em. rewrite NL in Em. destruct (Nat.eqb_spec m j) as [->|Nj].
        { inversion Em; subst x. split; [apply C2|]. cbn. lia. }
        destruct (Nat.eqb_spec m i) as [->|Nm]; [inversion Em; subst x; exact C2|]. apply (OTH m x Nm Em).
      * cbn [objs]. intros m m' a x x' Em Em' D D'. rewrite NL in Em, Em'.
        destruct (Nat.eqb_spec m j) as [->|Nj]; [inversion Em; subst x; discriminate D|].
        destruct (Nat.eqb_spec m' j) as [->|Nj']; [inversion Em'; subst x'; discriminate D'|].
        destruct (Nat.eqb_spec m i) as [->|Nm]; destruct (Nat.eqb_spec m' i) as [->|Nm']; auto.
        -- inversion Em; subst x. exfalso. apply Nj'. eapply HS; eauto.
        -- inversion Em'; subst x'. exfalso. apply Nj. eapply HS; eauto.
        -- eapply HS; eauto.
  - destruct Hn as [Hn1 Hn2]. destruct (get_ok (objs s) i Hn1) as (b & E & G). destruct (get_ok (objs s) j Hn2) as (r & Er & Gr). rewrite G, Gr. cbn [bind outcome_of state_of].
    assert (NL : forall m, nth_error (upd (upd (objs s) i r) j b) m = if Nat.eqb m j then Some b else if Nat.eqb m i then Some r else nth_error (objs s) m).
    { intros m. rewrite !upd_nth, upd_length. rewrite (proj2 (Nat.ltb_lt _ _) Hn1), (proj2 (Nat.ltb_lt _ _) Hn2). reflexivity. }
    split; [|split; [split|cbn; rewrite !upd_length; reflexivity]].
    + assert (Q : contents (mkprog (upd (upd (objs s) i r) j b) (hp s)) = upd (upd (contents s) i (flex_contents (hp s) r)) j (flex_contents (hp s) b)).
      { unfold contents. cbn [objs hp]. rewrite !upd_map. reflexivity. }
      rewrite Q. eapply A_swap; [apply EC; exact E|apply EC; exact Er|apply changed_upd; lia|apply changed_upd; rewrite upd_length; lia].
    + cbn [objs hp]. intros m x Em. rewrite NL in Em. destruct (Nat.eqb m j); [inversion Em; subst; eauto|]. destruct (Nat.eqb m i); [inversion Em; subst; eauto|]. eauto.
    + cbn [objs]. intros m m' a x x' Em Em' D D'. rewrite NL in Em, Em'.
      assert (T : forall q, nth_error (objs s) (if Nat.eqb q j then i else if Nat.eqb q i then j else q) = (if Nat.eqb q j then Some b else if Nat.eqb q i then Some r else nth_error (objs s) q)).
      { intros q. destruct (Nat.eqb q j); [exact E|]. destruct (Nat.eqb q i); [exact Er|reflexivity]. }
      rewrite <- T in Em, Em'. pose proof (HS _ _ _ _ _ Em Em' D D') as Q.
      destruct (Nat.eqb_spec m j); destruct (Nat.eqb_spec m' j); destruct (Nat.eqb_spec m i); destruct (Nat.eqb_spec m' i); congruence.
Qed.
Lemma flex_init_inv N n : flex_inv N (flex_init N n).
Proof.
  split.
  - intros i b E. cbn [objs flex_init] in E. apply nth_error_In in E. apply repeat_spec in E. subst b. split; [apply repeat_length|]. cbn. lia.
  - intros i j a bi bj E _ D _. cbn [objs flex_init] in E. apply nth_error_In in E. apply repeat_spec in E. subst bi. discriminate D.
Qed.
Lemma flex_run_inv N l : forall s s', flex_inv N s -> Forall (fun o => names (fst o) (length (objs s))) l -> flex_run N l s = Ok s' ->
  flex_inv N s' /\ length (objs s') = length (objs s).
Proof.
  induction l as [|[o junk] l IH]; intros s s' Hi Hn E; cbn in E.
  - inversion E; subst. auto.
  - inversion Hn as [|? ? Ho Hl]; subst. cbn [fst] in Ho. destruct (flex_step_spec N junk o s Hi Ho) as (_ & H2 & H3).
    destruct (flex_step N junk o s) as [[r t]| | |]; try discriminate E. cbn [bind snd state_of] in *.
    destruct (IH t s' H2) as [I1 I2]; [rewrite H3; exact Hl|exact E|]. split; [exact I1|lia].
Qed.
Lemma flex_claim N n l s o junk : Forall (fun q => names (fst q) n) l -> flex_run N l (flex_init N n) = Ok s -> names o n ->
  aspec None false o (contents s) (outcome_of (flex_step N junk o s)) (contents (state_of (flex_step N junk o s) s)).
Proof.
  intros Hl E Ho. assert (Ln : length (objs (flex_init N n)) = n) by apply repeat_length.
  destruct (flex_run_inv N l _ s (flex_init_inv N n)) as [I1 I2]; [rewrite Ln; exact Hl|exact E|].
  apply flex_step_spec; [exact I1|]. rewrite I2, Ln. exact Ho.
Qed.

(** ** uadd on heap buffers *)
Lemma add_loop_length x : forall y c, length x = length y -> length (fst (add_loop x y c)) = length x.
Proof.
  induction x as [|u x IH]; intros [|v y] c H; cbn [add_loop length] in *; try discriminate; auto.
  specialize (IH y ((u + v + c) mod W64 / B)%Z (eq_add_S _ _ H)). destruct (add_loop x y _) as [r c']. cbn [fst length] in *. lia.
Qed.
Lemma add_one_length y : length (fst (add_one y)) = length y.
Proof.
  induction y as [|a y IH]; [reflexivity|]. cbn [add_one]. cbv zeta. destruct (_ =? 0)%Z; [|reflexivity]. destruct (add_one y). cbn [fst length] in *. lia.
Qed.
Lemma add_word_length y : forall x, length (fst (add_word y x)) = length y.
Proof.
  intros x. destruct y as [|a y]; [reflexivity|]. cbn [add_word]. cbv zeta. destruct (_ >=? _)%Z; [reflexivity|].
  pose proof (add_one_length y). destruct (add_one y). cbn [fst length] in *. lia.
Qed.
Lemma uadd_words_length x y : length (uadd_words x y) = S (Nat.max (length x) (length y)).
Proof.
  unfold uadd_words.
  assert (G : forall a b : list Z, length b <= length a ->
    length (let yn := length b in let '(lo, c) := add_n (firstn yn a) b in
      if Nat.ltb yn (length a) then let '(hi, c') := add_word (skipn yn a) c in lo ++ hi ++ [c'] else lo ++ [c]) = S (length a)).
  { intros a b H. cbv zeta. pose proof (add_loop_length (firstn (length b) a) b 0%Z) as A. unfold add_n.
    rewrite firstn_length in A. specialize (A ltac:(lia)). destruct (add_loop _ b 0%Z) as [lo c]. cbn [fst] in A.
    destruct (Nat.ltb_spec (length b) (length a)).
    - pose proof (add_word_length (skipn (length b) a) c) as W. destruct (add_word _ c) as [hi c']. cbn [fst] in W.
      rewrite skipn_length in W. rewrite !app_length. cbn [length]. lia.
    - rewrite app_length. cbn [length]. lia. }
  destruct (Nat.ltb_spec (length x) (length y)) as [H|H]; rewrite G by lia; lia.
Qed.

Lemma upd_upd {A} (l : list A) k v w : upd (upd l k v) k w = upd l k w.
Proof. revert k. induction l as [|a l IH]; intros [|k]; cbn; auto. f_equal. apply IH. Qed.

Definition ptr_of (b : flexbuf) (i : nat) : ptr := match dd b with Some a => PHeap a | None => PStack i end.
Lemma first_ptr_ok s i b : nth_error (objs s) i = Some b -> 0 < fsize b -> first_ptr s i = Ok (ptr_of b i).
Proof. intros E H. unfold first_ptr, get. rewrite E. cbn [bind]. rewrite (proj2 (Nat.ltb_lt _ _) H). reflexivity. Qed.

Lemma save_ok N s z b ws : flex_inv N s -> nth_error (objs s) z = Some b -> length ws = fsize b ->
  exists s', save s (ptr_of b z) ws = Ok s' /\ flex_inv N s' /\ contents s' = upd (contents s) z ws /\ length (objs s') = length (objs s).
Proof.
  intros Hi E L. pose proof (proj1 Hi z b E) as Hb. pose proof Hb as (Ls & H). unfold ptr_of. destruct (dd b) as [a|] eqn:Ed; cbn [save].
  - destruct H as (d & H1 & H2 & H3 & H4). rewrite H1, memcpy_ok by lia. cbn [bind]. eexists. split; [reflexivity|].
    rewrite firstn_all2 by lia. set (d' := ws ++ skipn (length ws) d).
    assert (Ld : length d' = dsize b) by (unfold d'; rewrite app_length, skipn_length; lia).
    pose proof (block_upd_same (hp s) a d' (block_lt _ _ _ H1)) as BU.
    destruct (update_one N s z b b (upd (hp s) a (Some d')) Hi E) as [U1 U2].
    { split; [exact Ls|]. rewrite Ed. exists d'. auto. }
    { intros p x Hx Hp. rewrite block_upd_other by congruence. exact Hx. } { apply owned_same. reflexivity. }
    rewrite upd_id in U1, U2 by exact E. split; [exact U1|]. split; [|reflexivity]. rewrite U2. f_equal. unfold flex_contents. rewrite Ed, BU.
    rewrite <- L. unfold d'. rewrite firstn_app, Nat.sub_diag, firstn_all, app_nil_r. reflexivity.
  - unfold get. rewrite E. cbn [bind]. rewrite memcpy_ok by lia. cbn [bind]. eexists. split; [reflexivity|].
    rewrite firstn_all2 by lia. set (d' := ws ++ skipn (length ws) (sd b)).
    assert (Ld : length d' = N) by (unfold d'; rewrite app_length, skipn_length; lia).
    destruct (update_one N s z b (mkflex d' (dd b) (fsize b) (dsize b)) (hp s) Hi E) as [U1 U2].
    { split; [exact Ld|]. cbn. rewrite Ed. exact H. } { apply frame_refl. } { apply owned_same. reflexivity. }
    split; [exact U1|]. split; [|apply upd_length]. rewrite U2. f_equal. unfold flex_contents. cbn [dd sd fsize]. rewrite Ed.
    rewrite <- L. unfold d'. rewrite firstn_app, Nat.sub_diag, firstn_all, app_nil_r. reflexivity.
Qed.

(** resizing b to n words moves an existing heap block *)
Definition regrows (N : nat) (b : flexbuf) (n : nat) : Prop := dd b <> None /\ N < n /\ dsize b < n.
Lemma resize_sd N junk h b n h' b' : flex_resize N junk h b n = Ok (h', b') -> sd b' = sd b.
Proof.
  unfold flex_resize. destruct (_ && _); [|intros E; inversion E; reflexivity]. destruct (dd b) as [a|].
  - destruct (block h a); [|discriminate]. destruct (memcpy _ _ _); cbn [bind]; try discriminate. unfold alloc. destruct (free _ a); cbn [bind]; try discriminate.
    intros E. inversion E. reflexivity.
  - destruct (memcpy _ _ _); cbn [bind]; try discriminate. unfold alloc. intros E. inversion E. reflexivity.
Qed.
Lemma resize_stays N junk h b n a : dd b = Some a -> ~ regrows N b n -> flex_resize N junk h b n = Ok (h, mkflex (sd b) (dd b) n (dsize b)).
Proof.
  intros E H. unfold flex_resize. destruct (Nat.ltb_spec N n) as [H1|H1]; [|reflexivity]. destruct (Nat.ltb_spec (dsize b) n) as [H2|H2]; [|reflexivity].
  exfalso. apply H. split; [congruence|auto].
Qed.

Lemma load_ok N junk s z bz n h' b' x bx m : flex_inv N s -> nth_error (objs s) z = Some bz -> nth_error (objs s) x = Some bx ->
  flex_resize N junk (hp s) bz n = Ok (h', b') -> frame (hp s) h' (dd bz) -> (z = x -> ~ regrows N bz n) -> m <= fsize bx ->
  load (mkprog (upd (objs s) z b') h') (ptr_of bx x) m = Ok (firstn m (flex_contents (hp s) bx)).
Proof.
  intros Hi Ez Ex R F Hz Hm. pose proof (proj1 Hi x bx Ex) as (Ls & H). unfold ptr_of, flex_contents.
  assert (Lz : z < length (objs s)) by (apply nth_error_Some; congruence).
  rewrite firstn_firstn, Nat.min_l by exact Hm. destruct (dd bx) as [a|] eqn:Ed; cbn [load objs hp].
  - destruct H as (d & H1 & H2 & H3 & H4). rewrite H1. assert (Bh : block h' a = Some d).
    { destruct (Nat.eq_dec z x) as [<-|Nx].
      - assert (bz = bx) by congruence. subst bz. rewrite (resize_stays _ _ _ _ _ a Ed (Hz eq_refl)) in R. inversion R; subst. exact H1.
      - apply F; [exact H1|]. intros Q. apply Nx. eapply (proj2 Hi); eauto. }
    rewrite Bh. rewrite (proj2 (Nat.leb_le m (length d))) by lia. reflexivity.
  - unfold get. rewrite upd_nth, (proj2 (Nat.ltb_lt _ _) Lz). destruct (Nat.eqb_spec x z) as [->|Nx].
    + cbn [bind]. assert (bz = bx) by congruence. subst bz. rewrite (resize_sd _ _ _ _ _ _ _ R). rewrite (proj2 (Nat.leb_le m _)) by lia. reflexivity.
    + rewrite Ex. cbn [bind]. rewrite (proj2 (Nat.leb_le m _)) by lia. reflexivity.
Qed.

Lemma uadd_swap x y : length x < length y -> uadd_words y x = uadd_words x y.
Proof.
  intros H. unfold uadd_words. rewrite (proj2 (Nat.ltb_lt (length x) (length y)) H).
  rewrite (proj2 (Nat.ltb_ge (length y) (length x))) by lia. reflexivity.
Qed.

Lemma uadd_flex_spec N junk s z x xn y yn bz bx by_ : flex_inv N s ->
  nth_error (objs s) z = Some bz -> nth_error (objs s) x = Some bx -> nth_error (objs s) y = Some by_ ->
  0 < xn <= fsize bx -> 0 < yn <= fsize by_ -> (z = x \/ z = y -> ~ regrows N bz (Nat.max xn yn + 1)) ->
  exists s', uadd_flex N junk s z x xn y yn = Ok s' /\ flex_inv N s' /\
    contents s' = upd (contents s) z (uadd_words (firstn xn (flex_contents (hp s) bx)) (firstn yn (flex_contents (hp s) by_))).
Proof.
  intros Hi Ez Ex Ey Hx Hy Hr. unfold uadd_flex. rewrite (first_ptr_ok s x bx Ex) by lia. rewrite (first_ptr_ok s y by_ Ey) by lia. cbn [bind].
  assert (G : forall u v bu bv un vn, nth_error (objs s) u = Some bu -> nth_error (objs s) v = Some bv ->
     0 < un <= fsize bu -> 0 < vn <= fsize bv -> vn <= un -> (z = u \/ z = v -> ~ regrows N bz (un + 1)) ->
     exists s', (let* b := get (objs s) z in let* r := flex_resize N junk (hp s) b (un + 1) in
        let '(h, b0) := r in let* dst := first_ptr (mkprog (upd (objs s) z b0) h) z in
        let* wx := load (mkprog (upd (objs s) z b0) h) (ptr_of bu u) un in
        let* wy := load (mkprog (upd (objs s) z b0) h) (ptr_of bv v) vn in
        save (mkprog (upd (objs s) z b0) h) dst (uadd_words wx wy)) = Ok s' /\ flex_inv N s' /\
       contents s' = upd (contents s) z (uadd_words (firstn un (flex_contents (hp s) bu)) (firstn vn (flex_contents (hp s) bv)))).
  { intros u v bu bv un vn Eu Ev Hu Hv Huv Hg. unfold get at 1. rewrite Ez. cbn [bind].
    destruct (flex_resize_spec N junk (hp s) bz (un + 1) (proj1 Hi z bz Ez)) as (h' & b' & R & B1 & B2 & B3 & B4 & _). rewrite R. cbn [bind].
    destruct (update_one N s z bz b' h' Hi Ez B1 B3 B4) as [U1 U2].
    assert (Lz : z < length (objs s)) by (apply nth_error_Some; congruence).
    assert (Ez' : nth_error (objs (mkprog (upd (objs s) z b') h')) z = Some b') by (cbn; apply upd_same; exact Lz).
    rewrite (first_ptr_ok _ z b' Ez') by lia. cbn [bind].
    rewrite (load_ok N junk s z bz (un + 1) h' b' u bu un Hi Ez Eu R B3) by (auto; lia).
    rewrite (load_ok N junk s z bz (un + 1) h' b' v bv vn Hi Ez Ev R B3) by (auto; lia). cbn [bind].
    destruct (save_ok N _ z b' (uadd_words (firstn un (flex_contents (hp s) bu)) (firstn vn (flex_contents (hp s) bv))) U1 Ez') as (s' & S1 & S2 & S3 & S4).
    { rewrite uadd_words_length, !firstn_length, !(contents_length N) by (first [exact (proj1 Hi u bu Eu)|exact (proj1 Hi v bv Ev)]). lia. }
    exists s'. split; [exact S1|]. split; [exact S2|]. rewrite S3, U2, upd_upd. reflexivity. }
  destruct (Nat.ltb_spec xn yn) as [H|H].
  - rewrite Nat.max_r in Hr by lia. destruct (G y x by_ bx yn xn Ey Ex) as (s' & S1 & S2 & S3); try lia; [intros Q; apply Hr; tauto|].
    exists s'. split; [exact S1|]. split; [exact S2|]. rewrite S3. f_equal. apply uadd_swap.
    rewrite !firstn_length, !(contents_length N) by (first [exact (proj1 Hi x bx Ex)|exact (proj1 Hi y by_ Ey)]). lia.
  - rewrite Nat.max_l in Hr by lia. apply G; auto; lia.
Qed.

(** in place, and the block moves: the operand is read from freed memory *)
Lemma uadd_flex_dangling N junk s x xn y yn bx by_ : flex_inv N s ->
  nth_error (objs s) x = Some bx -> nth_error (objs s) y = Some by_ -> 0 < fsize bx -> 0 < fsize by_ -> yn <= xn ->
  regrows N bx (xn + 1) -> uadd_flex N junk s x x xn y yn = UB.
Proof.
  intros Hi Ex Ey Hx Hy Hn (R1 & R2 & R3). pose proof (proj1 Hi x bx Ex) as (Ls & H). unfold uadd_flex.
  rewrite (first_ptr_ok s x bx Ex) by lia. rewrite (first_ptr_ok s y by_ Ey) by lia. cbn [bind].
  rewrite (proj2 (Nat.ltb_ge xn yn)) by lia. unfold get at 1. rewrite Ex. cbn [bind]. unfold ptr_of at 1.
  unfold flex_resize. rewrite (proj2 (Nat.ltb_lt _ _) R2), (proj2 (Nat.ltb_lt _ _) R3). cbn [andb].
  destruct (dd bx) as [a|] eqn:Ed; [|congruence]. destruct H as (d & B1 & B2 & B3 & B4). rewrite B1, memcpy_ok by (rewrite ?fresh_length; lia).
  cbn [bind]. unfold alloc, free. rewrite (block_app _ _ _ _ B1). cbn [bind].
  assert (Lz : x < length (objs s)) by (apply nth_error_Some; congruence).
  erewrite first_ptr_ok; [|cbn; apply upd_same; exact Lz|cbn; lia]. cbn [bind load hp].
  unfold block at 1. rewrite upd_nth. rewrite Nat.eqb_refl. destruct (Nat.ltb _ _); reflexivity.
Qed.

Lemma uadd_flex_claim N n l s junk z x xn y yn : Forall (fun q => names (fst q) n) l -> flex_run N l (flex_init N n) = Ok s ->
  z < n -> x < n -> y < n ->
  0 < xn <= length (nth x (contents s) []) -> 0 < yn <= length (nth y (contents s) []) ->
  (z = x \/ z = y -> forall bz, nth_error (objs s) z = Some bz -> ~ regrows N bz (Nat.max xn yn + 1)) ->
  exists s', uadd_flex N junk s z x xn y yn = Ok s' /\
    changed (contents s) z (uadd_words (firstn xn (nth x (contents s) [])) (firstn yn (nth y (contents s) []))) (contents s').
Proof.
  intros Hl E Hz Hx Hy Bx By Hr. assert (Ln : length (objs (flex_init N n)) = n) by apply repeat_length.
  destruct (flex_run_inv N l _ s (flex_init_inv N n)) as [I1 I2]; [rewrite Ln; exact Hl|exact E|]. rewrite Ln in I2.
  assert (G : forall i, i < n -> exists b, nth_error (objs s) i = Some b /\ nth i (contents s) [] = flex_contents (hp s) b /\ length (flex_contents (hp s) b) = fsize b).
  { intros i Hi. destruct (get_ok (objs s) i) as (b & Eb & _); [lia|]. exists b. split; [exact Eb|]. split.
    - apply nth_error_nth. apply map_nth_error. exact Eb.
    - apply (contents_length N). apply (proj1 I1 i b Eb). }
  destruct (G z Hz) as (bz & Ez & _ & _). destruct (G x Hx) as (bx & Ex & Cx & Lx). destruct (G y Hy) as (by_ & Ey & Cy & Ly).
  rewrite Cx, Cy in *. destruct (uadd_flex_spec N junk s z x xn y yn bz bx by_ I1 Ez Ex Ey) as (s' & S1 & S2 & S3); [lia|lia|intros Q; apply Hr; auto|].
  exists s'. split; [exact S1|]. rewrite S3. apply changed_upd. unfold contents. rewrite map_length. lia.
Qed.

(** For every in-object size: grow an object by one word, then add to it in place. *)
Lemma uadd_flex_refute N : exists l s, Forall (fun q => names (fst q) 2) l /\ flex_run N l (flex_init N 2) = Ok s /\
  length (nth 0 (contents s) []) = N + 1 /\ forall junk, uadd_flex N junk s 0 0 (N + 1) 1 1 = UB.
Proof.
  set (j0 := fun _ : nat => 0%Z). set (l := [(Resize 0 (N + 1), j0); (Resize 1 1, j0)]).
  assert (Hl : Forall (fun q => names (fst q) 2) l) by (repeat constructor).
  assert (E : exists s, flex_run N l (flex_init N 2) = Ok s /\ exists b0 b1, nth_error (objs s) 0 = Some b0 /\ nth_error (objs s) 1 = Some b1 /\
    dd b0 <> None /\ dsize b0 = N + 1 /\ fsize b0 = N + 1 /\ fsize b1 = 1).
  { unfold l. cbn [flex_run]. unfold flex_step at 1. cbn [objs flex_init repeat get nth_error bind hp]. unfold flex_resize. cbn [flex_new dsize dd sd].
    rewrite (proj2 (Nat.ltb_lt N (N + 1))) by lia. rewrite (proj2 (Nat.ltb_lt 0 (N + 1))) by lia. cbn [andb].
    rewrite memcpy_ok by (rewrite ?fresh_length, ?repeat_length; lia). cbn [bind alloc snd length app].
    unfold flex_step. cbn [objs hp upd get nth_error bind]. unfold flex_resize. cbn [flex_new dsize dd sd].
    destruct (Nat.ltb N 1 && Nat.ltb 0 1) eqn:EB.
    - rewrite memcpy_ok by (rewrite ?fresh_length, ?repeat_length; lia). cbn [bind alloc snd].
      eexists. split; [reflexivity|]. eexists. eexists. cbn [objs upd nth_error]. split; [reflexivity|]. split; [reflexivity|]. cbn. repeat split; try lia; discriminate.
    - cbn [bind alloc snd]. eexists. split; [reflexivity|]. eexists. eexists. cbn [objs upd nth_error]. split; [reflexivity|]. split; [reflexivity|].
      cbn. repeat split; try lia; discriminate. }
  destruct E as (s & E & b0 & b1 & E0 & E1 & D0 & D1 & F0 & F1). exists l, s. split; [exact Hl|]. split; [exact E|].
  destruct (flex_run_inv N l _ s (flex_init_inv N 2)) as [I1 I2]; [exact Hl|exact E|]. split.
  - erewrite nth_error_nth; [|apply map_nth_error; exact E0]. rewrite (contents_length N) by (apply (proj1 I1 0 b0 E0)). exact F0.
  - intros junk. eapply uadd_flex_dangling; eauto; try lia. split; [exact D0|lia].
Qed.
