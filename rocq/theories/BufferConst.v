(** [flexbuffer] in constant expressions behaves as arrays limited to N, and may be used further at run time. *)
From Coq Require Import List ZArith Bool Lia.
From Verif Require Import Outcome WordsModel BigintModel BufferModel BufferSpec BufferProofs BufferConstModel.
Import ListNotations.
Local Open Scope nat_scope.

Definition static (N : nat) (b : flexbuf) : Prop := length (sd b) = N /\ dd b = None /\ dsize b = 0 /\ fsize b <= N.
Definition ce_inv (N : nat) (s : list flexbuf) : Prop := forall i b, nth_error s i = Some b -> static N b.
Lemma ce_inv_flex N s : ce_inv N s -> flex_inv N (mkprog s []).
Proof.
  intros H. split; cbn [objs hp].
  - intros i b E. destruct (H i b E) as (L & D & Z0 & F). split; [exact L|]. rewrite D. auto.
  - intros i j a bi bj E _ D _. destruct (H i bi E) as (_ & D' & _). congruence.
Qed.
Lemma ce_inv_upd N s i b : ce_inv N s -> static N b -> ce_inv N (upd s i b).
Proof.
  intros H Hb j x E. rewrite upd_nth in E. destruct (Nat.eqb j i); [|exact (H j x E)]. destruct (Nat.ltb i (length s)); [|discriminate E]. injection E as <-. exact Hb.
Qed.
(** what a refused growth is, and what every other step is: the run-time step *)
Definition grows (N : nat) (o : bop) : Prop := match o with Resize _ n => N < n | _ => False end.
Definition lift (r : outcome (bres * list flexbuf)) : outcome (bres * prog) :=
  match r with Ok (v, s) => Ok (v, mkprog s []) | Abort => Abort | UB => UB | NoFuel => NoFuel end.
Lemma ce_flex_step N junk o s : ce_inv N s -> names o (length s) -> ~ grows N o -> flex_step N junk o (mkprog s []) = lift (ce_step o s).
Proof.
  intros Hi Hn Hg. destruct o as [i n|i|i k v|i k|i j|i j|i j]; cbn [names] in Hn; cbn [flex_step ce_step objs hp grows] in *.
  - destruct (get_ok s i Hn) as (b & E & ->). cbn [bind]. destruct (Hi i b E) as (L & D & Z0 & F).
    unfold flex_resize, ce_resize. rewrite L. destruct (Nat.ltb_spec N n) as [Q|Q]; [contradiction|]. reflexivity.
  - destruct (get_ok s i Hn) as (b & E & ->). cbn [bind]. destruct (Hi i b E) as (L & D & Z0 & F). unfold flex_clear, ce_clear. rewrite D. reflexivity.
  - destruct (get_ok s i Hn) as (b & E & ->). cbn [bind]. destruct (Hi i b E) as (L & D & Z0 & F). unfold flex_write, ce_write, flex_data, flex_put. rewrite D.
    destruct (Nat.ltb k (fsize b)); cbn [check bind]; [|reflexivity]. unfold get. destruct (nth_error (sd b) k); reflexivity.
  - destruct (get_ok s i Hn) as (b & E & ->). cbn [bind]. destruct (Hi i b E) as (L & D & Z0 & F). unfold flex_read, ce_read, flex_data. rewrite D.
    destruct (Nat.ltb k (fsize b)); cbn [check bind]; [|reflexivity]. unfold get. destruct (nth_error (sd b) k); reflexivity.
  - destruct Hn as [Hn1 Hn2]. destruct (get_ok s i Hn1) as (a & Ea & ->). destruct (get_ok s j Hn2) as (b & E & ->). cbn [bind].
    destruct (Nat.eqb i j); [reflexivity|]. destruct (Hi i a Ea) as (_ & D & _). destruct (Hi j b E) as (_ & D' & _).
    unfold flex_clear, flex_dup, ce_clear. rewrite D, D'. cbn [bind fst dd]. reflexivity.
  - destruct Hn as [Hn1 Hn2]. destruct (get_ok s i Hn1) as (a & Ea & ->). destruct (get_ok s j Hn2) as (b & E & ->). cbn [bind].
    destruct (Nat.eqb i j); [reflexivity|]. destruct (Hi i a Ea) as (_ & D & _). unfold flex_clear. rewrite D. cbn [bind fst]. destruct b. reflexivity.
  - destruct Hn as [Hn1 Hn2]. destruct (get_ok s i Hn1) as (a & Ea & ->). destruct (get_ok s j Hn2) as (b & E & ->). cbn [bind lift].
    destruct (Hi i a Ea) as (_ & D & Z0 & _). destruct (Hi j b E) as (_ & D' & Z0' & _). do 2 f_equal.
    destruct (Nat.eqb_spec i j) as [<-|Nij].
    + assert (a = b) by congruence. subst b. destruct a as [sa da fa za]. cbn [sd dd fsize dsize] in *. subst.
      rewrite !upd_id; auto. rewrite upd_id; auto.
    + destruct a as [sa da fa za], b as [sb db fb zb]. cbn [sd dd fsize dsize] in *. subst. reflexivity.
Qed.
Lemma ce_step_inv N o s : ce_inv N s -> names o (length s) -> ce_inv N (state_of (ce_step o s) s) /\ length (state_of (ce_step o s) s) = length s.
Proof.
  intros Hi Hn. destruct o as [i n|i|i k v|i k|i j|i j|i j]; cbn [names] in Hn; cbn [ce_step].
  - destruct (get_ok s i Hn) as (b & E & ->). cbn [bind]. destruct (Hi i b E) as (L & D & Z0 & F). unfold ce_resize. rewrite L.
    destruct (Nat.ltb_spec N n); cbn [state_of]; (split; [apply ce_inv_upd; [exact Hi|]; repeat split; auto|apply upd_length]).
  - destruct (get_ok s i Hn) as (b & E & ->). cbn [bind state_of]. destruct (Hi i b E) as (L & D & Z0 & F). split; [apply ce_inv_upd; [exact Hi|]; repeat split; cbn; auto; lia|apply upd_length].
  - destruct (get_ok s i Hn) as (b & E & ->). cbn [bind]. destruct (Hi i b E) as (L & D & Z0 & F). unfold ce_write.
    destruct (Nat.ltb k (fsize b)); cbn [check bind state_of]; [|auto]. destruct (get (sd b) k); cbn [bind state_of]; auto.
    split; [apply ce_inv_upd; [exact Hi|]; repeat split; cbn; auto; rewrite upd_length; exact L|apply upd_length].
  - destruct (get_ok s i Hn) as (b & E & ->). cbn [bind]. destruct (ce_read b k); cbn [bind state_of]; auto.
  - destruct Hn as [Hn1 Hn2]. destruct (get_ok s i Hn1) as (a & Ea & ->). destruct (get_ok s j Hn2) as (b & E & ->). cbn [bind]. destruct (Nat.eqb i j); cbn [state_of]; [auto|].
    destruct (Hi i a Ea) as (L & D & Z0 & F). destruct (Hi j b E) as (L' & D' & Z0' & F'). split; [apply ce_inv_upd; [exact Hi|]; repeat split; cbn; auto|apply upd_length].
  - destruct Hn as [Hn1 Hn2]. destruct (get_ok s i Hn1) as (a & Ea & ->). destruct (get_ok s j Hn2) as (b & E & ->). cbn [bind]. destruct (Nat.eqb i j); cbn [state_of]; [auto|].
    destruct (Hi j b E) as (L' & D' & Z0' & F'). split; [apply ce_inv_upd; [apply ce_inv_upd; [exact Hi|]|]; repeat split; cbn; auto; lia|rewrite !upd_length; reflexivity].
  - destruct Hn as [Hn1 Hn2]. destruct (get_ok s i Hn1) as (a & Ea & ->). destruct (get_ok s j Hn2) as (b & E & ->). cbn [bind state_of].
    destruct (Hi i a Ea) as (L & D & Z0 & F). destruct (Hi j b E) as (L' & D' & Z0' & F').
    assert (I1 : ce_inv N (upd s i (mkflex (sd b) (dd a) (fsize b) (dsize a)))) by (apply ce_inv_upd; [exact Hi|]; repeat split; cbn; auto).
    destruct (Nat.eqb i j); [split; [exact I1|apply upd_length]|]. split; [apply ce_inv_upd; [exact I1|]; repeat split; cbn; auto|rewrite !upd_length; reflexivity].
Qed.
Lemma aspec_limit N o A r A' : ~ grows N o -> aspec None false o A r A' -> aspec (Some N) false o A r A'.
Proof.
  intros Hg H. destruct H; cbn [grows] in Hg.
  - eapply A_resize; eauto. cbn. lia.
  - exfalso. apply H. exact I.
  - eapply A_clear; eauto.
  - eapply A_write; eauto.
  - eapply A_write_out; eauto.
  - eapply A_read; eauto.
  - eapply A_read_out; eauto.
  - eapply A_copy; eauto.
  - eapply A_move_self; eauto.
  - eapply A_move; eauto.
  - eapply A_swap; eauto.
Qed.
Definition ce_contents (s : list flexbuf) : arrays := contents (mkprog s []).
Definition ce_init (N n : nat) : list flexbuf := repeat (flex_new N) n.
Lemma ce_init_inv N n : ce_inv N (ce_init N n).
Proof. intros i b E. apply nth_error_In in E. apply repeat_spec in E. subst b. repeat split; cbn; [apply repeat_length|lia]. Qed.
Lemma ce_step_spec N o s : ce_inv N s -> names o (length s) ->
  aspec (Some N) false o (ce_contents s) (outcome_of (ce_step o s)) (ce_contents (state_of (ce_step o s) s)).
Proof.
  intros Hi Hn. assert (Dg : grows N o \/ ~ grows N o) by (destruct o; cbn [grows]; try tauto; lia). destruct Dg as [G|G].
  - destruct o as [i n| | | | | |]; try contradiction. cbn [grows names] in *. cbn [ce_step]. destruct (get_ok s i Hn) as (b & E & ->). cbn [bind]. destruct (Hi i b E) as (L & _).
    unfold ce_resize. rewrite L. rewrite (proj2 (Nat.ltb_lt _ _) G). cbn [outcome_of state_of]. rewrite upd_id by exact E. apply A_resize_fail. cbn. lia.
  - destruct (flex_step_spec N (fun _ => 0%Z) o (mkprog s []) (ce_inv_flex N s Hi) Hn) as (S1 & _). rewrite ce_flex_step with (N := N) in S1 by assumption.
    apply aspec_limit; [exact G|]. unfold ce_contents. destruct (ce_step o s) as [[r t]| | |]; exact S1.
Qed.
Lemma ce_run_inv N l : forall s s', ce_inv N s -> Forall (fun o => names o (length s)) l -> ce_run l s = Ok s' -> ce_inv N s' /\ length s' = length s.
Proof.
  induction l as [|o l IH]; intros s s' Hi Hn E; cbn in E.
  - inversion E; subst. auto.
  - inversion Hn as [|? ? Ho Hl]; subst. destruct (ce_step_inv N o s Hi Ho) as (H2 & H3).
    destruct (ce_step o s) as [[r t]| | |]; try discriminate E. cbn [bind snd state_of] in *.
    destruct (IH t s' H2) as [I1 I2]; [rewrite H3; exact Hl|exact E|]. split; [exact I1|lia].
Qed.
Lemma ce_claim N n l s o : Forall (fun o => names o n) l -> ce_run l (ce_init N n) = Ok s -> names o n ->
  aspec (Some N) false o (ce_contents s) (outcome_of (ce_step o s)) (ce_contents (state_of (ce_step o s) s)).
Proof.
  intros Hl E Ho. assert (Ln : length (ce_init N n) = n) by apply repeat_length.
  destruct (ce_run_inv N l _ s (ce_init_inv N n)) as [I1 I2]; [rewrite Ln; exact Hl|exact E|].
  apply ce_step_spec; [exact I1|]. rewrite I2, Ln. exact Ho.
Qed.
Lemma mixed_claim N n l l' s s' o junk : Forall (fun o => names o n) l -> ce_run l (ce_init N n) = Ok s ->
  Forall (fun q => names (fst q) n) l' -> flex_run N l' (mkprog s []) = Ok s' -> names o n ->
  aspec None false o (contents s') (outcome_of (flex_step N junk o s')) (contents (state_of (flex_step N junk o s') s')).
Proof.
  intros Hl E Hl' E' Ho. assert (Ln : length (ce_init N n) = n) by apply repeat_length.
  destruct (ce_run_inv N l _ s (ce_init_inv N n)) as [I1 I2]; [rewrite Ln; exact Hl|exact E|].
  destruct (flex_run_inv N l' _ s' (ce_inv_flex N s I1)) as [J1 J2]; [cbn [objs]; rewrite I2, Ln; exact Hl'|exact E'|].
  apply flex_step_spec; [exact J1|]. rewrite J2. cbn [objs]. rewrite I2, Ln. exact Ho.
Qed.
