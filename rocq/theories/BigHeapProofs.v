(** Proofs about BigHeapModel: programs over heap-allocated big integers compute on integers. *)
From Coq Require Import List ZArith Bool Lia.
From Verif Require Import Outcome LoopModel WordsModel WordsSpec WordsProofs DivProofs BigintModel BigintSpec BigintProofs BigintClaims BufferModel BufferSpec BufferProofs BigHeapModel BigHeapSpec.
Import ListNotations.
Local Open Scope nat_scope.

(** ** buffers: what a resize keeps, loads, stores *)
Lemma resize_data N junk h b n h' b' : buf_ok N h b -> flex_resize N junk h b n = Ok (h', b') ->
  length (data_of h b) <= length (data_of h' b') /\ firstn (length (data_of h b)) (data_of h' b') = data_of h b.
Proof.
  intros (L & H). unfold flex_resize. destruct (Nat.ltb N n && Nat.ltb (dsize b) n) eqn:C.
  - unfold data_of. destruct (dd b) as [a|] eqn:Ed.
    + destruct H as (d & B1 & B2 & B3 & B4). rewrite B1. rewrite memcpy_ok by (rewrite ?fresh_length; lia). cbn [bind]. unfold alloc, free.
      rewrite (block_app _ _ _ _ B1). cbn [bind]. intros E. injection E as <- <-. cbn [dd].
      pose proof (block_lt _ _ _ B1) as La. rewrite block_upd_other by lia. rewrite block_new.
      replace (dsize b + Nat.max N n - Nat.max N n) with (length d) by lia. rewrite app_length, firstn_all. split; [lia|].
      rewrite firstn_app, Nat.sub_diag, firstn_all. apply app_nil_r.
    + rewrite memcpy_ok by (rewrite ?fresh_length; lia). cbn [bind]. unfold alloc. intros E. injection E as <- <-. cbn [dd]. rewrite block_new.
      rewrite app_length, firstn_length. split; [lia|]. rewrite (firstn_all2 (sd b)) by lia.
      rewrite firstn_app, Nat.sub_diag, firstn_all. apply app_nil_r.
  - intros E. injection E as <- <-. unfold data_of. cbn [dd sd]. split; [lia|apply firstn_all].
Qed.

Lemma load_data N s i b m : flex_inv N s -> nth_error (objs s) i = Some b -> m <= length (data_of (hp s) b) ->
  load s (ptr_of b i) m = Ok (firstn m (data_of (hp s) b)).
Proof.
  intros Hi E Hm. destruct (proj1 Hi i b E) as (L & H). unfold ptr_of, data_of in *. destruct (dd b) as [a|] eqn:Ed; cbn [load].
  - destruct H as (d & H1 & _). rewrite H1 in *. rewrite (proj2 (Nat.leb_le _ _) Hm). reflexivity.
  - unfold get. rewrite E. cbn [bind]. rewrite (proj2 (Nat.leb_le _ _) Hm). reflexivity.
Qed.

(** the words a source pointer reads *)
Definition read_of (s : prog) (q : nat * nat) : list Z := firstn (snd q) (nth (fst q) (contents s) []).
Definition readable (s : prog) (q : nat * nat) : Prop := 1 <= snd q <= length (nth (fst q) (contents s) []).

Lemma nth_contents N s i b : flex_inv N s -> nth_error (objs s) i = Some b -> nth i (contents s) [] = flex_contents (hp s) b /\ length (flex_contents (hp s) b) = fsize b.
Proof.
  intros Hi E. split; [apply nth_error_nth; apply map_nth_error; exact E|]. apply (contents_length N). exact (proj1 Hi i b E).
Qed.
Lemma readable_obj N s q : flex_inv N s -> readable s q -> exists b, nth_error (objs s) (fst q) = Some b /\ 1 <= snd q <= fsize b /\ read_of s q = firstn (snd q) (data_of (hp s) b).
Proof.
  intros Hi H. destruct (nth_error (objs s) (fst q)) as [b|] eqn:E.
  - exists b. destruct (nth_contents N s _ b Hi E) as [C L]. unfold readable, read_of in *. rewrite C in *. split; [reflexivity|]. split; [lia|].
    unfold flex_contents. fold (data_of (hp s) b). rewrite firstn_firstn. f_equal. lia.
  - exfalso. unfold readable in H. apply nth_error_None in E. rewrite nth_overflow in H by (unfold contents; rewrite map_length; exact E). cbn in H. lia.
Qed.

Lemma load_after N junk s z n h' b' bz q : flex_inv N s -> nth_error (objs s) z = Some bz -> 1 <= n ->
  flex_resize N junk (hp s) bz n = Ok (h', b') -> flex_inv N (mkprog (upd (objs s) z b') h') -> frame (hp s) h' (dd bz) -> fsize b' = n -> readable s q ->
  exists p, first_ptr (mkprog (upd (objs s) z b') h') (fst q) = Ok p /\ load (mkprog (upd (objs s) z b') h') p (snd q) = Ok (read_of s q).
Proof.
  intros Hi Ez Hn R Hi' F Fb. assert (Lz : z < length (objs s)) by (apply nth_error_Some; congruence).
  destruct q as [x m]. intros Hq. destruct (readable_obj N s _ Hi Hq) as (b & Eb & Hm & Er). cbn [fst snd] in *. rewrite Er.
  destruct (data_ok N (hp s) b (proj1 Hi x b Eb)) as (_ & D2 & _).
  destruct (Nat.eq_dec x z) as [->|Nx].
  - assert (bz = b) by congruence. subst bz.
    assert (Ez' : nth_error (objs (mkprog (upd (objs s) z b') h')) z = Some b') by (cbn; apply upd_same; exact Lz).
    exists (ptr_of b' z). split; [apply first_ptr_ok; [exact Ez'|lia]|].
    destruct (resize_data N junk _ _ _ _ _ (proj1 Hi z b Eb) R) as (D & DE). rewrite (load_data N _ z b' m Hi' Ez') by (cbn [hp]; lia). cbn [hp].
    rewrite <- DE, firstn_firstn. do 2 f_equal. lia.
  - assert (Ex' : nth_error (objs (mkprog (upd (objs s) z b') h')) x = Some b) by (cbn; rewrite upd_other by exact Nx; exact Eb).
    exists (ptr_of b x). split; [apply first_ptr_ok; [exact Ex'|lia]|].
    assert (DD : data_of h' b = data_of (hp s) b).
    { unfold data_of. destruct (dd b) as [a|] eqn:Ed; [|reflexivity]. destruct (proj1 Hi x b Eb) as (_ & Q). rewrite Ed in Q. destruct Q as (d & Q & _).
      rewrite Q. rewrite (F a d Q); [reflexivity|]. intros Q2. apply Nx. eapply (proj2 Hi); eauto. }
    rewrite (load_data N _ x b m Hi' Ex') by (cbn [hp]; rewrite DD; lia). cbn [hp]. rewrite DD. reflexivity.
Qed.
Lemma loads_after N junk s z n h' b' bz srcs : flex_inv N s -> nth_error (objs s) z = Some bz -> 1 <= n ->
  flex_resize N junk (hp s) bz n = Ok (h', b') -> flex_inv N (mkprog (upd (objs s) z b') h') -> frame (hp s) h' (dd bz) -> fsize b' = n ->
  Forall (readable s) srcs -> load_all (mkprog (upd (objs s) z b') h') srcs = Ok (map (read_of s) srcs).
Proof.
  intros Hi Ez Hn R Hi' F Fb H. induction srcs as [|[x m] t IH]; [reflexivity|]. inversion H as [|? ? H1 H2]; subst. cbn [load_all map].
  destruct (load_after N junk s z (fsize b') h' b' bz _ Hi Ez Hn R Hi' F eq_refl H1) as (p & P1 & P2). cbn [fst snd] in P1, P2. rewrite P1. cbn [bind]. rewrite P2. cbn [bind]. rewrite (IH H2). reflexivity.
Qed.

Lemma into_gen N junk s z n srcs f : flex_inv N (bufs s) -> z < length (objs (bufs s)) -> 1 <= n -> Forall (readable (bufs s)) srcs ->
  match f (map (read_of (bufs s)) srcs) with
  | Ok r => length r = n -> exists p, into N junk s z n srcs f = Ok (mkh p (meta s)) /\ flex_inv N p /\ contents p = upd (contents (bufs s)) z r /\ length (objs p) = length (objs (bufs s))
  | Abort => into N junk s z n srcs f = Abort
  | _ => True
  end.
Proof.
  intros Hi Hz Hn Hs. destruct (get_ok (objs (bufs s)) z Hz) as (bz & Ez & G).
  destruct (flex_resize_spec N junk (hp (bufs s)) bz n (proj1 Hi z bz Ez)) as (h' & b' & R & B1 & B2 & B3 & B4 & _).
  destruct (update_one N (bufs s) z bz b' h' Hi Ez B1 B3 B4) as [U1 U2].
  assert (Ez' : nth_error (objs (mkprog (upd (objs (bufs s)) z b') h')) z = Some b') by (cbn; apply upd_same; exact Hz).
  assert (LA := loads_after N junk (bufs s) z n h' b' bz srcs Hi Ez Hn R U1 B3 B2 Hs).
  unfold into, resize_h. cbn [flex_step]. rewrite G. cbn [bind]. rewrite R. cbn [bind snd bufs meta].
  rewrite (first_ptr_ok _ z b' Ez') by lia. cbn [bind]. rewrite LA. cbn [bind].
  destruct (f _) as [r| | |]; try exact I; [|reflexivity]. intros Lr. cbn [bind].
  destruct (save_ok N _ z b' r U1 Ez' ltac:(lia)) as (p & S1 & S2 & S3 & S4). rewrite S1. cbn [bind]. exists p.
  split; [reflexivity|]. split; [exact S2|]. split; [rewrite S3, U2, upd_upd; reflexivity|]. rewrite S4. apply upd_length.
Qed.

(** ** the objects as a list of contents with size and sign *)
Definition view (s : hstate) : list (list Z * (nat * bool)) := combine (contents (bufs s)) (meta s).
Definition cut (e : list Z * (nat * bool)) : bigint := mk (firstn (fst (snd e)) (fst e)) (fst (snd e)) (snd (snd e)).
Definition good (e : list Z * (nat * bool)) : Prop := fst e = [] \/ (fst (snd e) <= length (fst e) /\ valid (Flex 0) (cut e)).
Definition hinv (N : nat) (s : hstate) : Prop :=
  flex_inv N (bufs s) /\ length (meta s) = length (objs (bufs s)) /\ Forall good (view s).

Lemma combine_upd {A B} (l : list A) (m : list B) k a b : combine (upd l k a) (upd m k b) = upd (combine l m) k (a, b).
Proof. revert m k. induction l as [|x l IH]; intros [|y m] [|k]; cbn; try reflexivity. f_equal. apply IH. Qed.
Lemma combine_nth_error {A B} (l : list A) (m : list B) k a b : nth_error l k = Some a -> nth_error m k = Some b -> nth_error (combine l m) k = Some (a, b).
Proof. revert m k. induction l as [|x l IH]; intros [|y m] [|k]; cbn; try congruence. apply IH. Qed.
Lemma Forall_upd {A} (P : A -> Prop) l k v : Forall P l -> P v -> Forall P (upd l k v).
Proof. intros H Hv. revert k. induction H; intros [|k]; cbn; constructor; auto. Qed.
Lemma values_view s : values s = map (fun e => held (fst e) (snd e)) (view s).
Proof. reflexivity. Qed.

Lemma value_cut m k g : value (mk (firstn k m) k g) = value (mk m k g).
Proof. unfold value, magnitude. cbn [size mem neg]. rewrite firstn_firstn, Nat.min_id. reflexivity. Qed.
Lemma valid_cut R : valid (Flex 0) R -> valid (Flex 0) (cut (mem R, (size R, neg R))).
Proof.
  intros ((W & _) & Hs & Ht). unfold cut. cbn [fst snd]. split; [split; [|cbn; lia]|]; cbn [mem size].
  - unfold all_words in *. rewrite <- (firstn_skipn (size R)) in W. apply Forall_app in W. tauto.
  - rewrite firstn_length, Nat.min_l by lia. split; [lia|]. intros H. specialize (Ht H).
    rewrite <- (firstn_skipn (size R) (mem R)) in Ht. rewrite app_nth1 in Ht by (rewrite firstn_length; lia). exact Ht.
Qed.
Lemma good_of R : valid (Flex 0) R -> good (mem R, (size R, neg R)).
Proof. intros H. right. split; [cbn; destruct H as (_ & H & _); lia|apply valid_cut; exact H]. Qed.
Lemma held_of R : valid (Flex 0) R -> held (mem R) (size R, neg R) = Some (value R).
Proof. intros (_ & H & _). unfold held. destruct R as [[|w m] k g]; [cbn in H; lia|reflexivity]. Qed.

Lemma view_length N s : hinv N s -> length (view s) = length (objs (bufs s)).
Proof. intros (_ & L & _). unfold view. rewrite combine_length. unfold contents. rewrite map_length. lia. Qed.

(** one object changed *)
Lemma change_one N s p z c m : hinv N s -> flex_inv N p -> contents p = upd (contents (bufs s)) z c -> length (objs p) = length (objs (bufs s)) -> good (c, m) ->
  hinv N (mkh p (upd (meta s) z m)) /\ values (mkh p (upd (meta s) z m)) = upd (values s) z (held c m) /\ length (objs (bufs (mkh p (upd (meta s) z m)))) = length (objs (bufs s)).
Proof.
  intros (Hi & L & G) Hp C Lp Hg. assert (V : view (mkh p (upd (meta s) z m)) = upd (view s) z (c, m)) by (unfold view; cbn [bufs meta]; rewrite C; apply combine_upd).
  split; [|split; [|exact Lp]].
  - split; [exact Hp|]. split; [cbn; rewrite upd_length; lia|]. rewrite V. apply Forall_upd; assumption.
  - rewrite !values_view, V, upd_map. reflexivity.
Qed.
Lemma change_to N s p z R : hinv N s -> flex_inv N p -> contents p = upd (contents (bufs s)) z (mem R) -> length (objs p) = length (objs (bufs s)) -> valid (Flex 0) R ->
  hinv N (mkh p (upd (meta s) z (size R, neg R))) /\ values (mkh p (upd (meta s) z (size R, neg R))) = upd (values s) z (Some (value R)) /\
  length (objs (bufs (mkh p (upd (meta s) z (size R, neg R))))) = length (objs (bufs s)).
Proof. intros. rewrite <- (held_of R) by assumption. apply change_one; auto. apply good_of. assumption. Qed.

(** an object that holds a value *)
Record live (s : hstate) (i : nat) (X : bigint) : Prop := {
  l_meta : nth_error (meta s) i = Some (size X, neg X);
  l_read : readable (bufs s) (i, size X);
  l_words : read_of (bufs s) (i, size X) = mem X;
  l_len : length (mem X) = size X;
  l_valid : valid (Flex 0) X }.
Lemma obj_ex N s i : hinv N s -> i < length (objs (bufs s)) -> exists b c m, nth_error (objs (bufs s)) i = Some b /\ nth_error (contents (bufs s)) i = Some c /\
  nth_error (meta s) i = Some m /\ good (c, m) /\ nth_error (values s) i = Some (held c m) /\ length c = fsize b.
Proof.
  intros (Hi & L & G) H. destruct (get_ok _ _ H) as (b & E & _). destruct (get_ok (meta s) i ltac:(lia)) as (m & Em & _).
  assert (Ec : nth_error (contents (bufs s)) i = Some (flex_contents (hp (bufs s)) b)) by (apply map_nth_error; exact E).
  exists b, (flex_contents (hp (bufs s)) b), m. pose proof (combine_nth_error _ _ _ _ _ Ec Em) as V. repeat (split; [assumption|]). split; [|split].
  - apply (proj1 (Forall_forall _ _) G). eapply nth_error_In. exact V.
  - rewrite values_view. rewrite (map_nth_error _ _ _ V). reflexivity.
  - apply (contents_length N). exact (proj1 Hi i b E).
Qed.
Lemma live_ex N s i a : hinv N s -> i < length (objs (bufs s)) -> var (values s) i = Some a -> exists X, live s i X /\ value X = a.
Proof.
  intros Hi H V. destruct (obj_ex N s i Hi H) as (b & c & [k g] & E & Ec & Em & G & Ev & Lc).
  unfold var in V. rewrite (nth_error_nth _ _ _ Ev) in V. destruct G as [G|[Gk G]]; [cbn in G; subst c; discriminate V|].
  exists (cut (c, (k, g))). cbn [fst snd] in *. assert (HV : held c (k, g) = Some (value (mk c k g))) by (destruct c; [cbn in V; discriminate V|reflexivity]).
  rewrite HV in V. inversion V. split; [|unfold cut; cbn [fst snd]; apply value_cut].
  pose proof (proj1 (proj2 G)) as S1. unfold cut in *. cbn [fst snd size neg mem] in *. pose proof (nth_error_nth _ _ [] Ec) as NC.
  constructor; cbn [size neg mem]; auto.
  - unfold readable. cbn [fst snd]. rewrite NC. lia.
  - unfold read_of. cbn [fst snd]. rewrite NC. reflexivity.
  - rewrite firstn_length. lia.
Qed.
Lemma live_words s i X : live s i X -> words X = mem X.
Proof. intros H. unfold words. rewrite <- (l_len _ _ _ H). apply firstn_all. Qed.
Lemma live_nonempty s i X : live s i X -> mem X <> [].
Proof. intros H E. pose proof (l_len _ _ _ H). pose proof (proj1 (proj2 (l_valid _ _ _ H))). rewrite E in *. cbn in *. lia. Qed.
Lemma live_all s i X : live s i X -> all_words (mem X).
Proof. intros H. apply (l_valid _ _ _ H). Qed.

Lemma size_live s i X : live s i X -> size_h s i = Ok (size X).
Proof. intros H. unfold size_h, get. rewrite (l_meta _ _ _ H). reflexivity. Qed.
Lemma neg_live s i X : live s i X -> neg_h s i = Ok (neg X).
Proof. intros H. unfold neg_h, get. rewrite (l_meta _ _ _ H). reflexivity. Qed.

(** the fields, and [trim] *)
Lemma word_ok N s i c k : flex_inv N (bufs s) -> nth_error (contents (bufs s)) i = Some c -> k < length c -> word_h s i k = Ok (nth k c 0%Z).
Proof.
  intros Hi E Hk. unfold contents in E. destruct (nth_error (objs (bufs s)) i) as [b|] eqn:Eb.
  2:{ apply nth_error_None in Eb. assert (i < length (map (flex_contents (hp (bufs s))) (objs (bufs s)))) by (apply nth_error_Some; congruence). rewrite map_length in *. lia. }
  rewrite (map_nth_error _ _ _ Eb) in E. inversion E; subst c. pose proof (proj1 Hi i b Eb) as Hb. rewrite (contents_length N) in Hk by exact Hb.
  unfold word_h, get. rewrite Eb. cbn [bind]. unfold flex_read. rewrite (proj2 (Nat.ltb_lt _ _) Hk). cbn [check bind].
  destruct (data_ok _ _ _ Hb) as (D1 & D2 & D3). rewrite D1. cbn [bind]. unfold get. rewrite contents_data.
  rewrite (nth_error_nth' (data_of (hp (bufs s)) b) 0%Z) by lia.
  rewrite <- (firstn_skipn (fsize b) (data_of (hp (bufs s)) b)) at 1. rewrite app_nth1 by (rewrite firstn_length; lia). reflexivity.
Qed.

Lemma real_size_snoc c w : get_real_size (c ++ [w]) = if Z.eqb w 0 then get_real_size c else S (length c).
Proof. unfold get_real_size. rewrite rev_app_distr. cbn. destruct (Z.eqb w 0); [reflexivity|]. cbn. rewrite rev_length. reflexivity. Qed.
Lemma real_size_one w : get_real_size [w] = 1.
Proof. unfold get_real_size. cbn. destruct (Z.eqb w 0); reflexivity. Qed.
Lemma firstn_snoc (c : list Z) n : n < length c -> firstn (S n) c = firstn n c ++ [nth n c 0%Z].
Proof. revert n. induction c as [|a c IH]; intros [|n] H; cbn in *; try lia; [reflexivity|]. f_equal. apply IH. lia. Qed.

Lemma scan_ok N s o c : flex_inv N (bufs s) -> nth_error (contents (bufs s)) o = Some c -> forall i, i < length c ->
  trim_scan s o i = Ok (get_real_size (firstn (S i) c) - 1) /\ 1 <= get_real_size (firstn (S i) c).
Proof.
  intros Hi E. induction i as [|i IH]; intros Hl.
  - destruct c as [|a c]; [cbn in Hl; lia|]. cbn [firstn trim_scan]. rewrite real_size_one. auto.
  - cbn [trim_scan]. rewrite (word_ok N s o c (S i) Hi E Hl). cbn [bind]. rewrite (firstn_snoc c (S i)) by exact Hl. rewrite real_size_snoc.
    destruct (Z.eqb (nth (S i) c 0%Z) 0); [apply IH; lia|]. rewrite firstn_length, Nat.min_l by lia. split; [f_equal; lia|lia].
Qed.
Lemma trim_ok N s o c k g n : flex_inv N (bufs s) -> nth_error (contents (bufs s)) o = Some c -> nth_error (meta s) o = Some (k, g) -> 1 <= n <= length c ->
  trim_h s o n = Ok (mkh (bufs s) (upd (meta s) o (size (trim (mk c k g) n), neg (trim (mk c k g) n)))).
Proof.
  intros Hi E Em Hn. destruct n as [|m]; [lia|]. cbn [trim_h]. destruct (scan_ok N s o c Hi E m ltac:(lia)) as [S1 S2]. rewrite S1. cbn [bind].
  cbn [trim size neg mem]. unfold word0. cbn [mem].
  assert (Lo : o < length (meta s)) by (apply nth_error_Some; congruence).
  destruct (get_real_size (firstn (S m) c)) as [|[|r]] eqn:Er; [lia| |].
  - cbn [Nat.sub Nat.eqb andb]. unfold set_size_h, get. rewrite Em. cbn [bind fst snd].
    assert (W : word_h (mkh (bufs s) (upd (meta s) o (1, g))) o 0 = Ok (nth 0 c 0%Z)) by (apply (word_ok N); [exact Hi|exact E|lia]).
    rewrite W. cbn [bind]. destruct (Z.eqb (nth 0 c 0%Z) 0); [|reflexivity].
    unfold set_neg_h, get. cbn [meta bufs]. rewrite upd_same by exact Lo. cbn [bind fst]. rewrite upd_upd. reflexivity.
  - cbn [Nat.sub Nat.eqb andb]. unfold set_size_h, get. rewrite Em. reflexivity.
Qed.
Lemma set_neg_ok s o k g g' : nth_error (meta s) o = Some (k, g) -> set_neg_h s o g' = Ok (mkh (bufs s) (upd (meta s) o (k, g'))).
Proof. intros E. unfold set_neg_h, get. rewrite E. reflexivity. Qed.
