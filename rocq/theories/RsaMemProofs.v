(** The RSA verification over memory against the functions of RsaModel.v. *)
From Coq Require Import List ZArith Bool Lia.
From Verif Require Import Outcome UtilsModel UtilsSpec UtilsProofs MgfModel RsaModel RsaSpec RsaProofs RsaClaims WordsModel WordsProofs PowmModel PowmClaims
  RawModel RawSpec RawProofs RawAlloc PowmRawModel PowmRaw PowmRawMain WholeModel WholeProofs WholeView RsaMemModel.
Import ListNotations.
Open Scope nat_scope.
Notation at_ := RawModel.at_.

Lemma less_ok m s n bs : forall ns k i j, reads m (at_ s i) bs -> reads m (at_ n j) ns -> length bs = k -> length ns = k -> less_w k i j m s n = Ok (less_bytes bs ns).
Proof.
  induction bs as [|b bs IH]; intros ns k i j R S L1 L2; subst k; destruct ns as [|c ns]; try discriminate; [reflexivity|]. cbn [length less_w less_bytes].
  rewrite (reads_hd _ _ _ _ _ R), (reads_hd _ _ _ _ _ S). cbn [bind]. destruct (b <? c)%Z; [reflexivity|]. destruct (b >? c)%Z; [reflexivity|].
  apply IH; [exact (reads_tl _ _ _ _ _ R)|exact (reads_tl _ _ _ _ _ S)|reflexivity|]. cbn in L2. lia.
Qed.
Lemma valid_ok m s n bs ns : reads m s bs -> reads m n ns -> valid_w m s (length bs) n (length ns) = Ok (is_s_valid bs ns).
Proof.
  intros R S. unfold valid_w, is_s_valid. pose proof (zeros_ok m s bs 0) as Z1. pose proof (zeros_ok m n ns 0) as Z2. rewrite at_0 in Z1, Z2. rewrite (Z1 R). cbn [bind Nat.add].
  destruct (Nat.eqb _ _); [reflexivity|]. rewrite (Z2 S). cbn [bind Nat.add]. destruct (Nat.ltb_spec (leading_zeros bs) (leading_zeros ns)) as [A|A]; [reflexivity|].
  destruct (Nat.ltb_spec (length ns - leading_zeros ns) (length bs - leading_zeros bs)) as [C|C]; [reflexivity|]. destruct (Nat.ltb_spec (length bs - leading_zeros bs) (length ns - leading_zeros ns)) as [D|D]; [reflexivity|].
  pose proof (leading_zeros_le bs). pose proof (leading_zeros_le ns). apply less_ok; [apply reads_skipn; assumption|apply reads_skipn; assumption|rewrite skipn_length; reflexivity|rewrite skipn_length; lia].
Qed.
Lemma rsavp1_ok junk m sig exp mod_ bs es ms : modulus_fit ms -> all_bytes bs -> all_bytes es -> reads m sig bs -> reads m exp es -> reads m mod_ ms ->
  rsavp1_w junk m sig (length bs) exp (length es) mod_ (length ms) = (let* r := rsavp1 mod_exp_sw ms es bs in Ok (r, m)).
Proof.
  intros Fit Fb Fe Rb Re Rm. unfold rsavp1_w, rsavp1. rewrite (valid_ok m sig mod_ bs ms) by assumption. cbn [bind]. destruct (is_s_valid bs ms) eqn:V; [|reflexivity].
  apply view_agrees; try assumption. left. destruct Fit as (Fm & Nz & _). rewrite is_s_valid_spec in V by assumption. apply Z.ltb_lt. exact V.
Qed.

(** ** a block that holds exactly [v] *)
Definition blk (m : memory) (p : loc) (v : list Z) : Prop := snd p = 0 /\ forall k, rd m (fst p) k = nth_error v k.
Lemma blk_ld m p v i : blk m p v -> ld m p i = RsaModel.at_ v i.
Proof. intros [S H]. unfold ld, RsaModel.at_. rewrite S, Nat.add_0_l, H. reflexivity. Qed.
Lemma blk_reads m p v : blk m p v -> reads m p v.
Proof. intros [S H] j Hj. rewrite S, Nat.add_0_l, H. apply nth_error_nth'. exact Hj. Qed.
Lemma blk_part m p v i n : blk m p v -> i + n <= length v -> reads m (at_ p i) (firstn n (skipn i v)).
Proof. intros B H. apply reads_firstn. apply reads_skipn; [apply blk_reads; exact B|lia]. Qed.
Lemma blk_place m v : let (m1, p) := place m v in blk m1 p v.
Proof. cbn. split; [reflexivity|]. intros k. rewrite rd_app. cbn [fst]. rewrite Nat.ltb_irrefl, Nat.sub_diag. reflexivity. Qed.
Lemma blk_extends m m1 p v : extends m m1 -> fst p < length m -> blk m p v -> blk m1 p v.
Proof. intros X L [S H]. split; [exact S|]. intros k. rewrite (extends_rd m m1) by assumption. apply H. Qed.
Lemma memcmp_ok m p q a b n : reads m p a -> reads m q b -> length a = n -> length b = n -> memcmp_w m p q n = Ok (bytes_eqb a b).
Proof.
  intros R S L1 L2. unfold memcmp_w. rewrite <- L1 at 1. rewrite load_n_ok by (rewrite at_0; exact R). cbn [bind]. rewrite <- L2. rewrite load_n_ok by (rewrite at_0; exact S). reflexivity.
Qed.
Lemma gen_t_ok m t prefix digest : room m t (length prefix + length digest) -> fst t < length m ->
  exists m1, gen_t_w m t prefix digest = Ok m1 /\ reads m1 t (prefix ++ digest) /\ length m <= length m1 /\ (forall b k, b < length m -> b <> fst t -> rd m1 b k = rd m b k).
Proof.
  intros Ro Lt. unfold gen_t_w. destruct (place_ok m prefix) as (m1 & -> & X1 & R1 & L1).
  destruct (memcpy_ok m1 t (length m, 0) (length prefix) prefix) as (m2 & -> & W2); [reflexivity|exact R1|apply (extends_room _ _ _ _ X1); rewrite <- (at_0 t); apply (room_sub m t _ 0 _ Ro); lia|left; cbn; lia|]. cbn [bind].
  destruct (place_ok m2 digest) as (m3 & -> & X3 & R3 & L3). assert (L2 : length m2 = length m1) by (destruct W2 as [S _]; rewrite <- !shape_length, S; reflexivity).
  assert (Ro3 : room m3 (at_ t (length prefix)) (length digest)). { apply (extends_room _ _ _ _ X3). apply (writes_room _ _ _ _ _ _ W2). apply (extends_room _ _ _ _ X1). apply (room_sub m t _ _ _ Ro). lia. }
  destruct (memcpy_ok m3 (at_ t (length prefix)) (length m2, 0) (length digest) digest) as (m4 & -> & W4); [reflexivity|exact R3|exact Ro3|left; cbn; lia|].
  exists m4. split; [reflexivity|]. assert (L4 : length m4 = length m3) by (destruct W4 as [S _]; rewrite <- !shape_length, S; reflexivity). split; [|split; [lia|]].
  - apply reads_app. split; [|exact (writes_reads _ _ _ _ W4)]. apply (writes_frame _ _ _ _ _ _ W4); [apply (extends_reads _ _ _ _ X3); exact (writes_reads _ _ _ _ W2)|]. right; right. cbn. lia.
  - intros b k Hb Ht. destruct W4 as [_ W4]. rewrite (proj2 (W4 b k)) by (intros [E _]; cbn in E; congruence). rewrite (extends_rd _ _ b k X3) by lia. destruct W2 as [_ W2]. rewrite (proj2 (W2 b k)) by (intros [E _]; congruence). apply (extends_rd _ _ _ _ X1). exact Hb.
Qed.
Lemma leave_of m m1 : length m <= length m1 -> (forall b k, b < length m -> rd m1 b k = rd m b k) -> leave m m1 = m.
Proof.
  intros L H. unfold leave. apply nth_error_same. intros b. destruct (le_lt_dec (length m) b) as [G|G].
  - rewrite !(proj2 (nth_error_None _ b)) by (rewrite ?firstn_length; lia). reflexivity.
  - assert (E : nth_error (firstn (length m) m1) b = nth_error m1 b). { rewrite <- (firstn_skipn (length m) m1) at 2. rewrite nth_error_app1 by (rewrite firstn_length; lia). reflexivity. }
    rewrite E. destruct (nth_error m b) as [d|] eqn:D; [|apply nth_error_None in D; lia]. destruct (nth_error m1 b) as [d1|] eqn:D1; [|apply nth_error_None in D1; lia].
    f_equal. apply nth_error_same. intros k. specialize (H b k G). unfold rd in H. rewrite D, D1 in H. exact H.
Qed.
(** the blocks of [m] are those of [m1] *)
Definition kept (m m1 : memory) : Prop := length m <= length m1 /\ forall b k, b < length m -> rd m1 b k = rd m b k.
Lemma kept_refl m : kept m m. Proof. split; [lia|reflexivity]. Qed.
Lemma kept_extends m m1 : extends m m1 -> kept m m1.
Proof. intros X. split; [apply extends_length; exact X|]. intros b k Hb. apply extends_rd; assumption. Qed.
Lemma kept_trans m m1 m2 : kept m m1 -> kept m1 m2 -> kept m m2.
Proof. intros [L1 H1] [L2 H2]. split; [lia|]. intros b k Hb. rewrite H2 by lia. apply H1. exact Hb. Qed.
Lemma pkcs1_check_ok jt m em v prefix digest : blk m em v -> fst em < length m ->
  exists m1, pkcs1_check_w jt m em (length v) prefix digest = (let* b := pkcs1_check v (prefix ++ digest) in Ok (b, m1)) /\ kept m m1.
Proof.
  intros B Lb. unfold pkcs1_check_w, pkcs1_check. rewrite app_length. set (tl := length prefix + length digest).
  destruct (Nat.ltb_spec (length v) (tl + 11)) as [S|S]; [exists m; split; [reflexivity|apply kept_refl]|].
  rewrite !(blk_ld m em v _ B). set (pl := length v - tl - 3).
  destruct (RsaModel.at_ v 0) as [b0| | |]; cbn [bind]; try (exists m; split; [reflexivity|apply kept_refl]). destruct (RsaModel.at_ v 1) as [b1| | |]; cbn [bind]; try (exists m; split; [reflexivity|apply kept_refl]).
  destruct (_ || _); [exists m; split; [reflexivity|apply kept_refl]|]. destruct (RsaModel.at_ v 2) as [b2| | |]; cbn [bind]; try (exists m; split; [reflexivity|apply kept_refl]). destruct (RsaModel.at_ v (2 + pl)) as [bz| | |]; cbn [bind]; try (exists m; split; [reflexivity|apply kept_refl]).
  destruct (_ || _); [exists m; split; [reflexivity|apply kept_refl]|]. unfold slice. rewrite !(proj2 (Nat.leb_le _ _)) by (unfold pl; lia). cbn [bind].
  rewrite (memcmp_ok m (at_ em 3) (at_ em 2) (firstn (pl - 1) (skipn 3 v)) (firstn (pl - 1) (skipn 2 v))); [|apply blk_part; [exact B|unfold pl; lia]|apply blk_part; [exact B|unfold pl; lia]|rewrite firstn_length, skipn_length; unfold pl; lia|rewrite firstn_length, skipn_length; unfold pl; lia].
  cbn [bind]. destruct (negb _); [exists m; split; [reflexivity|apply kept_refl]|].
  destruct (alloca_ok m jt tl) as (m1 & -> & X1 & R1 & L1). destruct (gen_t_ok m1 (length m, 0) prefix digest R1) as (m2 & -> & R2 & L2 & K2); [cbn; lia|]. cbn [bind].
  assert (K : kept m m2). { split; [lia|]. intros b k Hb. rewrite K2 by (cbn [fst]; lia). apply (extends_rd _ _ _ _ X1). exact Hb. }
  assert (B2 : blk m2 em v). { destruct B as [B0 B1]. split; [exact B0|]. intros k. rewrite (proj2 K) by exact Lb. apply B1. }
  exists m2. split; [|exact K]. rewrite (memcmp_ok m2 (at_ em (3 + pl)) (length m, 0) (firstn tl (skipn (3 + pl) v)) (prefix ++ digest)); [reflexivity|apply blk_part; [exact B2|unfold pl; lia]|exact R2|rewrite firstn_length, skipn_length; unfold pl; lia|apply app_length].
Qed.
Lemma kept_leave m m1 : kept m m1 -> leave m m1 = m. Proof. intros [L H]. apply leave_of; assumption. Qed.
Lemma pkcs1_agrees junk jt m sig exp mod_ bs es ms prefix digest : modulus_fit ms -> all_bytes bs -> all_bytes es -> reads m sig bs -> reads m exp es -> reads m mod_ ms ->
  pkcs1_w junk jt m sig (length bs) exp (length es) mod_ (length ms) prefix digest = (let* b := rsassa_pkcs1_v1_5_verify mod_exp_sw ms es bs (prefix ++ digest) in Ok (b, m)).
Proof.
  intros Fit Fb Fe Rb Re Rm. unfold pkcs1_w, rsassa_pkcs1_v1_5_verify. destruct (negb _); [reflexivity|]. rewrite (rsavp1_ok junk m sig exp mod_ bs es ms) by assumption.
  destruct (rsavp1 mod_exp_sw ms es bs) as [v| | |]; cbn [bind fst snd]; try reflexivity. destruct (place_ok m v) as (m1 & E & X & R & L). pose proof (blk_place m v) as B. rewrite E in B. rewrite E.
  destruct (pkcs1_check_ok jt m1 (length m, 0) v prefix digest B) as (m2 & -> & K); [cbn; lia|]. destruct (pkcs1_check v (prefix ++ digest)) as [b| | |]; cbn [bind fst snd]; try reflexivity.
  rewrite (kept_leave m m2); [reflexivity|]. apply (kept_trans m m1 m2); [apply kept_extends; exact X|exact K].
Qed.

(** ** memxor *)
Lemma writes_length m p ws m1 : writes m p ws m1 -> length m1 = length m.
Proof. intros [S _]. rewrite <- !shape_length, S. reflexivity. Qed.
Lemma load_at n : forall m p j i, load_n m (at_ p j) i n = load_n m p (j + i) n.
Proof.
  induction n as [|n IH]; intros m p j i; [reflexivity|]. cbn [load_n]. replace (ld m (at_ p j) i) with (ld m p (j + i)) by (unfold ld; cbn [RawModel.at_ fst snd]; rewrite Nat.add_assoc; reflexivity).
  rewrite IH, Nat.add_succ_r. reflexivity.
Qed.
Lemma load_words_firstn n : forall l, 4 * n <= length l -> load_words n (firstn (4 * n) l) = load_words n l.
Proof.
  induction n as [|n IH]; intros l H; [reflexivity|]. destruct l as [|a [|b [|c [|d l]]]]; cbn [length] in H; try lia. replace (4 * S n) with (S (S (S (S (4 * n))))) by lia. cbn [firstn load_words]. rewrite IH by lia. reflexivity.
Qed.
Lemma load_words_len n : forall l ws, load_words n l = Some ws -> length ws = n.
Proof.
  induction n as [|n IH]; intros l ws H; [injection H as <-; reflexivity|]. destruct l as [|a [|b [|c [|d l]]]]; try discriminate. cbn [load_words] in H. destruct (load_words n l) eqn:E; [|discriminate]. injection H as <-. cbn. f_equal. exact (IH _ _ E).
Qed.
Lemma blocks_ok nb : forall i m dst src ds ss r, 16 * nb <= length ds -> 16 * nb <= length ss -> reads m (at_ dst i) ds -> reads m (at_ src i) ss -> fst dst <> fst src -> memxor_blocks nb ds ss = Ok r ->
  exists m1, memxor_blocks_w nb i m dst src = Ok m1 /\ writes m (at_ dst i) r m1 /\ length r = 16 * nb.
Proof.
  induction nb as [|nb IH]; intros i m dst src ds ss r Ld Ls Rd Rs D H; [injection H as <-; exists m; split; [reflexivity|]; split; [apply writes_nil|reflexivity]|].
  cbn [memxor_blocks memxor_blocks_w] in *. destruct (load_words 4 ds) as [x|] eqn:X; [|discriminate]. destruct (load_words 4 ss) as [y|] eqn:Y; [|discriminate]. destruct (memxor_blocks nb (skipn 16 ds) (skipn 16 ss)) as [r'| | |] eqn:E; try discriminate. cbn [bind] in H. injection H as <-.
  assert (LD : forall p l, reads m (at_ p i) l -> 16 <= length l -> load_n m p i 16 = Ok (firstn 16 l)). { intros p l R L. replace 16 with (length (firstn 16 l)) at 1 by (rewrite firstn_length; lia). apply load_n_ok. apply reads_firstn. exact R. }
  rewrite (LD dst ds Rd) by lia. rewrite (LD src ss Rs) by lia. cbn [bind]. change 16 with (4 * 4). rewrite !load_words_firstn by lia. rewrite X, Y. change (4 * 4) with 16. set (w := concat (map word_le (map2 Z.lxor x y))).
  assert (Lw : length w = 16). { pose proof (load_words_len _ _ _ X) as Lx. pose proof (load_words_len _ _ _ Y) as Ly. unfold w. destruct x as [|? [|? [|? [|? [|]]]]]; try discriminate. destruct y as [|? [|? [|? [|? [|]]]]]; try discriminate. reflexivity. }
  destruct (store_n_ok w m dst i) as (m1 & -> & W1). { intros j Hj. rewrite Lw in Hj. rewrite (Rd j) by lia. discriminate. } cbn [bind].
  destruct (IH (16 + i) m1 dst src (skipn 16 ds) (skipn 16 ss) r') as (m2 & E2 & W2 & L2); try assumption; [rewrite skipn_length; lia|rewrite skipn_length; lia| | |].
  - apply (writes_frame _ _ _ _ _ _ W1). { replace (16 + i) with (i + 16) by lia. rewrite <- at_at. apply reads_skipn; [exact Rd|lia]. } right; left. rewrite Lw. cbn. lia.
  - apply (writes_frame _ _ _ _ _ _ W1). { replace (16 + i) with (i + 16) by lia. rewrite <- at_at. apply reads_skipn; [exact Rs|lia]. } left. exact D.
  - exists m2. split; [exact E2|]. split; [|rewrite app_length, Lw, L2; lia]. apply (writes_up _ _ _ _ _ _ W1). rewrite Lw, at_at. replace (i + 16) with (16 + i) by lia. exact W2.
Qed.
Lemma tail_ok k : forall i m dst src ds ss, k <= length ds -> k <= length ss -> reads m (at_ dst i) ds -> reads m (at_ src i) ss -> fst dst <> fst src ->
  exists m1 r, memxor_tail_w k i m dst src = Ok m1 /\ writes m (at_ dst i) r m1 /\ length r = k /\ memxor_tail k ds ss = Ok (r ++ skipn k ds).
Proof.
  induction k as [|k IH]; intros i m dst src ds ss Ld Ls Rd Rs D; [exists m, []; split; [reflexivity|]; split; [apply writes_nil|]; split; reflexivity|].
  destruct ds as [|d ds]; [cbn in Ld; lia|]. destruct ss as [|s ss]; [cbn in Ls; lia|]. cbn [memxor_tail memxor_tail_w]. rewrite (reads_hd _ _ _ _ _ Rd), (reads_hd _ _ _ _ _ Rs). cbn [bind].
  destruct (st_ok m dst i (Z.lxor d s)) as (m1 & -> & W1). { pose proof (Rd 0 ltac:(cbn; lia)) as R0. cbn [RawModel.at_ fst snd] in R0. rewrite Nat.add_0_r in R0. rewrite R0. discriminate. } cbn [bind].
  destruct (IH (S i) m1 dst src ds ss) as (m2 & r & E & W & L & V); try assumption; [cbn in Ld; lia|cbn in Ls; lia| | |].
  - apply (writes_frame _ _ _ _ _ _ W1); [exact (reads_tl _ _ _ _ _ Rd)|right; left; cbn; lia].
  - apply (writes_frame _ _ _ _ _ _ W1); [exact (reads_tl _ _ _ _ _ Rs)|left; exact D].
  - exists m2, (Z.lxor d s :: r). split; [exact E|]. split; [|split; [cbn; lia|rewrite V; reflexivity]]. apply (writes_up m (at_ dst i) [_] m1 r m2 W1). rewrite at_at. cbn [length]. rewrite Nat.add_1_r. exact W.
Qed.
Lemma memxor_w_ok m dst src ds ss num : all_bytes ds -> all_bytes ss -> reads m dst ds -> reads m src ss -> fst dst <> fst src ->
  let k := Nat.min (Nat.min num (length ds)) (length ss) in
  exists m1 r, memxor_w m dst (length ds) src (length ss) num = Ok m1 /\ writes m dst r m1 /\ length r = k /\ memxor ds ss num = Ok (r ++ skipn k ds).
Proof.
  intros Fd Fs Rd Rs D k. unfold memxor_w, memxor. fold k. set (nb := k - k mod 16). assert (Hk : k <= length ds /\ k <= length ss) by (unfold k; lia). pose proof (Nat.mod_le k 16 ltac:(lia)) as Hm. assert (H16 : 16 * (nb / 16) = nb).
  { unfold nb. pose proof (Nat.div_mod k 16 ltac:(lia)) as Q. replace (k - k mod 16) with (k / 16 * 16) by lia. rewrite Nat.div_mul by lia. lia. }
  assert (Hn : nb <= k) by (unfold nb; lia).
  set (r1 := map2 Z.lxor (firstn nb ds) (firstn nb ss)). assert (MB : memxor_blocks (nb / 16) ds ss = Ok r1) by (unfold r1; rewrite memxor_blocks_ok by (try assumption; lia); rewrite H16; reflexivity).
  destruct (blocks_ok (nb / 16) 0 m dst src ds ss r1) as (m1 & -> & W1 & L1); [lia|lia|rewrite at_0; exact Rd|rewrite at_0; exact Rs|exact D|exact MB|].
  rewrite MB. rewrite H16 in L1. cbn [bind]. rewrite at_0 in W1.
  destruct (tail_ok (k - nb) nb m1 dst src (skipn nb ds) (skipn nb ss)) as (m2 & r2 & -> & W2 & L2 & V2); [rewrite skipn_length; lia|rewrite skipn_length; lia| | |exact D|].
  - apply (writes_frame _ _ _ _ _ _ W1); [apply reads_skipn; [exact Rd|lia]|right; left; cbn; lia].
  - apply (writes_frame _ _ _ _ _ _ W1); [apply reads_skipn; [exact Rs|lia]|left; exact D].
  - exists m2, (r1 ++ r2). split; [reflexivity|]. split; [apply (writes_up _ _ _ _ _ _ W1); rewrite L1; exact W2|]. split; [rewrite app_length; lia|]. rewrite V2. cbn [bind]. rewrite skipn_skipn'. replace (k - nb + nb) with k by lia. rewrite app_assoc. reflexivity.
Qed.

(** ** mgf1 *)
Section MGF.
Variables (hash : list Z -> list Z) (hlen : nat).
Hypothesis HK : hash_ok hash hlen.
Lemma loop_ok fuel : forall m buf seed mask sd mk c, all_bytes mk -> length mk <= fuel -> reads m seed sd -> reads m mask mk -> room m buf (length sd + 4) -> fst buf <> fst seed -> fst buf <> fst mask -> apart mask (length mk) seed (length sd) ->
  fst buf < length m -> fst mask < length m -> fst seed < length m ->
  exists m1 r, mgf1_loop_w hash fuel m buf seed (length sd) mask (length mk) c = Ok m1 /\ mgf1_loop hash copy_xor fuel sd mk c = Ok r /\ length r = length mk /\ reads m1 mask r /\ length m <= length m1 /\
    (forall b k, b < length m -> b <> fst buf -> ~ within mask (length mk) b k -> rd m1 b k = rd m b k).
Proof.
  destruct HK as (H0 & HL & HB). induction fuel as [|fuel IH]; intros m buf seed mask sd mk c Fm Lf Rs Rm Rb N1 N2 Ap B1 B2 B3.
  - destruct mk; [|cbn in Lf; lia]. exists m, []. split; [reflexivity|]. split; [reflexivity|]. split; [reflexivity|]. split; [exact Rm|]. split; [lia|reflexivity].
  - destruct mk as [|x mk']; [exists m, []; split; [reflexivity|]; split; [reflexivity|]; split; [reflexivity|]; split; [exact Rm|]; split; [lia|reflexivity]|].
    cbn [mgf1_loop mgf1_loop_w length]. set (mk := x :: mk') in *. change (S (length mk')) with (length mk).
    destruct (memcpy_ok m buf seed (length sd) sd) as (m1 & -> & W1); [reflexivity|exact Rs|rewrite <- (at_0 buf); apply (room_sub m buf _ 0 _ Rb); lia|left; exact N1|]. cbn [bind].
    destruct (store_n_ok (counter_bytes c) m1 buf (length sd)) as (m2 & -> & W2). { apply (writes_room _ _ _ _ _ _ W1). apply (room_sub m buf _ _ _ Rb). cbn. lia. } cbn [bind].
    assert (W : writes m buf (sd ++ counter_bytes c) m2) by exact (writes_up _ _ _ _ _ _ W1 W2). pose proof (writes_length _ _ _ _ W) as Lm2.
    assert (LD : load_n m2 buf 0 (length sd + 4) = Ok (sd ++ counter_bytes c)). { replace (length sd + 4) with (length (sd ++ counter_bytes c)) by (rewrite app_length; reflexivity). apply load_n_ok. rewrite at_0. exact (writes_reads _ _ _ _ W). }
    rewrite LD. cbn [bind]. set (dg := hash (sd ++ counter_bytes c)) in *. destruct (place_ok m2 dg) as (m3 & -> & X3 & R3 & L3). assert (Ldg : length dg = hlen) by apply HL. set (k := Nat.min (length dg) (length mk)).
    assert (F2 : forall b j, b <> fst buf -> rd m2 b j = rd m b j). { intros b j Hb. destruct W as [_ W]. apply W. intros [E _]. congruence. }
    assert (Rm2 : reads m2 mask mk) by (intros j Hj; rewrite F2 by congruence; apply Rm; exact Hj). assert (Rs2 : reads m2 seed sd) by (intros j Hj; rewrite F2 by congruence; apply Rs; exact Hj).
    destruct (memxor_w_ok m3 mask (length m2, 0) mk dg k Fm (HB _)) as (m4 & r1 & E4 & W4 & L4 & V4); [exact (extends_reads _ _ _ _ X3 Rm2)|exact R3|cbn; lia|]. rewrite E4. unfold copy_xor in *. rewrite V4. cbn [bind]. replace (Nat.min (Nat.min k (length mk)) (length dg)) with k in * by (unfold k; lia).
    assert (Kp : 1 <= k <= length mk) by (unfold k, mk; cbn [length]; lia).
    rewrite skipn_app, skipn_all2 by lia. rewrite L4, Nat.sub_diag, skipn_O. cbn [app]. rewrite firstn_app, L4, Nat.sub_diag, firstn_O, app_nil_r, firstn_all2 by lia.
    pose proof (writes_length _ _ _ _ W4) as Lm4. assert (F4 : forall b j, b < length m2 -> ~ within mask k b j -> rd m4 b j = rd m2 b j). { intros b j Hb Hw. destruct W4 as [_ W4]. rewrite L4 in W4. rewrite (proj2 (W4 b j)) by exact Hw. apply (extends_rd _ _ _ _ X3). exact Hb. }
    destruct (IH m4 buf seed (at_ mask k) sd (skipn k mk) ((c + 1) mod 2 ^ 32)%Z) as (m5 & r2 & E5 & V5 & L5 & R5 & Lm5 & F5).
    + apply Forall_skipn. exact Fm.
    + rewrite skipn_length. lia.
    + intros j Hj. rewrite F4; [apply Rs2; exact Hj|lia|]. intros [E Hw]. unfold apart in Ap. lia.
    + apply (writes_frame _ _ _ _ _ _ W4). { apply (extends_reads _ _ _ _ X3). apply reads_skipn; [exact Rm2|lia]. } right; left. rewrite L4. cbn. lia.
    + apply (writes_room _ _ _ _ _ _ W4). apply (extends_room _ _ _ _ X3). apply (writes_room _ _ _ _ _ _ W). exact Rb.
    + exact N1.
    + exact N2.
    + unfold apart in *. rewrite skipn_length. cbn [fst snd RawModel.at_]. lia.
    + lia.
    + cbn. lia.
    + lia.
    + rewrite skipn_length in E5. exists m5, (r1 ++ r2). split; [exact E5|]. rewrite V5. cbn [bind]. split; [reflexivity|]. split; [rewrite app_length, L4, L5, skipn_length; lia|]. split; [|split; [lia|]].
      * apply reads_app. rewrite L4. split; [|exact R5]. intros j Hj. rewrite F5; [apply (writes_reads _ _ _ _ W4); exact Hj|lia|congruence|]. intros [_ Hw]. cbn in Hw. lia.
      * intros b j Hb Nb Hw. rewrite F5; [rewrite F4; [apply F2; exact Nb|lia|]|lia|exact Nb|]; intros [E Hv]; apply Hw; (split; [exact E|]); cbn in Hv; rewrite ?skipn_length in Hv; lia.
Qed.
Lemma mgf1_ok jb m seed mask sd mk : all_bytes mk -> reads m seed sd -> reads m mask mk -> apart mask (length mk) seed (length sd) -> fst mask < length m -> fst seed < length m ->
  exists m1 r, mgf1_w hash jb m seed (length sd) mask (length mk) = Ok m1 /\ mgf1 hash copy_xor sd mk = Ok r /\ length r = length mk /\ reads m1 mask r /\ length m <= length m1 /\
    (forall b k, b < length m -> ~ within mask (length mk) b k -> rd m1 b k = rd m b k).
Proof.
  intros Fm Rs Rm Ap B2 B3. unfold mgf1_w, mgf1. destruct (alloca_ok m jb (length sd + 4)) as (m1 & -> & X & R & L).
  destruct (loop_ok (length mk) m1 (length m, 0) seed mask sd mk 0%Z) as (m2 & r & E & V & Lr & Rr & Lm & F); try assumption; cbn [fst]; try lia; [exact (extends_reads _ _ _ _ X Rs)|exact (extends_reads _ _ _ _ X Rm)|].
  exists m2, r. split; [exact E|]. split; [exact V|]. split; [exact Lr|]. split; [exact Rr|]. split; [lia|]. intros b k Hb Hw. rewrite F; [apply (extends_rd _ _ _ _ X); exact Hb|lia|cbn; lia|exact Hw].
Qed.
End MGF.
