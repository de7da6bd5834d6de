(** Proofs about c/powm.h: [br_i32_reduce], bit lengths and the byte conversions. *)
From Coq Require Import List ZArith Bool Lia.
From Verif Require Import Outcome UtilsModel UtilsSpec UtilsProofs RsaModel RsaSpec RsaProofs ShaModel ShaProofs BitLemmas WordsModel WordsSpec WordsProofs PowmModel PowmProofs PowmArith PowmReduce.
Import ListNotations.
Open Scope Z_scope.

Lemma firstn_S_snoc u (l : list Z) : (u < length l)%nat -> firstn (S u) l = firstn u l ++ [nth u l 0].
Proof.
  revert l. induction u as [|u IH]; intros [|a l] H; cbn [length] in H; try lia; [reflexivity|].
  change (a :: firstn (S u) l = a :: firstn u l ++ [nth u l 0]). f_equal. apply IH. lia.
Qed.
Lemma firstn_add_app a b (l : list Z) : firstn (a + b) l = firstn a l ++ firstn b (skipn a l).
Proof. revert l. induction a as [|a IH]; intros l; [reflexivity|]. destruct l as [|x l]; [cbn; rewrite firstn_nil; reflexivity|]. cbn [Nat.add firstn skipn app]. f_equal. apply IH. Qed.
(** ** [br_i32_reduce] *)
Lemma reduce_loop_spec h mw ah aw u : modulus_ok h mw -> all_words aw -> (u <= length aw)%nat -> forall xw rest, all_words xw -> all_words rest ->
  length xw = length mw -> eval xw < eval mw ->
  exists r, reduce_loop u (h, xw ++ rest) (ah, aw) (h, mw) = Ok (h, r ++ rest) /\ all_words r /\ length r = length mw /\
    eval r = (eval xw * Bn u + eval (firstn u aw)) mod eval mw.
Proof.
  intros Hm Ha. induction u as [|u IH]; intros Hu xw rest Hx Hr Lx HX.
  - cbn [reduce_loop firstn]. exists xw. split; [reflexivity|]. split; [exact Hx|]. split; [exact Lx|]. rewrite eval_nil, Bn_0. rewrite Z.mod_small; [ring|]. pose proof (eval_range xw Hx). lia.
  - cbn [reduce_loop snd]. rewrite at_ok by lia. cbn [bind].
    destruct (muladd_spec h mw xw rest (nth u aw 0) Hm Hx Hr Lx (nth_word aw u Ha) HX) as (r & R1 & R2 & R3 & R4). rewrite R1. cbn [bind].
    assert (HM : 0 < eval mw) by (pose proof (eval_range xw Hx); lia).
    destruct (IH ltac:(lia) r rest R2 Hr R3 ltac:(rewrite R4; apply Z.mod_pos_bound; exact HM)) as (r' & I1 & I2 & I3 & I4). exists r'. split; [exact I1|]. split; [exact I2|]. split; [exact I3|].
    rewrite I4, R4. assert (EF : firstn (S u) aw = firstn u aw ++ [nth u aw 0]).
    { rewrite <- (firstn_skipn u aw) at 1. rewrite firstn_app, firstn_length_le by lia. replace (S u - u)%nat with 1%nat by lia. rewrite firstn_all2 by (rewrite firstn_length_le; lia). f_equal. rewrite (skipn_cons u aw 0) by lia. reflexivity. }
    rewrite EF, eval_snoc, firstn_length_le, Bn_S by lia. rewrite <- Z.add_mod_idemp_l, Z.mul_mod_idemp_l, Z.add_mod_idemp_l by lia. f_equal. ring.
Qed.
Lemma br_i32_reduce_spec h mw x ah aw : modulus_ok h mw -> all_words aw -> all_words x -> (length mw <= length x)%nat -> h <= ah -> ah + 31 < B ->
  length aw = nwords ah ->
  exists r, br_i32_reduce x (ah, aw) (h, mw) = Ok (h, r ++ skipn (length mw) x) /\ all_words r /\ length r = length mw /\ eval r = eval aw mod eval mw.
Proof.
  intros Hm Ha Hx Lx Hah HB La. pose proof Hm as (H0 & Hh & Wm & Lm & HM). unfold br_i32_reduce. cbn [fst snd]. cbv zeta.
  rewrite !nwords_shift by lia. rewrite <- Lm, <- La. rewrite (proj2 (Z.eqb_neq h 0)), (proj2 (Z.ltb_ge ah h)) by lia.
  pose proof (nwords_bits h H0) as N1. pose proof (nwords_bits ah ltac:(lia)) as N2. rewrite <- Lm in N1. rewrite <- La in N2.
  assert (LL : (length mw <= length aw)%nat) by lia. assert (L1 : (1 <= length mw)%nat) by lia.
  set (u := (1 + (length aw - length mw))%nat). assert (Lsk : length (skipn u aw) = (length mw - 1)%nat) by (rewrite skipn_length; unfold u; lia).
  rewrite take_all by exact Lsk. cbn [bind]. rewrite (proj2 (Nat.leb_le _ _)) by exact Lx. replace (1 + length aw - length mw)%nat with u by (unfold u; lia).
  change (skipn u aw ++ 0 :: skipn (length mw) x) with (skipn u aw ++ [0] ++ skipn (length mw) x). rewrite app_assoc.
  assert (Wx : all_words (skipn u aw ++ [0])) by (apply words_app; split; [apply words_skipn; exact Ha|apply words_cons; split; [pose proof B_pos; lia|apply words_nil]]).
  assert (EX : eval (skipn u aw ++ [0]) = eval (skipn u aw)) by (rewrite eval_snoc; ring).
  destruct (reduce_loop_spec h mw ah aw u Hm Ha ltac:(unfold u; lia) (skipn u aw ++ [0]) (skipn (length mw) x) Wx (words_skipn _ _ Hx)) as (r & R1 & R2 & R3 & R4).
  - rewrite app_length, Lsk. cbn [length]. lia.
  - rewrite EX. pose proof (eval_range _ (words_skipn u aw Ha)) as RX. rewrite Lsk in RX. rewrite Bn_pow2 in RX.
    assert (2 ^ (32 * Z.of_nat (length mw - 1)) <= 2 ^ (h - 1)) by (apply Z.pow_le_mono_r; lia). lia.
  - rewrite R1. exists r. split; [reflexivity|]. split; [exact R2|]. split; [exact R3|]. rewrite R4, EX. f_equal. rewrite (eval_split u aw) by (unfold u; lia). ring.
Qed.

(** ** [br_i32_bit_length] *)
Lemma bit_length_fold x : all_words x -> forall i, Z.of_nat i + Z.of_nat (length x) < B ->
  let s := fold_right (fun p s => bit_length_step (fst p) (snd p) s) (0, 0) (combine (seq i (length x)) x) in
  w32 (fst s) /\ w32 (snd s) /\
  (eval x = 0 -> fst s = 0 /\ (x <> [] -> snd s = Z.of_nat i) /\ (x = [] -> snd s = 0)) /\
  (eval x <> 0 -> fst s <> 0 /\ exists k, snd s = Z.of_nat (i + k) /\ bits (eval x) = 32 * Z.of_nat k + bits (fst s)).
Proof.
  induction x as [|a x IH]; intros Hx i HB; cbn [length seq combine fold_right fst snd].
  - assert (w32 0) by (split; [lia|reflexivity]). split; [assumption|]. split; [assumption|]. split; [|intros E; exfalso; apply E; reflexivity]. intros _. split; [reflexivity|]. split; [intros E; exfalso; apply E; reflexivity|reflexivity].
  - apply words_cons in Hx as [Ha Hx]. cbn [length] in HB. specialize (IH Hx (S i) ltac:(lia)). cbv zeta in IH. set (s := fold_right _ _ _) in *. clearbody s. destruct IH as (W1 & W2 & I1 & I2).
    assert (W0 : w32 0) by (split; [lia|reflexivity]). assert (Ei : Z.of_nat i mod B = Z.of_nat i) by (apply Z.mod_small; lia).
    unfold bit_length_step. cbn [fst snd]. rewrite EQ_spec by assumption. rewrite Ei. rewrite !MUX_spec by (assumption || (split; lia)). rewrite eval_cons.
    pose proof (eval_range x Hx) as RX. pose proof B_pos as BP.
    destruct (Z.eq_dec (eval x) 0) as [E|N].
    + destruct (I1 E) as (E1 & _). rewrite E1. cbn [Z.eqb]. rewrite E. split; [exact Ha|]. split; [split; lia|]. rewrite Z.mul_0_r, Z.add_0_r. split.
      * intros ->. split; [reflexivity|]. split; [reflexivity|discriminate].
      * intros N. split; [exact N|]. exists 0%nat. rewrite Nat.add_0_r. split; [reflexivity|]. lia.
    + destruct (I2 N) as (N1 & k & K1 & K2). rewrite (proj2 (Z.eqb_neq (fst s) 0)) by exact N1. split; [exact W1|]. split; [exact W2|]. split; [intros E; nia|].
      intros _. split; [exact N1|]. exists (S k). split; [rewrite K1; f_equal; lia|].
      rewrite (bits_div (a + B * eval x) 32) by (try lia; rewrite <- B32; nia). rewrite Z.shiftr_div_pow2 by lia. rewrite <- B32.
      replace ((a + B * eval x) / B) with (eval x) by (apply (Z.div_unique _ _ _ a); [left; exact Ha|ring]). rewrite K2. lia.
Qed.
Lemma bits_upper x n : 0 <= x -> 0 <= n -> x < 2 ^ n -> bits x <= n.
Proof.
  intros H0 Hn H. unfold bits. destruct (Z.eqb_spec x 0); [lia|]. assert (Z.log2 x < n) by (apply Z.log2_lt_pow2; lia). lia.
Qed.
Lemma br_i32_bit_length_spec x : all_words x -> 32 * Z.of_nat (length x) < B -> br_i32_bit_length x = bits (eval x).
Proof.
  intros Hx HB. unfold br_i32_bit_length. cbv zeta. pose proof (bit_length_fold x Hx 0 ltac:(lia)) as F. cbv zeta in F. set (s := fold_right _ _ _) in *. clearbody s. destruct F as (W1 & W2 & F1 & F2).
  rewrite BIT_LENGTH_spec by exact W1. rewrite Z.shiftl_mul_pow2 by lia. change (2 ^ 5) with 32. destruct (Z.eq_dec (eval x) 0) as [E|N].
  - destruct (F1 E) as (A & Bq & C). rewrite E, A. assert (S0 : snd s = 0) by (destruct x; [apply C; reflexivity|apply Bq; discriminate]). rewrite S0. reflexivity.
  - destruct (F2 N) as (A & k & K1 & K2). rewrite K1, Nat.add_0_l in *. pose proof (eval_range x Hx) as RX. rewrite Bn_pow2 in RX.
    pose proof (bits_upper (eval x) (32 * Z.of_nat (length x)) ltac:(lia) ltac:(lia) ltac:(lia)) as U. pose proof (bits_nonneg (fst s)). rewrite (Z.mod_small (Z.of_nat k * 32)) by lia. rewrite Z.mod_small by lia. lia.
Qed.

(** ** Byte conversions *)
Lemma be32_at_ok b o : all_bytes b -> (o + 4 <= length b)%nat -> be32_at b o = Ok (OS2IP (firstn 4 (skipn o b))).
Proof.
  intros Hb HL. unfold be32_at. rewrite !at_ok by lia. cbn [bind].
  pose proof (nth_byte b o Hb) as B0. pose proof (nth_byte b (o + 1) Hb) as B1. pose proof (nth_byte b (o + 2) Hb) as B2. pose proof (nth_byte b (o + 3) Hb) as B3.
  assert (E : firstn 4 (skipn o b) = [nth o b 0; nth (o + 1) b 0; nth (o + 2) b 0; nth (o + 3) b 0]).
  { rewrite (skipn_cons o b 0) by lia. rewrite (skipn_cons (S o) b 0) by lia. rewrite (skipn_cons (S (S o)) b 0) by lia. rewrite (skipn_cons (S (S (S o))) b 0) by lia.
    cbn [firstn]. replace (o + 1)%nat with (S o) by lia. replace (o + 2)%nat with (S (S o)) by lia. replace (o + 3)%nat with (S (S (S o))) by lia. reflexivity. }
  rewrite E. unfold is_byte in *. set (b0 := nth o b 0) in *. set (b1 := nth (o + 1) b 0) in *. set (b2 := nth (o + 2) b 0) in *. set (b3 := nth (o + 3) b 0) in *. clearbody b0 b1 b2 b3.
  rewrite (lor_shiftl_add b2 b3 8) by lia. rewrite (lor_shiftl_add b1 _ 16) by lia. rewrite (lor_shiftl_add b0 _ 24) by lia. unfold OS2IP. cbn [fold_left]. f_equal. lia.
Qed.
Lemma be16_at_ok b o : all_bytes b -> (o + 2 <= length b)%nat -> be16_at b o = Ok (OS2IP (firstn 2 (skipn o b))).
Proof.
  intros Hb HL. unfold be16_at. rewrite !at_ok by lia. cbn [bind].
  pose proof (nth_byte b o Hb) as B0. pose proof (nth_byte b (o + 1) Hb) as B1.
  rewrite (skipn_cons o b 0) by lia. rewrite (skipn_cons (S o) b 0) by lia. replace (o + 1)%nat with (S o) in * by lia. cbn [firstn].
  unfold is_byte in *. rewrite (lor_shiftl_add _ _ 8) by lia. unfold OS2IP. cbn [fold_left]. f_equal. lia.
Qed.
Lemma firstn_bytes n l : all_bytes l -> all_bytes (firstn n l).
Proof. intros H. apply Forall_forall. intros x Hx. apply (proj1 (Forall_forall _ l) H). rewrite <- (firstn_skipn n l). apply in_or_app. left. exact Hx. Qed.
Lemma skipn_bytes n l : all_bytes l -> all_bytes (skipn n l).
Proof. intros H. apply Forall_forall. intros x Hx. apply (proj1 (Forall_forall _ l) H). rewrite <- (firstn_skipn n l). apply in_or_app. right. exact Hx. Qed.
Lemma pow256_4 : 256 ^ Z.of_nat 4 = B. Proof. reflexivity. Qed.
Lemma decode_words_spec fuel : forall buf u, all_bytes buf -> (u <= length buf)%nat -> (u <= fuel)%nat ->
  exists ws, decode_words fuel buf u = Ok ws /\ all_words ws /\ length ws = ((u + 3) / 4)%nat /\ eval ws = OS2IP (firstn u buf).
Proof.
  assert (Base : forall buf u, all_bytes buf -> (u <= length buf)%nat -> (u < 4)%nat ->
    exists ws, match u with 0%nat => Ok [] | 1%nat => let* b := at_ buf 0 in Ok [b] | 2%nat => let* w := be16_at buf 0 in Ok [w]
      | _ => let* b := at_ buf 0 in let* w := be16_at buf 1 in Ok [Z.lor (Z.shiftl b 16) w] end = Ok ws /\ all_words ws /\ length ws = ((u + 3) / 4)%nat /\ eval ws = OS2IP (firstn u buf)).
  { intros buf u Hb Hu H4. assert (One : forall w, 0 <= w < 2 ^ 24 -> w = OS2IP (firstn u buf) -> u <> 0%nat -> all_words [w] /\ length [w] = ((u + 3) / 4)%nat /\ eval [w] = OS2IP (firstn u buf)).
    { intros w Hw E N. rewrite eval_single. split; [apply words_cons; split; [rewrite B_val; lia|apply words_nil]|]. split; [|exact E]. cbn [length]. apply (Nat.div_unique _ _ _ (u - 1)); lia. }
    destruct u as [|[|[|[|u]]]]; [| | | |lia].
    - exists []. split; [reflexivity|]. split; [apply words_nil|]. split; reflexivity.
    - rewrite at_ok by lia. cbn [bind]. pose proof (nth_byte buf 0 Hb) as B0. exists [nth 0 buf 0]. split; [reflexivity|]. apply One; [unfold is_byte in B0; lia| |lia].
      destruct buf; [cbn in Hu; lia|]. reflexivity.
    - rewrite be16_at_ok by (try assumption; lia). cbn [bind skipn]. eexists. split; [reflexivity|]. apply One; [|reflexivity|lia].
      pose proof (OS2IP_range _ (firstn_bytes 2 buf Hb)) as R. rewrite firstn_length_le in R by lia. change (256 ^ Z.of_nat 2) with 65536 in R. lia.
    - rewrite at_ok by lia. rewrite be16_at_ok by (try assumption; lia). cbn [bind]. pose proof (nth_byte buf 0 Hb) as B0. unfold is_byte in B0.
      destruct buf as [|b0 buf]; [cbn in Hu; lia|]. cbn [skipn nth] in *. change (firstn 3 (b0 :: buf)) with (b0 :: firstn 2 buf) in *. assert (Hb' : all_bytes buf) by exact (Forall_inv_tail Hb).
      pose proof (OS2IP_range _ (firstn_bytes 2 buf Hb')) as R. cbn [length] in Hu. rewrite firstn_length_le in R by lia. change (256 ^ Z.of_nat 2) with 65536 in R.
      set (F := firstn 2 buf) in *. eexists. split; [reflexivity|]. rewrite (lor_shiftl_add b0 _ 16) by lia. apply One; [|rewrite OS2IP_cons; unfold F; rewrite firstn_length_le by lia; reflexivity|lia]. change (2 ^ 16) with 65536. lia. }
  induction fuel as [|fuel IH]; intros buf u Hb Hu Hf; cbn [decode_words]; destruct (Nat.ltb_spec u 4) as [L|G]; try (apply Base; assumption); try lia.
  rewrite be32_at_ok by (try assumption; lia). cbn [bind]. destruct (IH buf (u - 4)%nat Hb ltac:(lia) ltac:(lia)) as (ws & D1 & D2 & D3 & D4). rewrite D1. cbn [bind].
  eexists. split; [reflexivity|]. pose proof (OS2IP_range _ (firstn_bytes 4 _ (skipn_bytes (u - 4) buf Hb))) as R. rewrite firstn_length_le in R by (rewrite skipn_length; lia). rewrite pow256_4 in R.
  split; [apply words_cons; split; assumption|]. split.
  - cbn [length]. rewrite D3. replace (u + 3)%nat with (u - 4 + 3 + 1 * 4)%nat by lia. rewrite Nat.div_add by lia. lia.
  - rewrite eval_cons, D4. assert (E : firstn u buf = firstn (u - 4) buf ++ firstn 4 (skipn (u - 4) buf)).
    { rewrite <- (firstn_skipn (u - 4) buf) at 1. rewrite firstn_app, firstn_firstn, firstn_length_le by lia. replace (Nat.min u (u - 4)) with (u - 4)%nat by lia. replace (u - (u - 4))%nat with 4%nat by lia. reflexivity. }
    rewrite E, OS2IP_app, firstn_length_le by (rewrite skipn_length; lia). rewrite pow256_4. ring.
Qed.
Lemma be32_bytes_spec w : w32 w -> be32_bytes w = I2OSP w 4.
Proof.
  intros Hw. unfold be32_bytes. rewrite !Z.shiftr_div_pow2 by lia. rewrite !I2OSP_S. cbn [I2OSP app]. rewrite !Z.div_div by lia. reflexivity.
Qed.
Lemma be32_bytes_bytes w : all_bytes (be32_bytes w).
Proof. unfold be32_bytes. repeat (apply Forall_cons; [unfold is_byte; apply Z.mod_pos_bound; lia|]). apply Forall_nil. Qed.
(** the big-endian bytes of a word list *)
Definition bytes_of (ws : list Z) : list Z := flat_map be32_bytes (rev ws).
Lemma bytes_of_snoc ws w : bytes_of (ws ++ [w]) = be32_bytes w ++ bytes_of ws.
Proof. unfold bytes_of. rewrite rev_app_distr. reflexivity. Qed.
Lemma bytes_of_cons ws w : bytes_of (w :: ws) = bytes_of ws ++ be32_bytes w.
Proof. unfold bytes_of. cbn [rev]. rewrite flat_map_app. cbn [flat_map]. rewrite app_nil_r. reflexivity. Qed.
Lemma bytes_of_length ws : length (bytes_of ws) = (4 * length ws)%nat.
Proof. induction ws as [|w ws IH]; [reflexivity|]. rewrite bytes_of_cons, app_length, IH. cbn [length be32_bytes]. lia. Qed.
Lemma bytes_of_bytes ws : all_bytes (bytes_of ws).
Proof. induction ws as [|w ws IH]; [constructor|]. rewrite bytes_of_cons. apply Forall_app. split; [exact IH|apply be32_bytes_bytes]. Qed.
Lemma bytes_of_value ws : all_words ws -> OS2IP (bytes_of ws) = eval ws.
Proof.
  induction ws as [|w ws IH]; intros H; [reflexivity|]. apply words_cons in H as [Hw H]. rewrite bytes_of_cons, OS2IP_app, IH, eval_cons by exact H. rewrite be32_bytes_spec by exact Hw.
  rewrite I2OSP_length, pow256_4, I2OSP_OS2IP by (rewrite pow256_4; exact Hw). ring.
Qed.
Lemma bytes_of_I2OSP ws : all_words ws -> bytes_of ws = I2OSP (eval ws) (4 * length ws).
Proof. intros H. rewrite <- bytes_of_value, <- bytes_of_length by exact H. symmetry. apply OS2IP_I2OSP. apply bytes_of_bytes. Qed.
Lemma encode_words_spec k : forall x, (k <= length x)%nat -> encode_words k x = Ok (bytes_of (firstn k x)).
Proof.
  induction k as [|k IH]; intros x Hk; [reflexivity|]. cbn [encode_words]. rewrite at_ok by lia. cbn [bind]. rewrite IH by lia. cbn [bind]. f_equal.
  rewrite <- bytes_of_snoc. f_equal. symmetry. apply firstn_S_snoc. lia.
Qed.
Lemma be_words_spec len : forall src, all_bytes src -> (4 * len <= length src)%nat ->
  exists ws, be_words len src = Ok ws /\ all_words ws /\ length ws = len /\ bytes_of ws = firstn (4 * len) src.
Proof.
  induction len as [|k IH]; intros src Hs HL.
  - exists []. split; [reflexivity|]. split; [apply words_nil|]. split; reflexivity.
  - cbn [be_words]. rewrite be32_at_ok by (try assumption; lia). cbn [bind]. destruct (IH src Hs ltac:(lia)) as (ws & I1 & I2 & I3 & I4). rewrite I1. cbn [bind].
    pose proof (OS2IP_range _ (firstn_bytes 4 _ (skipn_bytes (4 * k) src Hs))) as R. rewrite firstn_length_le in R by (rewrite skipn_length; lia). rewrite pow256_4 in R.
    eexists. split; [reflexivity|]. split; [apply words_cons; split; assumption|]. split; [cbn [length]; lia|]. rewrite bytes_of_cons, I4, be32_bytes_spec by exact R.
    assert (E4 : I2OSP (OS2IP (firstn 4 (skipn (4 * k) src))) 4 = firstn 4 (skipn (4 * k) src)).
    { assert (L4 : length (firstn 4 (skipn (4 * k) src)) = 4%nat) by (rewrite firstn_length_le; [reflexivity|rewrite skipn_length; lia]).
      pose proof (OS2IP_I2OSP (firstn 4 (skipn (4 * k) src)) (firstn_bytes 4 _ (skipn_bytes _ _ Hs))) as Q. rewrite L4 in Q. exact Q. }
    rewrite E4. symmetry. replace (4 * S k)%nat with (4 * k + 4)%nat by lia. apply firstn_add_app.
Qed.
