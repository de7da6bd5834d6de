From Coq Require Import List ZArith Bool Lia.
From Verif Require Import Outcome UtilsSpec RsaModel RsaSpec WordsModel WordsSpec WordsProofs BufferModel PowmModel PowmSpec RsaProofs ShaProofs PowmProofs PowmReduce PowmConv RawModel RawSpec RawProofs PowmRawModel PowmRawSpec PowmRaw TraceModel TraceSpec TraceProofs.
Import ListNotations.
Open Scope nat_scope.
Notation at_ := RawModel.at_.

(** ** bit_length *)
Lemma bit_loop_value x n : forall m ws s, reads m x ws -> n <= length ws ->
  fst (bit_length_loop_t n m x s) = Ok (fold_right (fun p s => bit_length_step (fst p) (snd p) s) s (combine (seq 0 n) (firstn n ws))).
Proof.
  induction n as [|n IH]; intros m ws s R L; cbn [bit_length_loop_t]; erase; [reflexivity|]. rewrite (reads_ld0 m x ws n R) by lia. cbn [bind].
  rewrite (IH m ws _ R) by lia. f_equal. rewrite seq_S. rewrite (firstn_S_snoc n ws) by lia.
  assert (C : forall (a : list nat) (b : list Z) u v, length a = length b -> combine (a ++ [u]) (b ++ [v]) = combine a b ++ [(u, v)]).
  { induction a as [|p a IHa]; intros b u v E; destruct b as [|q b]; try discriminate; [reflexivity|]. cbn [app combine]. f_equal. apply IHa. now injection E. }
  rewrite C by (rewrite seq_length, firstn_length; lia). rewrite fold_right_app. reflexivity.
Qed.
Lemma bit_length_value m x ws : reads m x ws -> fst (br_i32_bit_length_t m x (length ws)) = Ok (br_i32_bit_length ws).
Proof. intros R. unfold br_i32_bit_length_t. erase. rewrite (bit_loop_value x (length ws) m ws) by (try assumption; lia). rewrite firstn_all. reflexivity. Qed.

(** ** decode *)
Lemma dec16_value m b bs o : reads m b bs -> o + 2 <= length bs -> fst (dec16_t m b o) = be16_at bs o.
Proof. intros R L. unfold dec16_t, be16_at. erase. rewrite (reads_ld0 m b bs) by (try assumption; lia). cbn [bind]. erase. rewrite !(reads_ld0 m b bs) by (try assumption; lia). rewrite !at_ok by lia. reflexivity. Qed.
Lemma dec32_value m b bs o : reads m b bs -> o + 4 <= length bs -> fst (dec32_t m b o) = be32_at bs o.
Proof.
  intros R L. unfold dec32_t, be32_at. erase. rewrite !(reads_ld0 m b bs) by (try assumption; lia). cbn [bind]. erase. rewrite !(reads_ld0 m b bs) by (try assumption; lia). cbn [bind].
  erase. rewrite !(reads_ld0 m b bs) by (try assumption; lia). cbn [bind]. erase. rewrite !(reads_ld0 m b bs) by (try assumption; lia). rewrite !at_ok by lia. reflexivity.
Qed.
Lemma decode_loop_value x buf fuel : forall m bs u v ws, decode_words fuel bs u = Ok ws -> reads m buf bs -> u <= length bs -> room m (at_ x v) (length ws) ->
  apart (at_ x v) (length ws) buf (length bs) ->
  exists m', fst (decode_loop_t fuel m x buf u v) = Ok (m', v + length ws) /\ writes m (at_ x v) ws m'.
Proof.
  assert (One : forall m v w, room m (at_ x v) 1 -> exists m', fst (tbind (stt m x v w) (fun m => ret (m, S v))) = Ok (m', v + 1) /\ writes m (at_ x v) [w] m').
  { intros m v w Rm. erase. destruct (st_ok m x v w (room_hd _ _ _ _ Rm)) as (m1 & -> & W). cbn [bind]. exists m1. split; [erase; do 2 f_equal; lia|exact W]. }
  induction fuel as [|fuel IH]; intros m bs u v ws D R L Rm A; cbn [decode_words decode_loop_t] in *; erase; destruct (Nat.ltb_spec u 4) as [L4|G4].
  1,3: erase; destruct u as [|[|[|[|u]]]]; [| | | |lia]; cbn [Nat.ltb Nat.leb Nat.eqb];
    [ injection D as <-; erase; exists m; split; [do 2 f_equal; cbn [length]; lia|apply writes_nil]
    | rewrite at_ok in D by lia; cbn [bind] in D; injection D as <-; erase; rewrite (reads_ld0 m buf bs) by (try assumption; lia); cbn [bind]; apply One; exact Rm
    | destruct (be16_at bs 0) as [w| | |] eqn:E16; cbn [bind] in D; try discriminate; injection D as <-; erase; rewrite (dec16_value m buf bs), E16 by (try assumption; lia); cbn [bind]; apply One; exact Rm
    | rewrite at_ok in D by lia; cbn [bind] in D; destruct (be16_at bs 1) as [w| | |] eqn:E16; cbn [bind] in D; try discriminate; injection D as <-; erase;
      rewrite (reads_ld0 m buf bs) by (try assumption; lia); cbn [bind]; erase; rewrite (dec16_value m buf bs), E16 by (try assumption; lia); cbn [bind]; apply One; exact Rm ].
  - discriminate.
  - destruct (be32_at bs (u - 4)) as [w| | |] eqn:E32; cbn [bind] in D; try discriminate. destruct (decode_words fuel bs (u - 4)) as [ws1| | |] eqn:E; cbn [bind] in D; try discriminate. injection D as <-.
    erase. rewrite (dec32_value m buf bs), E32 by (try assumption; lia). cbn [bind]. erase. cbn [length] in *. destruct (st_ok m x v w (room_hd _ _ _ _ Rm)) as (m1 & -> & W). cbn [bind].
    destruct (IH m1 bs (u - 4) (S v) ws1 E) as (m2 & E2 & W2).
    + eapply writes_frame; [exact W|exact R|]. revert A. unfold apart, RawModel.at_. cbn [fst snd length]. lia.
    + lia.
    + eapply writes_room; [exact W|]. now apply room_tl.
    + revert A. unfold apart, RawModel.at_. cbn [fst snd length]. lia.
    + exists m2. rewrite E2. split; [do 2 f_equal; lia|]. apply (writes_up m (at_ x v) [w] m1 ws1 m2 W). rewrite at_at. cbn [length]. rewrite Nat.add_1_r. exact W2.
Qed.
Lemma decode_value m x src bs : all_bytes bs -> (8 * Z.of_nat (length bs) + 32 < 2 ^ 32)%Z -> reads m src bs -> room m x (S ((length bs + 3) / 4)) -> apart x (S ((length bs + 3) / 4)) src (length bs) ->
  exists m', fst (br_i32_decode_t m x src (length bs)) = Ok m' /\ only m m' [(x, S ((length bs + 3) / 4))] /\ i32_at m' x (bits (OS2IP bs)) ((length bs + 3) / 4) (OS2IP bs).
Proof.
  intros Hb HB R Rm A. destruct (decode_words_spec (length bs) bs (length bs) Hb (le_n _) (le_n _)) as (ws & D & W & L & V). rewrite firstn_all in V. rewrite <- L in *.
  unfold br_i32_decode_t. erase. destruct (decode_loop_value x src (length bs) m bs (length bs) 1 ws D R (le_n _)) as (m1 & E1 & W1).
  - apply (room_sub m x (S (length ws)) 1 (length ws) Rm). lia.
  - revert A. unfold apart, RawModel.at_. cbn [fst snd]. lia.
  - rewrite E1. cbn [bind]. replace (1 + length ws - 1) with (length ws) by lia. erase. rewrite (bit_length_value m1 (at_ x 1) ws (writes_reads _ _ _ _ W1)). cbn [bind].
    assert (R0 : rd m1 (fst x) (snd x + 0) <> None). { apply (shape_rd m m1 _ _ (proj1 W1)). apply Rm. lia. }
    destruct (st_ok m1 x 0 (br_i32_bit_length ws) R0) as (m2 & E2 & W2). erase. rewrite E2. rewrite at_0 in W2. exists m2. split; [reflexivity|].
    pose proof (writes_down m x [br_i32_bit_length ws] m1 ws m2 W1 W2) as WW. cbn [app length] in WW. pose proof (Nat.div_mod (length bs + 3) 4 ltac:(lia)) as Dm. rewrite <- L in Dm.
    rewrite br_i32_bit_length_spec, V in WW by (try exact W; rewrite B32; lia). split; [apply (writes_only _ _ _ _ WW)|].
    pose proof (writes_reads _ _ _ _ WW) as RR. change (bits (OS2IP bs) :: ws) with ([bits (OS2IP bs)] ++ ws) in RR. apply reads_app in RR as [RR1 RR2]. split; [exact RR1|]. exists ws. split; [reflexivity|]. split; [exact W|]. split; [exact RR2|exact V].
Qed.

(** ** encode *)
Lemma store_value m p i ws : room m (at_ p i) (length ws) -> exists m', fst (store_t m p i ws) = Ok m' /\ writes m (at_ p i) ws m'.
Proof. intros R. rewrite store_e. now apply store_n_ok. Qed.
Lemma encode_loop_value dst x h k : forall m o ws, reads m x (h :: ws) -> k <= length ws -> room m (at_ dst o) (4 * k) -> apart (at_ dst o) (4 * k) x (S (length ws)) ->
  exists m', fst (encode_loop_t k m dst o x) = Ok m' /\ writes m (at_ dst o) (bytes_of (firstn k ws)) m'.
Proof.
  induction k as [|k IH]; intros m o ws R L Rm A; cbn [encode_loop_t]; erase.
  - exists m. split; [reflexivity|apply writes_nil].
  - rewrite (reads_ld0 m x (h :: ws) (S k) R) by (cbn [length]; lia). cbn [bind nth]. erase. set (w := nth k ws 0%Z).
    destruct (store_value m dst o (be32_bytes w)) as (m1 & -> & W1); [cbn [be32_bytes length]; intros j Hj; apply Rm; lia|]. cbn [bind].
    destruct (IH m1 (o + 4) ws) as (m2 & -> & W2).
    + eapply writes_frame; [exact W1|exact R|]. revert A. unfold apart, RawModel.at_. cbn [fst snd length be32_bytes]. lia.
    + lia.
    + rewrite <- at_at. eapply writes_room; [exact W1|]. apply (room_sub m (at_ dst o) (4 * S k) 4 (4 * k) Rm). lia.
    + revert A. unfold apart, RawModel.at_. cbn [fst snd length]. lia.
    + exists m2. split; [reflexivity|]. rewrite (firstn_S_snoc k ws), bytes_of_snoc by lia. eapply writes_up; [exact W1|]. rewrite at_at. exact W2.
Qed.
Lemma partial_value dst x k h sh : forall m o ws, reads m x (h :: ws) -> 0 < k <= length ws -> room m (at_ dst o) (length sh) -> apart (at_ dst o) (length sh) x (S (length ws)) ->
  exists m', fst (partial_t m dst o x k sh) = Ok m' /\ writes m (at_ dst o) (map (fun s => Z.shiftr (nth (k - 1) ws 0%Z) s mod 256)%Z sh) m'.
Proof.
  induction sh as [|s sh IH]; intros m o ws R L Rm A; cbn [partial_t map]; erase; [exists m; split; [reflexivity|apply writes_nil]|].
  rewrite (reads_ld0 m x (h :: ws) k R) by (cbn [length]; lia). destruct k as [|k]; [lia|]. cbn [bind nth]. erase. rewrite Nat.sub_succ, Nat.sub_0_r in *. cbn [length] in *.
  destruct (st_ok m dst o (Z.shiftr (nth k ws 0%Z) s mod 256)%Z (room_hd _ _ _ _ Rm)) as (m1 & -> & W1). cbn [bind].
  destruct (IH m1 (S o) ws) as (m2 & -> & W2).
  - eapply writes_frame; [exact W1|exact R|]. revert A. unfold apart, RawModel.at_. cbn [fst snd length]. lia.
  - lia.
  - eapply writes_room; [exact W1|]. now apply room_tl.
  - revert A. unfold apart, RawModel.at_. cbn [fst snd length]. lia.
  - exists m2. split; [reflexivity|]. apply (writes_up m (at_ dst o) [_] m1 _ m2 W1). rewrite at_at. cbn [length]. rewrite Nat.add_1_r. exact W2.
Qed.
Lemma partial_bytes r w : r < 4 -> map (fun s => Z.shiftr w s mod 256)%Z (skipn (3 - r) [16; 8; 0]%Z) = skipn (4 - r) (be32_bytes w).
Proof. intros H. unfold be32_bytes. destruct r as [|[|[|[|r]]]]; [| | | |lia]; cbn [Nat.sub skipn map]; rewrite ?Z.shiftr_0_r; reflexivity. Qed.

Lemma I2OSP_tail X n l : l <= n -> skipn (n - l) (I2OSP X n) = I2OSP X l.
Proof. intros L. replace n with (n - l + l) at 2 by lia. rewrite I2OSP_app, skipn_app, I2OSP_length, Nat.sub_diag. rewrite skipn_all2 by (rewrite I2OSP_length; lia). reflexivity. Qed.
Lemma I2OSP_zero n : I2OSP 0 n = repeat 0%Z n.
Proof. induction n as [|n IH]; [reflexivity|]. cbn [I2OSP]. rewrite Z.div_0_l, IH by lia. change (0 mod 256)%Z with 0%Z. symmetry. apply repeat_cons. Qed.
Lemma I2OSP_wide X n l : (0 <= X < 256 ^ Z.of_nat l)%Z -> l <= n -> I2OSP X n = repeat 0%Z (n - l) ++ I2OSP X l.
Proof. intros HX L. replace n with (n - l + l) at 1 by lia. rewrite I2OSP_app. rewrite Z.div_small by exact HX. rewrite I2OSP_zero. reflexivity. Qed.
Lemma I2OSP_low ws k : all_words ws -> k <= length ws -> forall l, l <= 4 * k -> I2OSP (eval (firstn k ws)) l = I2OSP (eval ws) l.
Proof.
  intros W L l Hl. rewrite <- (firstn_skipn k ws) at 2. rewrite eval_app. rewrite firstn_length_le by exact L.
  assert (E : exists q, (Bn k = 256 ^ Z.of_nat l * q)%Z). { exists (256 ^ Z.of_nat (4 * k - l))%Z. rewrite <- Z.pow_add_r by lia. rewrite Bn_pow2. change 256%Z with (2 ^ 8)%Z. rewrite <- Z.pow_mul_r by lia. f_equal. lia. }
  destruct E as [q E]. rewrite E. rewrite <- (I2OSP_mod l (eval (firstn k ws))). rewrite <- (I2OSP_mod l (eval (firstn k ws) + _)). f_equal.
  rewrite <- Z.mul_assoc. rewrite (Z.mul_comm (256 ^ _)%Z). symmetry. apply Z.mod_add. lia.
Qed.

Lemma encode_value m dst len x h X : (0 <= h)%Z -> (h + 7 < 2 ^ 32)%Z -> (0 <= X < 2 ^ h)%Z -> i32_at m x h (words_for h) X -> room m dst len -> apart dst len x (S (words_for h)) ->
  exists m', fst (br_i32_encode_t m dst len x) = Ok m' /\ only m m' [(dst, len)] /\ reads m' dst (I2OSP X len).
Proof.
  intros H0 HB HX (R0 & ws & Lw & W & R1 & V) Rm A.
  assert (R : reads m x (h :: ws)) by (change (h :: ws) with ([h] ++ ws); apply reads_app; split; assumption).
  unfold br_i32_encode_t. erase. rewrite (reads_ld0 m x (h :: ws) 0 R) by (cbn [length]; lia). cbn [bind nth].
  rewrite Z.mod_small by (rewrite B32; lia). rewrite Z.shiftr_div_pow2 by lia. change (2 ^ 3)%Z with 8%Z. set (kb := Z.to_nat ((h + 7) / 8)).
  pose proof (Z.div_mod (h + 7) 8 ltac:(lia)) as D8. pose proof (Z.mod_pos_bound (h + 7) 8 ltac:(lia)) as M8. pose proof (Z.div_mod (h + 31) 32 ltac:(lia)) as D32. pose proof (Z.mod_pos_bound (h + 31) 32 ltac:(lia)) as M32.
  assert (Kb : Z.of_nat kb = ((h + 7) / 8)%Z) by (unfold kb; rewrite Z2Nat.id; [reflexivity|apply Z.div_pos; lia]).
  assert (Kw : Z.of_nat (words_for h) = ((h + 31) / 32)%Z) by (unfold words_for; rewrite Z2Nat.id; [reflexivity|apply Z.div_pos; lia]).
  assert (XB : (0 <= X < 256 ^ Z.of_nat kb)%Z).
  { split; [lia|]. eapply Z.lt_le_trans; [apply HX|]. change 256%Z with (2 ^ 8)%Z. rewrite <- Z.pow_mul_r by lia. apply Z.pow_le_mono_r; lia. }
  clearbody kb. set (l := Nat.min len kb). set (r := l mod 4). set (k := (l + 3) / 4). set (o := len - kb).
  assert (Lo : len = o + l) by (unfold o, l; lia). pose proof (Nat.div_mod l 4 ltac:(lia)) as D4. pose proof (Nat.mod_upper_bound l 4 ltac:(lia)) as U4. fold r in D4, U4.
  pose proof (Nat.div_mod (l + 3) 4 ltac:(lia)) as D5. pose proof (Nat.mod_upper_bound (l + 3) 4 ltac:(lia)) as U5. fold k in D5.
  assert (Kl : k <= length ws) by (assert (l <= kb) by (unfold l; lia); lia).
  erase. rewrite clear_e. destruct (clear_r_ok o 0 dst m) as (m1 & -> & W1); [rewrite at_0; intros j Hj; apply Rm; lia|]. rewrite at_0 in W1. cbn [bind]. erase.
  assert (Rx : reads m1 x (h :: ws)). { eapply writes_frame; [exact W1|exact R|]. rewrite repeat_length. revert A. unfold apart. cbn [length]. rewrite Lw. lia. }
  assert (Rm1 : room m1 (at_ dst o) l). { eapply writes_room; [exact W1|]. apply (room_sub m dst len o l Rm). lia. }
  assert (Fin : forall m' bs, writes m1 (at_ dst o) bs m' -> bs = I2OSP X l -> only m m' [(dst, len)] /\ reads m' dst (I2OSP X len)).
  { intros m' bs W2 ->. assert (WW : writes m dst (I2OSP X len) m').
    { replace (I2OSP X len) with (repeat 0%Z o ++ I2OSP X l). { eapply writes_up; [exact W1|]. rewrite repeat_length. exact W2. }
      unfold o, l. destruct (Nat.le_ge_cases len kb) as [Q|Q].
      - rewrite Nat.min_l by exact Q. replace (len - kb) with 0 by lia. reflexivity.
      - rewrite Nat.min_r by exact Q. symmetry. apply I2OSP_wide; assumption. }
    split; [|exact (writes_reads _ _ _ _ WW)]. pose proof (writes_only _ _ _ _ WW) as O. rewrite I2OSP_length in O. exact O. }
  assert (By : forall n, n <= length ws -> bytes_of (firstn n ws) = I2OSP (eval (firstn n ws)) (4 * n)).
  { intros n Hn. rewrite bytes_of_I2OSP by (apply Forall_forall; intros w Hw; apply (proj1 (Forall_forall _ ws) W); rewrite <- (firstn_skipn n ws); apply in_or_app; now left). rewrite firstn_length_le by exact Hn. reflexivity. }
  clearbody r k o l. destruct r as [|r'].
  - destruct (encode_loop_value dst x h k m1 o ws Rx Kl) as (m2 & E2 & W2).
    + replace (4 * k) with l by lia. exact Rm1.
    + replace (4 * k) with l by lia. revert A. unfold apart, RawModel.at_. cbn [fst snd]. rewrite Lw. lia.
    + exists m2. split; [exact E2|]. apply (Fin m2 _ W2). rewrite By by exact Kl. rewrite I2OSP_low, V by (try assumption; lia). f_equal. lia.
  - set (r := S r') in *. erase. assert (Ls : length (skipn (3 - r) [16; 8; 0]%Z) = r) by (rewrite skipn_length; cbn [length]; lia).
    destruct (partial_value dst x k h (skipn (3 - r) [16; 8; 0]%Z) m1 o ws Rx ltac:(lia)) as (m2 & -> & W2).
    + rewrite Ls. intros j Hj. apply Rm1. lia.
    + rewrite Ls. revert A. unfold apart, RawModel.at_. cbn [fst snd]. rewrite Lw. lia.
    + cbn [bind]. rewrite partial_bytes in W2 by lia. destruct (encode_loop_value dst x h (k - 1) m2 (o + r) ws) as (m3 & E3 & W3).
      * eapply writes_frame; [exact W2|exact Rx|]. rewrite skipn_length. cbn [be32_bytes length]. revert A. unfold apart, RawModel.at_. cbn [fst snd]. rewrite Lw. lia.
      * lia.
      * rewrite <- at_at. eapply writes_room; [exact W2|]. apply (room_sub m1 (at_ dst o) l r (4 * (k - 1)) Rm1). lia.
      * revert A. unfold apart, RawModel.at_. cbn [fst snd]. rewrite Lw. lia.
      * exists m3. split; [exact E3|]. assert (W4 : writes m1 (at_ dst o) (skipn (4 - r) (be32_bytes (nth (k - 1) ws 0%Z)) ++ bytes_of (firstn (k - 1) ws)) m3).
        { eapply writes_up; [exact W2|]. rewrite skipn_length. cbn [be32_bytes length]. replace (4 - (4 - r)) with r by lia. rewrite at_at. exact W3. }
        apply (Fin m3 _ W4). subst X. rewrite <- (I2OSP_low ws k W Kl l) by lia.
        rewrite <- (I2OSP_tail (eval (firstn k ws)) (4 * k) l) by lia. rewrite <- By by exact Kl. assert (Ek : firstn k ws = firstn (k - 1) ws ++ [nth (k - 1) ws 0%Z]) by (rewrite <- (firstn_S_snoc (k - 1) ws) by lia; f_equal; lia). rewrite Ek, bytes_of_snoc. clear Ek.
        rewrite skipn_app. cbn [be32_bytes length]. replace (4 * k - l) with (4 - r) by lia. replace (4 - r - 4) with 0 by lia. reflexivity.
Qed.
