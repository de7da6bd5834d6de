(** The software exponentiation over memory, from the key to the result. *)
From Coq Require Import List ZArith Bool Lia.
From Verif Require Import Outcome UtilsModel UtilsSpec UtilsProofs RsaModel RsaSpec RsaProofs WordsModel WordsSpec WordsProofs BufferModel PowmModel PowmSpec PowmProofs PowmReduce PowmConv PowmMont PowmMain
  RawModel RawSpec RawProofs RawAlloc PowmRawModel PowmRawSpec PowmRaw PowmRawReduce PowmRawMain PowmRawClaims TraceModel TraceProofs TraceValue WholeModel WholeProofs.
Import ListNotations.
Open Scope nat_scope.

Lemma mod_exp_prep junk m p sig bs M R es out q k :
  all_bytes M -> length M = 4 * q -> reads m (w_modulus p) M -> all_bytes R -> length R = 4 * q -> reads m (w_rr p) R ->
  reads m (w_exponent p) es -> length es = 8 -> w_num_bits p = 32 * q -> 0 < q -> all_bytes bs -> length bs = 4 * k -> reads m sig bs ->
  exists m1 key1 key2 buf, mod_exp_w junk m sig (4 * k) p out =
     (let* r := pow_mod_r (fun i => junk (4 + i)) m1 (mkraw q (w_n0inv p) key1 key2 (be64 es)) buf in
      let '(ok, m) := r in if ok then let* ws := load_n m buf 0 k in let* m := store_n m out 0 (flat_map word_le ws) in Ok (true, m) else Ok (false, m)) /\
    extends m m1 /\ holds m1 key1 q (OS2IP M) /\ holds m1 key2 q (OS2IP R) /\ bytes_at m1 buf bs /\ length m <= fst buf < length m1.
Proof.
  intros FM LM RM FR LR RR Re Le Hn q0 Fb Lb Rb. unfold mod_exp_w.
  assert (E0 : load_n m (w_exponent p) 0 8 = Ok es) by (pose proof (load_n_ok es m (w_exponent p) 0) as Q; rewrite at_0, Le in Q; exact (Q Re)). rewrite E0. cbn [bind]. rewrite Hn. rewrite (proj2 (Nat.eqb_neq _ 0)) by lia. cbv zeta.
  replace (32 * q / 32) with q by (rewrite Nat.mul_comm, Nat.div_mul; lia).
  destruct (alloca_ok m (junk 2) q) as (m1 & -> & X1 & R1 & L1). destruct (alloca_ok m1 (junk 3) q) as (m2 & -> & X2 & R2 & L2).
  assert (X02 : extends m m2) by (eapply extends_trans; eassumption).
  destruct (as_words_ok m2 (w_modulus p) q M FM LM (extends_reads _ _ _ _ X02 RM)) as (m3 & ns & -> & X3 & R3 & Wn & Ln & Fn & L3). cbn [bind].
  destruct (load_val_r_ok (mkraw 1 0 (0, 0) (0, 0) 0) [0%Z] eq_refl Nat.lt_0_1 (length m, 0) (length m2, 0) q 0 ns m3 Ln R3) as (m4 & -> & W4). { rewrite at_0. apply (extends_room _ _ _ _ (extends_trans _ _ _ X2 X3) R1). } { left. cbn [fst RawModel.at_]. lia. }
  cbn [bind]. rewrite at_0 in W4. pose proof (writes_only _ _ _ _ W4) as O4. pose proof (only_length _ _ _ O4) as L4.
  assert (X04 : extends m m4) by (apply (ext_only _ _ _ _ _ (extends_trans _ _ _ X02 X3) O4); cbn [fst]; lia).
  destruct (as_words_ok m4 (w_rr p) q R FR LR (extends_reads _ _ _ _ X04 RR)) as (m5 & rs & -> & X5 & R5 & Wr & Lr & Fr & L5). cbn [bind].
  destruct (load_val_r_ok (mkraw 1 0 (0, 0) (0, 0) 0) [0%Z] eq_refl Nat.lt_0_1 (length m1, 0) (length m4, 0) q 0 rs m5 Lr R5) as (m6 & -> & W6). { rewrite at_0. apply (extends_room _ _ _ _ X5). apply (only_room _ _ _ _ _ O4). apply (extends_room _ _ _ _ X3 R2). } { left. cbn [fst RawModel.at_]. lia. }
  cbn [bind]. rewrite at_0 in W6. pose proof (writes_only _ _ _ _ W6) as O6. pose proof (only_length _ _ _ O6) as L6.
  assert (X06 : extends m m6) by (apply (ext_only _ _ _ _ _ (extends_trans _ _ _ X04 X5) O6); cbn [fst]; lia).
  replace ((4 * k) mod 4) with 0 by (rewrite Nat.mul_comm, Nat.mod_mul; lia). cbn [negb Nat.eqb]. replace (4 * k / 4) with k by (rewrite Nat.mul_comm, Nat.div_mul; lia).
  destruct (as_words_ok m6 sig k bs Fb Lb (extends_reads _ _ _ _ X06 Rb)) as (m7 & ws & -> & X7 & R7 & Ww & Lw & Fw & L7). cbn [bind].
  exists m7, (length m, 0), (length m1, 0), (length m6, 0). split; [reflexivity|]. split; [eapply extends_trans; eassumption|].
  split. { exists (map bswap (rev ns)). split; [rewrite map_length, rev_length; exact Ln|]. split; [apply bswap_words|]. split; [|rewrite conv_value, Fn; reflexivity].
    apply (extends_reads _ _ _ _ X7), (only_keep _ _ _ _ _ _ O6); [|cbn [fst]; lia]. apply (extends_reads _ _ _ _ X5). exact (writes_reads _ _ _ _ W4). }
  split. { exists (map bswap (rev rs)). split; [rewrite map_length, rev_length; exact Lr|]. split; [apply bswap_words|]. split; [|rewrite conv_value, Fr; reflexivity].
    apply (extends_reads _ _ _ _ X7). exact (writes_reads _ _ _ _ W6). }
  split; [exists ws; split; [exact Ww|]; split; [exact R7|symmetry; exact Fw]|]. cbn [fst]. pose proof (extends_length _ _ X06). lia.
Qed.

Section ALL.
Variables (junk : nat -> nat -> Z) (m0 : memory) (base exp mod_ out : loc) (hi lo es ms : list Z).
Let bs := hi ++ lo.
Hypothesis Fb : all_bytes bs. Hypothesis Rb : reads m0 base bs. Hypothesis Fe : all_bytes es. Hypothesis Re : reads m0 exp es. Hypothesis Fm : all_bytes ms. Hypothesis Rm : reads m0 mod_ ms.
Hypothesis Le : length es <= 8. Hypothesis Lm : length ms = leading_zeros ms + length hi. Hypothesis L0 : 0 < length hi. Hypothesis L4 : length hi mod 4 = 0. Hypothesis J4 : length lo mod 4 = 0. Hypothesis LB : (Z.of_nat (length hi) < 2 ^ 27)%Z.
Let q := length hi / 4. Let j := length lo / 4. Let k := q + j.
Lemma q_eq : length hi = 4 * q. Proof. unfold q. pose proof (Nat.div_mod (length hi) 4). lia. Qed.
Lemma j_eq : length lo = 4 * j. Proof. unfold j. pose proof (Nat.div_mod (length lo) 4). lia. Qed.
Lemma k_eq : length bs = 4 * k. Proof. unfold bs, k. rewrite app_length, q_eq, j_eq. lia. Qed.
Lemma e_val : be64 (repeat 0%Z (8 - length es) ++ es) = OS2IP es.
Proof. rewrite be64_OS2IP, OS2IP_app, OS2IP_zeros. ring. Qed.
Lemma e_range : (0 <= OS2IP es < 2 ^ 64)%Z.
Proof. pose proof (OS2IP_range es Fe) as R. split; [lia|]. eapply Z.lt_le_trans; [apply R|]. change 256%Z with (2 ^ 8)%Z. rewrite <- Z.pow_mul_r by lia. apply Z.pow_le_mono_r; lia. Qed.
Lemma prep : exists m1 n0 key1 key2 buf, powm_w junk m0 base (length bs) exp (length es) mod_ (length ms) out =
     (let* r := (let* r := pow_mod_r (fun i => junk (4 + i)) m1 (mkraw q n0 key1 key2 (OS2IP es)) buf in
      let '(ok, m) := r in if ok then let* ws := load_n m buf 0 k in let* m := store_n m out 0 (flat_map word_le ws) in Ok (true, m) else Ok (false, m)) in
      Ok (fst r, leave m0 (snd r))) /\
    extends m0 m1 /\ holds m1 key1 q (OS2IP ms) /\ holds m1 key2 q (2 ^ (64 * Z.of_nat q) mod OS2IP ms) /\ n0 = br_i32_ninv32 (OS2IP ms mod B) /\ bytes_at m1 buf bs /\ length m0 <= fst buf < length m1.
Proof.
  pose proof q_eq as Q. assert (q0 : 0 < q) by lia.
  destruct (gen_key_any junk m0 mod_ ms exp es q Fm Rm Re Le ltac:(lia) q0 ltac:(lia)) as (m & p & E & X & R1 & R2 & R3 & MC & NB).
  unfold powm_w. rewrite E. cbn [bind]. pose proof k_eq as K. rewrite K.
  assert (LM : length (skipn (leading_zeros ms) ms) = 4 * q) by (rewrite skipn_length; lia).
  destruct (mod_exp_prep junk m p base bs _ _ _ out q k (M_bytes ms Fm) LM R1 (I2OSP_bytes _ _) (I2OSP_length _ _) R3 R2) as (m1 & k1 & k2 & buf & E2 & X2 & H1 & H2 & H3 & H4); try assumption.
  { rewrite app_length, repeat_length. lia. } { apply (extends_reads _ _ _ _ X Rb). }
  rewrite e_val in E2. exists m1, (w_n0inv p), k1, k2, buf. rewrite E2. split; [reflexivity|]. split; [eapply extends_trans; eassumption|].
  rewrite (M_val ms) in H1. split; [exact H1|]. split; [|split; [exact MC|]; split; [exact H3|]; pose proof (extends_length _ _ X); lia].
  replace (OS2IP (I2OSP (2 ^ (64 * Z.of_nat q) mod OS2IP ms) (4 * q))) with (2 ^ (64 * Z.of_nat q) mod OS2IP ms)%Z in H2; [exact H2|]. symmetry. apply I2OSP_OS2IP. replace (256 ^ Z.of_nat (4 * q))%Z with (2 ^ (32 * Z.of_nat q))%Z by (change 256%Z with (2 ^ 8)%Z; rewrite <- Z.pow_mul_r by lia; f_equal; lia).
  pose proof (N_range ms q Fm ltac:(lia) q0) as NR. pose proof (N_pos ms q Fm ltac:(lia) q0) as NP. pose proof (Z.mod_pos_bound (2 ^ (64 * Z.of_nat q)) _ NP). lia.
Qed.
Lemma hi_at m buf : bytes_at m buf bs -> bytes_at m buf hi /\ exists ls, length ls = j /\ reads m (at_ buf q) ls /\ lo = flat_map le_bytes ls.
Proof.
  intros (ws & Ww & R & E). pose proof q_eq as Q. pose proof j_eq as J. assert (Lw : length ws = q + j). { apply (f_equal (@length Z)) in E. rewrite le_bytes_length in E. rewrite k_eq in E. unfold k in E. lia. }
  rewrite <- (firstn_skipn q ws) in R, E, Ww. rewrite flat_map_app in E. assert (Lf : length (firstn q ws) = q) by (rewrite firstn_length; lia). apply reads_app in R. rewrite Lf in R. apply Forall_app in Ww.
  assert (EE : hi = flat_map le_bytes (firstn q ws) /\ lo = flat_map le_bytes (skipn q ws)). { assert (LL : length hi = length (flat_map le_bytes (firstn q ws))) by (rewrite le_bytes_length, Lf; exact Q). clear -E LL. unfold bs in E. revert E LL. generalize (flat_map le_bytes (firstn q ws)) as a, (flat_map le_bytes (skipn q ws)) as b. clear. intros a b E LL. split; [apply (f_equal (firstn (length hi))) in E; rewrite firstn_app, firstn_all, Nat.sub_diag, firstn_O, app_nil_r, LL, firstn_app, firstn_all, Nat.sub_diag, firstn_O, app_nil_r in E; exact E|apply (f_equal (skipn (length hi))) in E; rewrite skipn_app, skipn_all, Nat.sub_diag, LL, skipn_app, skipn_all, Nat.sub_diag in E; exact E]. }
  split; [exists (firstn q ws); split; [apply Ww|]; split; [apply R|apply EE]|]. exists (skipn q ws). split; [rewrite skipn_length; lia|]. split; [apply R|apply EE].
Qed.
Lemma powm_ok : Z.odd (OS2IP ms) = true -> Z.odd (OS2IP es) = true -> (3 <= OS2IP es)%Z -> room m0 out (length bs) ->
  exists m' v, powm_w junk m0 base (length bs) exp (length es) mod_ (length ms) out = Ok (true, m') /\ only m0 m' [(out, length bs)] /\ reads m' out (I2OSP v (length hi) ++ lo) /\
    (0 <= v < 256 ^ Z.of_nat (length hi))%Z /\ (v mod OS2IP ms = OS2IP hi ^ effective (OS2IP es) mod OS2IP ms)%Z /\
    ((OS2IP hi < OS2IP ms)%Z \/ (256 ^ Z.of_nat (length hi) <= 2 * OS2IP ms)%Z -> v = (OS2IP hi ^ effective (OS2IP es) mod OS2IP ms)%Z).
Proof.
  intros Od Oe E3 Ro. pose proof q_eq as Q. pose proof k_eq as K. assert (q0 : 0 < q) by lia. destruct prep as (m1 & n0 & k1 & k2 & buf & -> & X & H1 & H2 & MC & H3 & H4). pose proof (low_word _ Od) as MC'. rewrite <- MC in MC'. clear MC. rename MC' into MC. destruct (hi_at _ _ H3) as (Hi & ls & Ll & Rl & El).
  assert (C : (256 ^ Z.of_nat (length hi))%Z = cap q). { unfold cap. rewrite Q. change 256%Z with (2 ^ 8)%Z. rewrite <- Z.pow_mul_r by lia. f_equal. lia. }
  destruct (pow_mod_memory (fun i => junk (4 + i)) m1 (mkraw q n0 k1 k2 (OS2IP es)) buf (OS2IP ms) (2 ^ (64 * Z.of_nat q) mod OS2IP ms) hi) as (m2 & v & -> & O2 & B2 & V1 & V2 & V3); cbn [r_len r_modulus r_n0inv r_rr r_exponent] in *; try assumption.
  { rewrite Z.mod_mod by (pose proof (N_pos ms q Fm ltac:(lia) q0); lia). f_equal. unfold cap. rewrite <- Z.pow_add_r by lia. f_equal. lia. } { pose proof e_range. lia. }
  cbn [bind]. destruct B2 as (ws & Ww & R2 & E2). assert (Lw : length ws = q). { apply (f_equal (@length Z)) in E2. rewrite I2OSP_length, le_bytes_length in E2. lia. }
  assert (Rl2 : reads m2 (at_ buf q) ls). { apply (only_reads _ _ _ _ _ O2 Rl). intros r [<-|[]]. right. cbn [fst snd RawModel.at_]. lia. }
  assert (LD : load_n m2 buf 0 k = Ok (ws ++ ls)). { unfold k. rewrite <- Lw, <- Ll, <- app_length. apply load_n_ok. rewrite at_0. apply reads_app. rewrite Lw. split; assumption. } rewrite LD. cbn [bind]. change word_le with le_bytes. rewrite flat_map_app, <- E2, <- El.
  assert (Lk : length (I2OSP v (4 * q) ++ lo) = length bs) by (unfold bs; rewrite !app_length, I2OSP_length; lia).
  assert (Bo : fst out < length m0). { specialize (Ro 0 ltac:(unfold bs; rewrite app_length; lia)). unfold rd in Ro. destruct (nth_error m0 (fst out)) eqn:En; [|elim Ro; reflexivity]. apply nth_error_Some. rewrite En. discriminate. }
  assert (X2 : extends m0 m2) by (apply (ext_only _ _ _ _ _ X O2); lia).
  destruct (store_n_ok (I2OSP v (4 * q) ++ lo) m2 out 0) as (m3 & -> & W3). { rewrite at_0, Lk. apply (extends_room _ _ _ _ X2 Ro). }
  cbn [bind fst snd]. rewrite at_0 in W3. pose proof (leave_writes m0 m2 out _ m3 X2 W3 Bo) as W. exists (leave m0 m3), v. split; [reflexivity|]. rewrite C, Q. split; [|split; [exact (writes_reads _ _ _ _ W)|split; [exact V1|split; [exact V2|exact V3]]]].
  pose proof (writes_only _ _ _ _ W) as O. rewrite Lk in O. exact O.
Qed.
Lemma powm_refuses : (Z.even (OS2IP es) = true \/ OS2IP es < 3)%Z -> powm_w junk m0 base (length bs) exp (length es) mod_ (length ms) out = Ok (false, m0).
Proof.
  intros H. pose proof q_eq as Q. assert (q0 : 0 < q) by lia. destruct prep as (m1 & n0 & k1 & k2 & buf & -> & X & H1 & H2 & MC & H3 & H4). destruct (hi_at _ _ H3) as (Hi & _).
  rewrite (refuses_claim (fun i => junk (4 + i)) m1 (mkraw q n0 k1 k2 (OS2IP es)) buf (OS2IP ms) (2 ^ (64 * Z.of_nat q) mod OS2IP ms) hi); cbn [r_len r_modulus r_n0inv r_rr r_exponent] in *; try assumption; [|exact e_range].
  cbn [bind fst snd]. rewrite leave_extends by exact X. reflexivity.
Qed.
End ALL.

(** ** Lengths outside the multiples of four *)
Lemma decode_loop_ub x buf fuel : forall m bs u v j ws, decode_words fuel bs u = Ok ws -> reads m buf bs -> u <= length bs -> fst x <> fst buf ->
  room m (at_ x v) j -> rd m (fst x) (snd x + (v + j)) = None -> j < length ws -> fst (decode_loop_t fuel m x buf u v) = UB.
Proof.
  assert (One : forall m v w (k : memory -> outcome (memory * nat)), rd m (fst x) (snd x + v) = None -> bind (st m x v w) k = UB) by (intros m v w k H; unfold st; rewrite H; reflexivity).
  induction fuel as [|fuel IH]; intros m bs u v j ws D R L A Rm H Lj; cbn [decode_words decode_loop_t] in *; erase; destruct (Nat.ltb_spec u 4) as [L4|G4].
  1,3: erase; destruct u as [|[|[|[|u]]]]; [| | | |lia]; cbn [Nat.ltb Nat.leb Nat.eqb];
    [ injection D as <-; cbn in Lj; lia
    | rewrite at_ok in D by lia; cbn [bind] in D; injection D as <-; cbn in Lj; assert (j = 0) as -> by lia; rewrite Nat.add_0_r in H; erase; rewrite (reads_ld0 m buf bs) by (try assumption; lia); cbn [bind]; erase; apply One; exact H
    | destruct (be16_at bs 0) as [w| | |] eqn:E16; cbn [bind] in D; try discriminate; injection D as <-; cbn in Lj; assert (j = 0) as -> by lia; rewrite Nat.add_0_r in H; erase; rewrite (dec16_value m buf bs), E16 by (try assumption; lia); cbn [bind]; erase; apply One; exact H
    | rewrite at_ok in D by lia; cbn [bind] in D; destruct (be16_at bs 1) as [w| | |] eqn:E16; cbn [bind] in D; try discriminate; injection D as <-; cbn in Lj; assert (j = 0) as -> by lia; rewrite Nat.add_0_r in H; erase;
      rewrite (reads_ld0 m buf bs) by (try assumption; lia); cbn [bind]; erase; rewrite (dec16_value m buf bs), E16 by (try assumption; lia); cbn [bind]; erase; apply One; exact H ].
  - discriminate.
  - destruct (be32_at bs (u - 4)) as [w| | |] eqn:E32; cbn [bind] in D; try discriminate. destruct (decode_words fuel bs (u - 4)) as [ws1| | |] eqn:E; cbn [bind] in D; try discriminate. injection D as <-.
    erase. rewrite (dec32_value m buf bs), E32 by (try assumption; lia). cbn [bind]. erase. cbn [length] in *. destruct j as [|j]; [rewrite Nat.add_0_r in H; apply One; exact H|].
    destruct (st_ok m x v w (room_hd _ _ _ _ Rm)) as (m1 & -> & W). cbn [bind]. apply (IH m1 bs (u - 4) (S v) j ws1 E); [| lia|exact A| | |lia].
    + eapply writes_frame; [exact W|exact R|]. left. exact A.
    + eapply writes_room; [exact W|]. now apply room_tl.
    + destruct (writes_only _ _ _ _ W) as [_ O]. rewrite O; [rewrite <- H; f_equal; lia|]. intros r [<-|[]] Wi. unfold within in Wi. cbn [fst snd RawModel.at_ length] in Wi. lia.
Qed.
Lemma place_end m l m1 p : place m l = (m1, p) -> rd m1 (fst p) (snd p + length l) = None.
Proof. intros E. unfold place in E. injection E as <- <-. cbn [fst snd]. rewrite rd_app, (proj2 (Nat.ltb_ge _ _)), Nat.sub_diag by lia. cbn. apply nth_error_None. lia. Qed.
Lemma gen_key_ub junk m0 mod_ ms exp es : all_bytes ms -> reads m0 mod_ ms -> reads m0 exp es -> length es <= 8 -> (length ms - leading_zeros ms) mod 4 <> 0 -> gen_key_w junk m0 mod_ (length ms) exp (length es) = UB.
Proof.
  intros Fm Rm Re Le Hn. set (z := leading_zeros ms) in *. set (l := length ms - z) in *. pose proof (leading_zeros_le ms) as Lz. fold z in Lz. set (M := skipn z ms).
  assert (LM : length M = l) by (unfold M; rewrite skipn_length; reflexivity). assert (l0 : 0 < l) by (destruct l; [cbn in Hn; lia|lia]).
  unfold gen_key_w. pose proof (zeros_ok m0 mod_ ms 0) as Z0. rewrite at_0 in Z0. rewrite (Z0 Rm). clear Z0. cbn [bind]. fold z. rewrite Nat.add_0_l. fold l.
  assert (RM : reads m0 (at_ mod_ z) M) by (apply reads_skipn; [exact Rm|lia]).
  assert (Bm : fst mod_ < length m0) by (apply (reads_block m0 mod_ ms Rm); lia).
  destruct (alloca_ok m0 (junk 0) l) as (m1 & -> & X1 & R1 & L1). set (L := length m0) in *. pose proof (extends_reads _ _ _ _ X1 RM) as RM1.
  destruct (memcpy_ok m1 (L, 0) (at_ mod_ z) l M LM RM1 R1) as (m2 & -> & W2). { left. cbn [fst RawModel.at_]. lia. }
  cbn [bind]. pose proof (extends_writes _ _ _ _ _ X1 W2 (le_n _)) as X2. pose proof (only_length _ _ _ (writes_only _ _ _ _ W2)) as L2.
  destruct (2 ^ 27 <=? Z.of_nat l)%Z; [reflexivity|].
  replace (l * 8 / 32) with (l / 4) by (symmetry; change 32 with (4 * 8); apply Nat.div_mul_cancel_r; lia).
  destruct (place_ok m2 (repeat 0%Z (1 + l / 4))) as (m3 & E3 & X3 & R3 & L3). rewrite E3. pose proof (place_end _ _ _ _ E3) as End. rewrite repeat_length in End. cbn [fst snd] in End.
  destruct (place_ok m3 (repeat 0%Z (1 + l * 8 * 2 / 32))) as (m4 & -> & X4 & _ & L4').
  destruct (place_ok m4 (repeat 0%Z (2 + l * 8 * 2 / 32))) as (m5 & -> & X5 & _ & L5). destruct (place_ok m5 (repeat 0%Z 8)) as (m6 & -> & X6 & R6 & L6).
  rewrite (proj2 (Nat.ltb_ge 8 _)) by exact Le.
  assert (X36 : extends m3 m6) by (eapply extends_trans; [exact X4|]; eapply extends_trans; [exact X5|exact X6]). assert (X06 : extends m0 m6) by (eapply extends_trans; [exact X2|]; eapply extends_trans; [exact X3|exact X36]).
  set (k := length es) in *. assert (H7 : exists m7, memcpy_r m6 (at_ (length m5, 0) (8 - k)) exp k = Ok m7 /\ writes m6 (at_ (length m5, 0) (8 - k)) es m7).
  { apply memcpy_ok; [reflexivity|apply (extends_reads _ _ _ _ X06 Re)|pose proof (reads_room _ _ _ R6) as Q; rewrite repeat_length in Q; apply (room_sub _ _ 8 (8 - k) k Q); lia|]. destruct (Nat.eq_dec k 0) as [K0|K0]; [rewrite K0; unfold apart; cbn [fst snd RawModel.at_]; lia|]. left. cbn [fst RawModel.at_]. pose proof (reads_block m0 exp es Re ltac:(fold k; lia)). lia. }
  destruct H7 as (m7 & -> & W7). cbn [bind]. pose proof (writes_only _ _ _ _ W7) as O7.
  assert (X07 : extends m0 m7) by (apply (ext_only _ _ _ _ _ X06 O7); cbn [fst RawModel.at_]; lia). pose proof (M_bytes ms Fm) as FM. fold z M in FM.
  destruct (decode_words_spec (length M) M (length M) FM (le_n _) (le_n _)) as (ws & D & _ & Lw & _). rewrite LM in *.
  unfold br_i32_decode_t. erase. rewrite (decode_loop_ub (length m2, 0) (at_ mod_ z) l m7 M l 1 (l / 4) ws D); [reflexivity|apply (extends_reads _ _ _ _ X07 RM)|lia|cbn [fst RawModel.at_]; lia| | |].
  - apply (only_room _ _ _ _ _ O7). apply (extends_room _ _ _ _ X36). pose proof (reads_room _ _ _ R3) as Q. rewrite repeat_length in Q. apply (room_sub _ _ (1 + l / 4) 1 (l / 4) Q). lia.
  - destruct O7 as [_ O]. rewrite O; [rewrite extends_rd with (m := m3); [exact End|exact X36|cbn [fst]; lia]|]. intros r [<-|[]] Wi. unfold within in Wi. cbn [fst snd RawModel.at_] in Wi. lia.
  - rewrite Lw. pose proof (Nat.div_mod l 4). pose proof (Nat.mod_upper_bound l 4). apply Nat.div_le_lower_bound; lia.
Qed.
Lemma powm_ub junk m0 base base_len mod_ ms exp es out : all_bytes ms -> reads m0 mod_ ms -> reads m0 exp es -> length es <= 8 -> (length ms - leading_zeros ms) mod 4 <> 0 ->
  powm_w junk m0 base base_len exp (length es) mod_ (length ms) out = UB.
Proof. intros. unfold powm_w. rewrite gen_key_ub by assumption. reflexivity. Qed.

(** ** In the words of the specification *)
Lemma zeros_of z n t : n <> 0%Z -> leading_zeros (repeat 0%Z z ++ n :: t) = z.
Proof. intros H. induction z as [|z IH]; cbn; [destruct n; [lia|reflexivity|reflexivity]|]. rewrite IH. reflexivity. Qed.
Lemma powm_claim junk m base exp mod_ out hi lo es z n t : all_bytes (hi ++ lo) -> all_bytes es -> all_bytes (n :: t) -> reads m base (hi ++ lo) -> reads m exp es -> reads m mod_ (repeat 0%Z z ++ n :: t) -> room m out (length (hi ++ lo)) ->
  n <> 0%Z -> length (n :: t) = length hi -> length hi mod 4 = 0 -> length lo mod 4 = 0 -> (Z.of_nat (length hi) < 2 ^ 27)%Z -> length es <= 8 -> Z.odd (OS2IP (n :: t)) = true -> Z.odd (OS2IP es) = true -> (3 <= OS2IP es)%Z ->
  exists m' v, powm_w junk m base (length (hi ++ lo)) exp (length es) mod_ (z + length (n :: t)) out = Ok (true, m') /\ only m m' [(out, length (hi ++ lo))] /\ reads m' out (I2OSP v (length hi) ++ lo) /\
    (0 <= v < 256 ^ Z.of_nat (length hi))%Z /\ (v mod OS2IP (n :: t) = OS2IP hi ^ effective (OS2IP es) mod OS2IP (n :: t))%Z /\
    ((OS2IP hi < OS2IP (n :: t))%Z \/ (256 ^ Z.of_nat (length hi) <= 2 * OS2IP (n :: t))%Z -> v = (OS2IP hi ^ effective (OS2IP es) mod OS2IP (n :: t))%Z).
Proof.
  intros Fb Fe Fn Rb Re Rm Ro Hn Ln L4 J4 LB Le On Oe E3. set (ms := repeat 0%Z z ++ n :: t) in *.
  assert (V : OS2IP ms = OS2IP (n :: t)) by (unfold ms; rewrite OS2IP_app, OS2IP_zeros; ring). assert (Lm : length ms = z + length (n :: t)) by (unfold ms; rewrite app_length, repeat_length; reflexivity).
  rewrite <- V in *. rewrite <- Lm. apply powm_ok; try assumption; [apply Forall_app; split; [apply repeat_bytes|exact Fn]|unfold ms at 2; rewrite zeros_of by exact Hn; lia|cbn in Ln; lia].
Qed.
Lemma powm_plain junk m base exp mod_ out bs es n t : all_bytes bs -> all_bytes es -> all_bytes (n :: t) -> reads m base bs -> reads m exp es -> reads m mod_ (n :: t) -> room m out (length bs) ->
  n <> 0%Z -> length (n :: t) = length bs -> length bs mod 4 = 0 -> (Z.of_nat (length bs) < 2 ^ 27)%Z -> length es <= 8 -> Z.odd (OS2IP (n :: t)) = true -> Z.odd (OS2IP es) = true -> (3 <= OS2IP es)%Z ->
  exists m' v, powm_w junk m base (length bs) exp (length es) mod_ (length (n :: t)) out = Ok (true, m') /\ only m m' [(out, length bs)] /\ reads m' out (I2OSP v (length bs)) /\
    (0 <= v < 256 ^ Z.of_nat (length bs))%Z /\ (v mod OS2IP (n :: t) = OS2IP bs ^ effective (OS2IP es) mod OS2IP (n :: t))%Z /\
    ((OS2IP bs < OS2IP (n :: t))%Z \/ (256 ^ Z.of_nat (length bs) <= 2 * OS2IP (n :: t))%Z -> v = (OS2IP bs ^ effective (OS2IP es) mod OS2IP (n :: t))%Z).
Proof.
  intros Fb Fe Fn Rb Re Rm Ro Hn Ln L4 LB Le On Oe E3. destruct (powm_claim junk m base exp mod_ out bs [] es 0 n t) as (m' & v & H); rewrite ?app_nil_r in *; try assumption; try reflexivity. exists m', v. rewrite ?app_nil_r in H. exact H.
Qed.
Lemma refuses_all junk m base exp mod_ out hi lo es z n t : all_bytes (hi ++ lo) -> all_bytes es -> all_bytes (n :: t) -> reads m base (hi ++ lo) -> reads m exp es -> reads m mod_ (repeat 0%Z z ++ n :: t) ->
  n <> 0%Z -> length (n :: t) = length hi -> length hi mod 4 = 0 -> length lo mod 4 = 0 -> (Z.of_nat (length hi) < 2 ^ 27)%Z -> length es <= 8 -> (Z.even (OS2IP es) = true \/ OS2IP es < 3)%Z ->
  powm_w junk m base (length (hi ++ lo)) exp (length es) mod_ (z + length (n :: t)) out = Ok (false, m).
Proof.
  intros Fb Fe Fn Rb Re Rm Hn Ln L4 J4 LB Le He. set (ms := repeat 0%Z z ++ n :: t) in *.
  assert (Lm : length ms = z + length (n :: t)) by (unfold ms; rewrite app_length, repeat_length; reflexivity).
  rewrite <- Lm. apply powm_refuses; try assumption; [apply Forall_app; split; [apply repeat_bytes|exact Fn]|unfold ms at 2; rewrite zeros_of by exact Hn; lia|cbn in Ln; lia].
Qed.
Lemma ub_claim junk m base base_len exp mod_ out es z n t : all_bytes (n :: t) -> reads m exp es -> reads m mod_ (repeat 0%Z z ++ n :: t) -> n <> 0%Z -> length (n :: t) mod 4 <> 0 -> length es <= 8 ->
  powm_w junk m base base_len exp (length es) mod_ (z + length (n :: t)) out = UB.
Proof.
  intros Fn Re Rm Hn H4 Le. set (ms := repeat 0%Z z ++ n :: t) in *. assert (Lm : length ms = z + length (n :: t)) by (unfold ms; rewrite app_length, repeat_length; reflexivity).
  rewrite <- Lm. apply powm_ub; try assumption; [apply Forall_app; split; [apply repeat_bytes|exact Fn]|]. unfold ms at 2. rewrite zeros_of, Lm by exact Hn. replace (z + length (n :: t) - z) with (length (n :: t)) by lia. exact H4.
Qed.
Lemma ub_base junk m base base_len exp mod_ out bs es z n t : all_bytes (n :: t) -> reads m exp es -> reads m mod_ (repeat 0%Z z ++ n :: t) -> reads m base bs -> n <> 0%Z -> (Z.of_nat (length (n :: t)) < 2 ^ 27)%Z -> length es <= 8 ->
  base_len mod 4 <> 0 -> powm_w junk m base base_len exp (length es) mod_ (z + length (n :: t)) out = UB.
Proof.
  intros Fn Re Rm Rb Hn LB Le H4. destruct (Nat.eq_dec (length (n :: t) mod 4) 0) as [E4|N4]; [|apply ub_claim; assumption].
  set (ms := repeat 0%Z z ++ n :: t) in *. assert (V : OS2IP ms = OS2IP (n :: t)) by (unfold ms; rewrite OS2IP_app, OS2IP_zeros; ring). assert (Lm : length ms = z + length (n :: t)) by (unfold ms; rewrite app_length, repeat_length; reflexivity).
  assert (Fm : all_bytes ms) by (apply Forall_app; split; [apply repeat_bytes|exact Fn]). assert (Lz : leading_zeros ms = z) by (unfold ms; apply zeros_of; exact Hn).
  pose proof (Nat.div_mod (length (n :: t)) 4 ltac:(lia)) as Q. rewrite E4, Nat.add_0_r in Q. set (q := length (n :: t) / 4) in *. assert (q0 : 0 < q) by (cbn [length] in Q; lia).
  destruct (gen_key_any junk m mod_ ms exp es q Fm Rm Re Le ltac:(lia) q0 ltac:(lia)) as (m1 & p & E & X & R1 & R2 & R3 & MC & NB).
  unfold powm_w. rewrite <- Lm, E. cbn [bind]. unfold mod_exp_w.
  assert (E0 : load_n m1 (w_exponent p) 0 8 = Ok (repeat 0%Z (8 - length es) ++ es)). { pose proof (load_n_ok _ m1 (w_exponent p) 0 ltac:(rewrite at_0; exact R2)) as L. rewrite app_length, repeat_length in L. replace (8 - length es + length es) with 8 in L by lia. exact L. }
  rewrite E0. cbn [bind]. rewrite NB, (proj2 (Nat.eqb_neq _ 0)) by lia. cbv zeta. replace (32 * q / 32) with q by (rewrite Nat.mul_comm, Nat.div_mul; lia).
  assert (LM : length (skipn (leading_zeros ms) ms) = 4 * q) by (rewrite skipn_length; lia). pose proof (M_bytes ms Fm) as FM.
  destruct (alloca_ok m1 (junk 2) q) as (m2 & -> & X1 & A1 & L1). destruct (alloca_ok m2 (junk 3) q) as (m3 & -> & X2 & A2 & L2).
  assert (X02 : extends m1 m3) by (eapply extends_trans; eassumption).
  destruct (as_words_ok m3 (w_modulus p) q _ FM LM (extends_reads _ _ _ _ X02 R1)) as (m4 & ns & -> & X3 & B3 & Wn & Ln & Fn' & L3). cbn [bind].
  destruct (load_val_r_ok (mkraw 1 0 (0, 0) (0, 0) 0) [0%Z] eq_refl Nat.lt_0_1 (length m1, 0) (length m3, 0) q 0 ns m4 Ln B3) as (m5 & -> & W4). { rewrite at_0. apply (extends_room _ _ _ _ (extends_trans _ _ _ X2 X3) A1). } { left. cbn [fst RawModel.at_]. lia. }
  cbn [bind]. rewrite at_0 in W4. pose proof (writes_only _ _ _ _ W4) as O4. pose proof (only_length _ _ _ O4) as L4.
  assert (X04 : extends m1 m5) by (apply (ext_only _ _ _ _ _ (extends_trans _ _ _ X02 X3) O4); cbn [fst]; lia).
  destruct (as_words_ok m5 (w_rr p) q _ (I2OSP_bytes _ _) (I2OSP_length _ _) (extends_reads _ _ _ _ X04 R3)) as (m6 & rs & -> & X5 & R5 & Wr & Lr & Fr & L5). cbn [bind].
  destruct (load_val_r_ok (mkraw 1 0 (0, 0) (0, 0) 0) [0%Z] eq_refl Nat.lt_0_1 (length m2, 0) (length m5, 0) q 0 rs m6 Lr R5) as (m7 & -> & W6). { rewrite at_0. apply (extends_room _ _ _ _ X5). apply (only_room _ _ _ _ _ O4). apply (extends_room _ _ _ _ X3 A2). } { left. cbn [fst RawModel.at_]. lia. }
  cbn [bind]. rewrite (proj2 (Nat.eqb_neq _ 0)) by exact H4. reflexivity.
Qed.
