From Coq Require Import List ZArith Bool Lia.
From Verif Require Import Outcome UtilsModel UtilsSpec UtilsProofs RsaModel RsaSpec RsaProofs WordsModel WordsSpec WordsProofs BufferModel PowmModel PowmSpec PowmProofs PowmReduce PowmConv PowmMont PowmMain
  RawModel RawSpec RawProofs RawAlloc PowmRawModel PowmRawSpec PowmRaw PowmRawReduce PowmRawMain PowmRawClaims TraceModel TraceValue WholeModel.
Import ListNotations.
Open Scope nat_scope.
Notation at_ := RawModel.at_.

(** ** Memory *)
Lemma place_ok m l : exists m1, place m l = (m1, (length m, 0)) /\ extends m m1 /\ reads m1 (length m, 0) l /\ length m1 = S (length m).
Proof.
  exists (m ++ [l]). split; [reflexivity|]. split; [exists [l]; reflexivity|]. split; [|rewrite app_length; cbn; lia]. intros j Hj. cbn [fst snd]. rewrite rd_app. rewrite (proj2 (Nat.ltb_ge _ _)) by lia. rewrite Nat.sub_diag. cbn. apply nth_error_nth'. exact Hj.
Qed.
Lemma ext_only m m1 m2 x n : extends m m1 -> only m1 m2 [(x, n)] -> length m <= fst x -> extends m m2.
Proof.
  intros E [S O] H. apply (extends_leave m m1 m2 E); [exact S|]. intros b k L. rewrite O; [apply extends_rd; assumption|]. intros r [<-|[]] W. unfold within in W. cbn [fst snd] in W. lia.
Qed.
Lemma only_keep m m1 x n p ws : only m m1 [(x, n)] -> reads m p ws -> fst x <> fst p -> reads m1 p ws.
Proof. intros O R H. apply (only_reads _ _ _ _ _ O R). intros r [<-|[]]. left. exact H. Qed.
Lemma i32_keep m m1 x n p h k v : only m m1 [(x, n)] -> i32_at m p h k v -> fst x <> fst p -> i32_at m1 p h k v.
Proof.
  intros O (R & ws & L & W & R2 & E) H. split; [apply (only_keep _ _ _ _ _ _ O R H)|]. exists ws. split; [exact L|]. split; [exact W|]. split; [|exact E]. apply (only_keep _ _ _ _ _ _ O R2). exact H.
Qed.
Lemma i32_ext m m1 p h k v : extends m m1 -> i32_at m p h k v -> i32_at m1 p h k v.
Proof. intros X (R & ws & L & W & R2 & E). split; [apply (extends_reads _ _ _ _ X R)|]. exists ws. split; [exact L|]. split; [exact W|]. split; [apply (extends_reads _ _ _ _ X R2)|exact E]. Qed.
Lemma zeros_ok m p bs : forall i, reads m (at_ p i) bs -> zeros_w (length bs) i m p = Ok (i + leading_zeros bs).
Proof.
  induction bs as [|b bs IH]; intros i R; cbn [length zeros_w]; [f_equal; cbn; lia|]. rewrite (reads_hd _ _ _ _ _ R). cbn [bind]. destruct (Z.eqb_spec b 0) as [->|N].
  - rewrite (IH (S i) (reads_tl _ _ _ _ _ R)). f_equal. cbn [leading_zeros]. lia.
  - f_equal. destruct b; cbn [leading_zeros]; lia.
Qed.
Lemma load_words_ok n : forall bs, all_bytes bs -> length bs = 4 * n -> exists ws, load_words n bs = Some ws /\ all_words ws /\ length ws = n /\ flat_map le_bytes ws = bs.
Proof.
  induction n as [|n IH]; intros bs F L.
  - destruct bs; [|discriminate]. exists []. split; [reflexivity|]. split; [apply words_nil|]. split; reflexivity.
  - destruct bs as [|b0 [|b1 [|b2 [|b3 t]]]]; cbn [length] in L; try lia. inversion_clear F as [|? ? F0 F1]. inversion_clear F1 as [|? ? F2 F3]. inversion_clear F3 as [|? ? F4 F5]. inversion_clear F5 as [|? ? F6 F7].
    destruct (IH t F7 ltac:(lia)) as (ws & E & W & Lw & Fl). cbn [load_words]. rewrite E. eexists. split; [reflexivity|]. unfold is_byte in *. unfold le_word.
    split; [apply words_cons; split; [unfold w32; rewrite B_val; lia|exact W]|]. split; [cbn; lia|]. cbn [flat_map]. rewrite Fl. unfold le_bytes. change (2 ^ 8)%Z with 256%Z. change (2 ^ 16)%Z with 65536%Z. change (2 ^ 24)%Z with 16777216%Z. cbn [app].
    clear -F0 F2 F4 F6. f_equal; [|f_equal; [|f_equal; [|f_equal]]].
    + symmetry. apply (Z.mod_unique _ _ (b1 + 256 * b2 + 65536 * b3)); lia.
    + replace ((b0 + 256 * b1 + 65536 * b2 + 16777216 * b3) / 256)%Z with (b1 + 256 * b2 + 65536 * b3)%Z by (apply (Z.div_unique _ _ _ b0); lia). symmetry. apply (Z.mod_unique _ _ (b2 + 256 * b3)); lia.
    + replace ((b0 + 256 * b1 + 65536 * b2 + 16777216 * b3) / 65536)%Z with (b2 + 256 * b3)%Z by (apply (Z.div_unique _ _ _ (b0 + 256 * b1)); lia). symmetry. apply (Z.mod_unique _ _ b3); lia.
    + replace ((b0 + 256 * b1 + 65536 * b2 + 16777216 * b3) / 16777216)%Z with b3 by (apply (Z.div_unique _ _ _ (b0 + 256 * b1 + 65536 * b2)); lia). apply Z.mod_small. lia.
Qed.
Lemma word_le_bytes w : word_le w = le_bytes w. Proof. reflexivity. Qed.
Lemma as_words_ok m p n bs : all_bytes bs -> length bs = 4 * n -> reads m p bs ->
  exists m1 ws, as_words m p n = Ok (m1, (length m, 0)) /\ extends m m1 /\ reads m1 (length m, 0) ws /\ all_words ws /\ length ws = n /\ flat_map le_bytes ws = bs /\ length m1 = S (length m).
Proof.
  intros F L R. unfold as_words. rewrite <- L. rewrite (load_n_ok bs m p 0) by (rewrite at_0; exact R). cbn [bind]. destruct (load_words_ok n bs F L) as (ws & -> & W & Lw & Fl).
  destruct (place_ok m ws) as (m1 & -> & X & R1 & L1). exists m1, ws. split; [reflexivity|]. split; [exact X|]. split; [exact R1|]. split; [exact W|]. split; [exact Lw|]. split; [exact Fl|exact L1].
Qed.
Lemma as_bytes_ok m p ws : reads m p ws -> exists m1, as_bytes m p (length ws) = Ok (m1, (length m, 0)) /\ extends m m1 /\ reads m1 (length m, 0) (flat_map le_bytes ws) /\ length m1 = S (length m).
Proof.
  intros R. unfold as_bytes. rewrite (load_n_ok ws m p 0) by (rewrite at_0; exact R). cbn [bind]. change word_le with le_bytes. destruct (place_ok m (flat_map le_bytes ws)) as (m1 & -> & H). exists m1. split; [reflexivity|exact H].
Qed.
Lemma conv_value ws : eval (map bswap (rev ws)) = OS2IP (flat_map le_bytes ws).
Proof.
  pose proof (be_words_le ws (length ws) (le_n _)) as E. rewrite firstn_all in E. destruct (be_words_spec (length ws) (flat_map le_bytes ws) (le_bytes_bytes ws) ltac:(rewrite le_bytes_length; lia)) as (wm & M1 & M2 & M3 & M4).
  rewrite E in M1. injection M1 as <-. rewrite <- (bytes_of_value _ M2), M4. rewrite firstn_all2 by (rewrite le_bytes_length; lia). reflexivity.
Qed.

(** ** The key *)
Section KEY.
Variables (junk : nat -> nat -> Z) (m0 : memory) (mod_ : loc) (bs : list Z) (exp : loc) (es : list Z) (q : nat).
Hypothesis Fb : all_bytes bs. Hypothesis Rb : reads m0 mod_ bs.
Hypothesis Fe : all_bytes es. Hypothesis Re : reads m0 exp es. Hypothesis Le : length es <= 8.
Let z := leading_zeros bs.
Let N := OS2IP bs.
Hypothesis Lb : length bs = z + 4 * q. Hypothesis q0 : 0 < q. Hypothesis qB : (4 * Z.of_nat q < 2 ^ 27)%Z.
Let M := skipn z bs.
Lemma M_len : length M = 4 * q. Proof using Lb. clear -Lb. unfold M. rewrite skipn_length. lia. Qed.
Lemma M_val : OS2IP M = N. Proof. apply leading_zeros_value. Qed.
Lemma M_bytes : all_bytes M. Proof. unfold M, all_bytes in *. rewrite <- (firstn_skipn z bs) in Fb. apply Forall_app in Fb. apply Fb. Qed.
Lemma N_range : (2 ^ (32 * Z.of_nat q - 8) <= N < 2 ^ (32 * Z.of_nat q))%Z.
Proof using Fb Lb q0. clear -Fb Lb q0 M N.
  destruct (leading_zeros_top bs) as (b & t & E & Hb & Lt); [fold z; lia|exact Fb|]. fold z M in E. fold z in Lt. pose proof M_bytes as FM. rewrite E in FM. inversion_clear FM as [|? ? _ Ft]. pose proof (OS2IP_range t Ft) as Rt.
  rewrite <- M_val, E, OS2IP_cons. assert (E256 : (256 ^ Z.of_nat (length t) = 2 ^ (32 * Z.of_nat q - 8))%Z). { change 256%Z with (2 ^ 8)%Z. rewrite <- Z.pow_mul_r by lia. f_equal. lia. }
  rewrite E256 in *. assert (P : (2 ^ (32 * Z.of_nat q) = 256 * 2 ^ (32 * Z.of_nat q - 8))%Z). { change 256%Z with (2 ^ 8)%Z. rewrite <- Z.pow_add_r by lia. f_equal. lia. }
  rewrite P. clear -Rt Hb. nia.
Qed.
Lemma N_pos : (0 < N)%Z. Proof using Fb Lb q0. clear -Fb Lb q0 M N. pose proof N_range. pose proof (Z.pow_pos_nonneg 2 (32 * Z.of_nat q - 8)). lia. Qed.
Lemma N_has : has_bits N (bits N) /\ words_for (bits N) = q /\ (32 * Z.of_nat q - 8 < bits N <= 32 * Z.of_nat q)%Z.
Proof using Fb Lb q0. clear -Fb Lb q0 M N.
  pose proof N_pos as P. pose proof N_range as R. pose proof (bits_range N P) as BR. assert (BB : (32 * Z.of_nat q - 8 < bits N <= 32 * Z.of_nat q)%Z).
  { unfold bits in *. rewrite (proj2 (Z.eqb_neq N 0)) by lia. assert (32 * Z.of_nat q - 8 <= Z.log2 N)%Z by (apply Z.log2_le_pow2; lia). assert (Z.log2 N < 32 * Z.of_nat q)%Z by (apply Z.log2_lt_pow2; lia). lia. }
  split; [split; [lia|exact BR]|]. split; [|exact BB]. unfold words_for. replace ((bits N + 31) / 32)%Z with (Z.of_nat q); [apply Nat2Z.id|]. apply (Z.div_unique _ _ _ (bits N + 31 - 32 * Z.of_nat q)); lia.
Qed.
Lemma gen_key_any : exists m p, gen_key_w junk m0 mod_ (length bs) exp (length es) = Ok (m, p) /\ extends m0 m /\ reads m (w_modulus p) M /\ reads m (w_exponent p) (repeat 0%Z (8 - length es) ++ es) /\
  reads m (w_rr p) (I2OSP (2 ^ (64 * Z.of_nat q) mod N) (4 * q)) /\ w_n0inv p = br_i32_ninv32 (N mod B) /\ w_num_bits p = 32 * q.
Proof.
  pose proof M_len as LM. pose proof M_val as VM. pose proof M_bytes as FM. pose proof N_pos as NP. destruct N_has as (HB & WF & BB). change (2 ^ 27)%Z with 134217728%Z in qB.
  unfold gen_key_w. pose proof (zeros_ok m0 mod_ bs 0) as Z0. rewrite at_0 in Z0. rewrite (Z0 Rb). clear Z0. cbn [bind]. fold z. rewrite Nat.add_0_l. replace (length bs - z) with (4 * q) by lia.
  assert (RM : reads m0 (at_ mod_ z) M) by (apply reads_skipn; [exact Rb|lia]).
  assert (Bm : fst mod_ < length m0) by (apply (reads_block m0 mod_ bs Rb); lia).
  destruct (alloca_ok m0 (junk 0) (4 * q)) as (m1 & -> & X1 & R1 & L1). set (L := length m0) in *. pose proof (extends_reads _ _ _ _ X1 RM) as RM1.
  destruct (memcpy_ok m1 (L, 0) (at_ mod_ z) (4 * q) M LM RM1 R1) as (m2 & -> & W2). { left. cbn [fst RawModel.at_]. lia. }
  cbn [bind]. pose proof (extends_writes _ _ _ _ _ X1 W2 (le_n _)) as X2. pose proof (writes_reads _ _ _ _ W2) as M2. pose proof (only_length _ _ _ (writes_only _ _ _ _ W2)) as L2.
  change (2 ^ 27)%Z with 134217728%Z. rewrite (proj2 (Z.leb_gt _ _)) by lia.
  replace (4 * q * 8) with (32 * q) by lia. replace (32 * q / 32) with q by (rewrite Nat.mul_comm, Nat.div_mul; lia). replace (32 * q * 2 / 32) with (2 * q) by (replace (32 * q * 2) with (2 * q * 32) by lia; rewrite Nat.div_mul; lia).
  replace ((32 * q * 2 + 31) / 32) with (2 * q) by (apply (Nat.div_unique _ _ _ 31); lia). replace ((32 * q * 2 + 7) / 8 + 1) with (8 * q + 1) by (f_equal; apply (Nat.div_unique _ _ _ 7); lia). replace ((32 * q + 7) / 8) with (4 * q) by (apply (Nat.div_unique _ _ _ 7); lia).
  destruct (place_ok m2 (repeat 0%Z (1 + q))) as (m3 & -> & X3 & R3 & L3). destruct (place_ok m3 (repeat 0%Z (1 + 2 * q))) as (m4 & -> & X4 & R4 & L4).
  destruct (place_ok m4 (repeat 0%Z (2 + 2 * q))) as (m5 & -> & X5 & R5 & L5). destruct (place_ok m5 (repeat 0%Z 8)) as (m6 & -> & X6 & R6 & L6).
  rewrite (proj2 (Nat.ltb_ge 8 _)) by exact Le.
  assert (X36 : extends m3 m6) by (eapply extends_trans; [exact X4|]; eapply extends_trans; [exact X5|exact X6]). assert (X26 : extends m2 m6) by (eapply extends_trans; [exact X3|exact X36]). assert (X06 : extends m0 m6) by (eapply extends_trans; [exact X2|exact X26]).
  assert (M6 : reads m6 (L, 0) M) by (apply (extends_reads _ _ _ _ X26 M2)).
  assert (N6 : room m6 (length m2, 0) (1 + q)) by (rewrite <- (repeat_length 0%Z (1 + q)); apply reads_room; apply (extends_reads _ _ _ _ X36 R3)).
  assert (T6 : room m6 (length m3, 0) (1 + 2 * q)) by (rewrite <- (repeat_length 0%Z (1 + 2 * q)); apply reads_room; apply (extends_reads _ _ _ _ (extends_trans _ _ _ X5 X6) R4)).
  assert (U6 : room m6 (length m4, 0) (2 + 2 * q)) by (rewrite <- (repeat_length 0%Z (2 + 2 * q)); apply reads_room; apply (extends_reads _ _ _ _ X6 R5)).
  (* exponent *)
  set (k := length es) in *.
  change (repeat 0%Z 8) with (repeat 0%Z (8)) in R6. assert (E8 : repeat 0%Z 8 = repeat 0%Z (8 - k) ++ repeat 0%Z k) by (rewrite <- repeat_app; f_equal; lia). rewrite E8 in R6. apply reads_app in R6. destruct R6 as [R6a R6b]. rewrite repeat_length in R6b.
  assert (Xe : reads m6 exp es) by (apply (extends_reads _ _ _ _ X06 Re)).
  assert (H7 : exists m7, memcpy_r m6 (at_ (length m5, 0) (8 - k)) exp k = Ok m7 /\ writes m6 (at_ (length m5, 0) (8 - k)) es m7).
  { apply memcpy_ok; [reflexivity|exact Xe|pose proof (reads_room _ _ _ R6b) as Q; rewrite repeat_length in Q; exact Q|]. destruct (Nat.eq_dec k 0) as [K0|K0]; [rewrite K0; unfold apart; cbn [fst snd RawModel.at_]; lia|]. left. cbn [fst RawModel.at_]. pose proof (reads_block m0 exp es Re ltac:(fold k; lia)). lia. }
  destruct H7 as (m7 & -> & W7). cbn [bind]. pose proof (writes_only _ _ _ _ W7) as O7.
  assert (P7 : reads m7 (length m5, 0) (repeat 0%Z (8 - k) ++ es)).
  { apply reads_app. rewrite repeat_length. split; [|exact (writes_reads _ _ _ _ W7)]. apply (writes_frame _ _ _ _ _ _ W7 R6a). right. right. cbn [fst snd RawModel.at_]. rewrite repeat_length. lia. }
  assert (X07 : extends m0 m7) by (apply (ext_only _ _ _ _ _ X06 O7); cbn [fst RawModel.at_]; lia).
  assert (M7 : reads m7 (L, 0) M) by (apply (only_keep _ _ _ _ _ _ O7 M6); cbn [fst RawModel.at_]; lia).
  pose proof (only_room _ _ _ _ _ O7 N6) as N7. pose proof (only_room _ _ _ _ _ O7 T6) as T7. pose proof (only_room _ _ _ _ _ O7 U6) as U7.
  clear W7 R6a R6b E8 M6 N6 T6 U6.
  (* n *)
  destruct (decode_value m7 (length m2, 0) (at_ mod_ z) M FM) as (m8 & E8 & O8 & I8).
  { rewrite LM. change (2 ^ 32)%Z with 4294967296%Z. lia. } { apply (extends_reads _ _ _ _ X07 RM). } { rewrite LM. replace ((4 * q + 3) / 4) with q by (apply (Nat.div_unique _ _ _ 3); lia). exact N7. } { left. cbn [fst RawModel.at_]. lia. }
  rewrite LM in *. replace ((4 * q + 3) / 4) with q in * by (apply (Nat.div_unique _ _ _ 3); lia). rewrite VM in I8. rewrite E8. cbn [bind].
  assert (X08 : extends m0 m8) by (apply (ext_only _ _ _ _ _ X07 O8); cbn [fst]; lia).
  assert (M8 : reads m8 (L, 0) M) by (apply (only_keep _ _ _ _ _ _ O8 M7); cbn [fst]; lia). assert (P8 : reads m8 (length m5, 0) (repeat 0%Z (8 - k) ++ es)) by (apply (only_keep _ _ _ _ _ _ O8 P7); cbn [fst]; lia).
  pose proof (only_room _ _ _ _ _ O8 T7) as T8. pose proof (only_room _ _ _ _ _ O8 U7) as U8.
  destruct I8 as (I8a & ns & Ln & Wn & I8b & En). assert (N1 : ld m8 (length m2, 0) 1 = Ok (nth 0 ns 0%Z)). { pose proof (reads_ld m8 (length m2, 0) 1 ns 0 I8b ltac:(lia)) as Q. exact Q. }
  rewrite N1. cbn [bind]. assert (I8 : i32_at m8 (length m2, 0) (bits N) q N) by (split; [exact I8a|]; exists ns; split; [exact Ln|]; split; [exact Wn|]; split; [exact I8b|exact En]).
  assert (MC : br_i32_ninv32 (nth 0 ns 0%Z) = br_i32_ninv32 (N mod B)).
  { f_equal. destruct ns as [|w0 wt]; [cbn in Ln; lia|]. apply words_cons in Wn as [Ww Wt]. cbn [nth]. rewrite eval_cons in En. rewrite <- En. rewrite Z.mul_comm, Z_mod_plus_full. symmetry. apply Z.mod_small. exact Ww. }
  pose proof (only_length _ _ _ O8) as L8. set (n0 := br_i32_ninv32 (nth 0 ns 0%Z)) in *. clearbody n0. clear I8a ns Ln Wn I8b En N1 O8 E8.
  (* rr *)
  assert (HR : (Z.of_nat (32 * q * 2) mod 8 = 0)%Z). { replace (Z.of_nat (32 * q * 2)) with ((8 * Z.of_nat q) * 8)%Z by lia. apply Z_mod_mult. } rewrite HR. change (2 ^ 0)%Z with 1%Z.
  destruct (st_ok m8 (length m3, 0) 0 0%Z) as (m9 & -> & W9). { apply (T8 0). lia. } cbn [bind]. pose proof (writes_only _ _ _ _ W9) as O9. pose proof (only_room _ _ _ _ _ O9 T8) as T9.
  destruct (st_ok m9 (length m3, 0) 0 1%Z) as (m10 & -> & W10). { apply (T9 0). lia. } cbn [bind]. pose proof (writes_only _ _ _ _ W10) as O10. pose proof (only_room _ _ _ _ _ O10 T9) as T10.
  destruct (clear_r_ok (2 * q) 1 (length m3, 0) m10) as (m11 & -> & W11). { apply (room_sub _ _ (1 + 2 * q) 1 (2 * q) T10). lia. } cbn [bind]. pose proof (writes_only _ _ _ _ W11) as O11.
  assert (R11 : reads m11 (length m3, 0) (1%Z :: repeat 0%Z (2 * q))). { change (1%Z :: repeat 0%Z (2 * q)) with ([1%Z] ++ repeat 0%Z (2 * q)). apply reads_app. split; [|exact (writes_reads _ _ _ _ W11)]. apply (writes_frame _ _ _ _ _ _ W11); [rewrite <- (at_0 (length m3, 0)); exact (writes_reads _ _ _ _ W10)|]. right. right. cbn. lia. }
  assert (K : forall p ws, fst p <> length m3 -> reads m8 p ws -> reads m11 p ws). { intros p ws D R. apply (only_keep _ _ _ _ _ _ O11); [|cbn [fst RawModel.at_]; lia]. apply (only_keep _ _ _ _ _ _ O10); [|cbn [fst RawModel.at_]; lia]. apply (only_keep _ _ _ _ _ _ O9); [exact R|cbn [fst RawModel.at_]; lia]. }
  assert (M11 : reads m11 (L, 0) M) by (apply K; [cbn [fst]; lia|exact M8]). assert (P11 : reads m11 (length m5, 0) (repeat 0%Z (8 - k) ++ es)) by (apply K; [cbn [fst]; lia|exact P8]).
  assert (X11 : extends m0 m11). { apply (ext_only _ m10 _ _ _ ) with (2 := O11); [|cbn [fst RawModel.at_]; lia]. apply (ext_only _ m9 _ _ _) with (2 := O10); [|cbn [fst RawModel.at_]; lia]. apply (ext_only _ m8 _ _ _ X08 O9). cbn [fst RawModel.at_]. lia. }
  assert (I11 : i32_at m11 (length m2, 0) (bits N) q N). { apply (i32_keep _ _ _ _ _ _ _ _ O11); [|cbn [fst RawModel.at_]; lia]. apply (i32_keep _ _ _ _ _ _ _ _ O10); [|cbn [fst RawModel.at_]; lia]. apply (i32_keep _ _ _ _ _ _ _ _ O9 I8). cbn [fst RawModel.at_]. lia. }
  pose proof (only_room _ _ _ _ _ O11 T10) as T11. assert (U11 : room m11 (length m4, 0) (2 + 2 * q)) by (apply (only_room _ _ _ _ _ O11), (only_room _ _ _ _ _ O10), (only_room _ _ _ _ _ O9), U8).
  assert (L11 : length m11 = length m6). { rewrite (only_length _ _ _ O11), (only_length _ _ _ O10), (only_length _ _ _ O9), L8. exact (only_length _ _ _ O7). }
  destruct (as_bytes_ok m11 (length m3, 0) (1%Z :: repeat 0%Z (2 * q)) R11) as (m12 & E12 & X12 & R12 & L12). replace (length (1%Z :: repeat 0%Z (2 * q))) with (1 + 2 * q) in E12 by (cbn [length]; rewrite repeat_length; reflexivity).
  rewrite E12. clear E12. cbn [bind].
  set (src := 1%Z :: repeat 0%Z (8 * q)).
  assert (FL : flat_map le_bytes (1%Z :: repeat 0%Z (2 * q)) = src ++ repeat 0%Z 3).
  { cbn [flat_map]. assert (Z0 : forall j, flat_map le_bytes (repeat 0%Z j) = repeat 0%Z (4 * j)). { induction j; [reflexivity|]. cbn [repeat flat_map]. rewrite IHj. replace (4 * S j) with (4 + 4 * j) by lia. rewrite repeat_app. reflexivity. }
    rewrite Z0. unfold src. change (le_bytes 1) with (1%Z :: repeat 0%Z 3). cbn [app]. f_equal. rewrite <- !repeat_app. f_equal. lia. }
  rewrite FL in R12. apply reads_app in R12. destruct R12 as [R12 _].
  assert (Ls : length src = 8 * q + 1) by (unfold src; cbn [length]; rewrite repeat_length; lia).
  assert (Fs : all_bytes src) by (unfold src; constructor; [unfold is_byte; lia|apply repeat_bytes]).
  assert (Vs : OS2IP src = (2 ^ (64 * Z.of_nat q))%Z). { unfold src. rewrite OS2IP_cons, OS2IP_zeros, repeat_length. change 256%Z with (2 ^ 8)%Z. rewrite <- Z.pow_mul_r by lia. replace (8 * Z.of_nat (8 * q))%Z with (64 * Z.of_nat q)%Z by lia. lia. }
  assert (Bs : bits (OS2IP src) = (64 * Z.of_nat q + 1)%Z). { rewrite Vs. apply bits_unique; [lia|]. replace (64 * Z.of_nat q + 1 - 1)%Z with (64 * Z.of_nat q)%Z by lia. split; [lia|]. apply Z.pow_lt_mono_r; lia. }
  assert (Ws : (length src + 3) / 4 = 2 * q + 1) by (rewrite Ls; symmetry; apply (Nat.div_unique _ _ _ 0); lia).
  destruct (decode_value m12 (length m4, 0) (length m11, 0) src Fs) as (m13 & E13 & O13 & I13).
  { rewrite Ls. change (2 ^ 32)%Z with 4294967296%Z. lia. } { exact R12. } { rewrite Ws. replace (S (2 * q + 1)) with (2 + 2 * q) by lia. apply (extends_room _ _ _ _ X12 U11). } { left. cbn [fst]. lia. }
  rewrite Ls in E13. rewrite E13. cbn [bind]. rewrite Ws in *. rewrite Bs, Vs in I13. replace (S (2 * q + 1)) with (2 + 2 * q) in O13 by lia. clear E13 R12 FL.
  assert (M13 : reads m13 (L, 0) M) by (apply (only_keep _ _ _ _ _ _ O13 (extends_reads _ _ _ _ X12 M11)); cbn [fst]; lia).
  assert (P13 : reads m13 (length m5, 0) (repeat 0%Z (8 - k) ++ es)) by (apply (only_keep _ _ _ _ _ _ O13 (extends_reads _ _ _ _ X12 P11)); cbn [fst]; lia).
  assert (J13 : i32_at m13 (length m2, 0) (bits N) q N) by (apply (i32_keep _ _ _ _ _ _ _ _ O13 (i32_ext _ _ _ _ _ _ X12 I11)); cbn [fst]; lia).
  assert (X13 : extends m0 m13) by (apply (ext_only _ _ _ _ _ (extends_trans _ _ _ X11 X12) O13); cbn [fst]; lia).
  pose proof (only_room _ _ _ _ _ O13 (extends_room _ _ _ _ X12 T11)) as T13. pose proof (only_length _ _ _ O13) as L13.
  assert (W64 : words_for (64 * Z.of_nat q + 1) = 2 * q + 1). { unfold words_for. replace ((64 * Z.of_nat q + 1 + 31) / 32)%Z with (Z.of_nat (2 * q + 1)); [apply Nat2Z.id|]. apply (Z.div_unique _ _ _ 0); lia. }
  destruct (reduce_claim m13 (length m3, 0) (length m4, 0) (length m2, 0) (bits N) (64 * Z.of_nat q + 1) (2 ^ (64 * Z.of_nat q)) N HB) as (m14 & E14 & O14 & I14).
  { change (2 ^ 32)%Z with 4294967296%Z. lia. } { lia. } { change (2 ^ 32)%Z with 4294967296%Z. lia. } { apply Z.pow_lt_mono_r; lia. } { rewrite WF. apply (room_sub _ _ (1 + 2 * q) 0 (S q)) in T13; [rewrite at_0 in T13; exact T13|lia]. } { rewrite W64. exact I13. } { rewrite WF. exact J13. } { left. cbn [fst]. lia. } { left. cbn [fst]. lia. }
  rewrite E14. cbn [bind]. clear E14. rewrite WF in O14, I14.
  assert (M14 : reads m14 (L, 0) M) by (apply (only_keep _ _ _ _ _ _ O14 M13); cbn [fst]; lia).
  assert (P14 : reads m14 (length m5, 0) (repeat 0%Z (8 - k) ++ es)) by (apply (only_keep _ _ _ _ _ _ O14 P13); cbn [fst]; lia).
  assert (X14 : extends m0 m14) by (apply (ext_only _ _ _ _ _ X13 O14); cbn [fst]; lia). pose proof (only_length _ _ _ O14) as L14.
  destruct (alloca_ok m14 (junk 1) (4 * q)) as (m15 & -> & X15 & R15 & L15).
  destruct (encode_value m15 (length m14, 0) (4 * q) (length m3, 0) (bits N) (2 ^ (64 * Z.of_nat q) mod N)) as (m16 & E16 & O16 & I16).
  { lia. } { change (2 ^ 32)%Z with 4294967296%Z. lia. } { pose proof (Z.mod_pos_bound (2 ^ (64 * Z.of_nat q)) N NP). pose proof (proj2 (bits_range N NP)). lia. } { rewrite WF. apply (i32_ext _ _ _ _ _ _ X15 I14). } { exact R15. } { left. cbn [fst]. lia. }
  rewrite E16. cbn [bind]. eexists m16, _. split; [reflexivity|]. cbn [w_rr w_modulus w_exponent w_n0inv w_num_bits].
  split; [apply (ext_only _ _ _ _ _ (extends_trans _ _ _ X14 X15) O16); cbn [fst]; lia|]. split; [apply (only_keep _ _ _ _ _ _ O16 (extends_reads _ _ _ _ X15 M14)); cbn [fst]; lia|].
  split; [apply (only_keep _ _ _ _ _ _ O16 (extends_reads _ _ _ _ X15 P14)); cbn [fst]; lia|]. split; [exact I16|]. split; [exact MC|reflexivity].
Qed.
End KEY.
Lemma low_word N : Z.odd N = true -> mont_const N (br_i32_ninv32 (N mod B)).
Proof.
  intros Od. pose proof B_pos as BP. destruct (ninv32_spec (N mod B) (mod_w N)) as (Q1 & Q2).
  - pose proof (Z.div_mod N B ltac:(lia)) as D. rewrite D in Od. rewrite Z.odd_add, Z.odd_mul in Od. change (Z.odd B) with false in Od. cbn [andb xorb] in Od. destruct (Z.odd (N mod B)); [reflexivity|discriminate].
  - unfold mont_const. rewrite <- B32. split; [exact Q1|]. rewrite <- Q2. rewrite <- (Z.add_mod_idemp_l (N * _)), <- (Z.mul_mod_idemp_l N), Z.add_mod_idemp_l by lia. reflexivity.
Qed.
Lemma gen_key_ok junk m0 mod_ bs exp es q : all_bytes bs -> reads m0 mod_ bs -> reads m0 exp es -> length es <= 8 -> length bs = leading_zeros bs + 4 * q -> 0 < q -> (4 * Z.of_nat q < 2 ^ 27)%Z -> Z.odd (OS2IP bs) = true ->
  exists m p, gen_key_w junk m0 mod_ (length bs) exp (length es) = Ok (m, p) /\ extends m0 m /\ reads m (w_modulus p) (skipn (leading_zeros bs) bs) /\ reads m (w_exponent p) (repeat 0%Z (8 - length es) ++ es) /\
  reads m (w_rr p) (I2OSP (2 ^ (64 * Z.of_nat q) mod OS2IP bs) (4 * q)) /\ mont_const (OS2IP bs) (w_n0inv p) /\ w_num_bits p = 32 * q.
Proof.
  intros Fb Rb Re Le Lb q0 qB Od. destruct (gen_key_any junk m0 mod_ bs exp es q Fb Rb Re Le Lb q0 qB) as (m & p & E & X & R1 & R2 & R3 & MC & NB). exists m, p. do 5 (split; [assumption|]). split; [rewrite MC; apply low_word; exact Od|exact NB].
Qed.
