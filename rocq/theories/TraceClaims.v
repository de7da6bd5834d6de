From Coq Require Import List ZArith Bool Lia.
From Verif Require PowmProofs PowmConv.
From Verif Require Import Outcome UtilsSpec RsaSpec WordsModel WordsSpec BufferModel PowmProofs PowmModel RawModel RawSpec RawProofs PowmRawModel PowmRawSpec TraceModel TraceSpec TraceProofs TraceValue.
Import ListNotations.
Open Scope nat_scope.

Lemma alike_weaken (P Q : cells) m m' : (forall b k, Q b k -> P b k) -> alike P m m' -> alike Q m m'.
Proof. intros H [S E]. split; [exact S|]. intros b k Hk. apply E. now apply H. Qed.
Lemma free_nowhere p i : free nowhere p i. Proof. intros k _ H. exact H. Qed.
Lemma cell_here p : cell p 0 (fst p) (snd p + 0). Proof. split; reflexivity. Qed.
Lemma free_own p : free (cell p 0) p 1. Proof. intros k Hk [_ E]. lia. Qed.

Lemma bit_length_claim m m' x n : alike nowhere m m' -> indistinguishable (br_i32_bit_length_t m x n) (br_i32_bit_length_t m' x n).
Proof. intros H. eapply same_indist. apply (same_bit_length nowhere); exact H. Qed.
Lemma decode_claim m m' x src len : alike nowhere m m' -> indistinguishable (br_i32_decode_t m x src len) (br_i32_decode_t m' x src len).
Proof. intros H. eapply same_indist. apply (same_decode nowhere); [exact H|apply free_nowhere]. Qed.
Lemma divrem_claim hi lo d hi' lo' d' : indistinguishable (br_divrem_t hi lo d) (br_divrem_t hi' lo' d').
Proof. eapply same_indist. apply same_divrem. Qed.
Lemma add_claim m m' a b ctl ctl' : alike (cell a 0) m m' -> indistinguishable (br_i32_add_t m a b ctl) (br_i32_add_t m' a b ctl').
Proof. intros H. eapply same_indist. apply (same_add (cell a 0)); [exact H|apply cell_here|apply free_own]. Qed.
Lemma sub_claim m m' a b ctl ctl' : alike (cell a 0) m m' -> indistinguishable (br_i32_sub_t m a b ctl) (br_i32_sub_t m' a b ctl').
Proof. intros H. eapply same_indist. apply (same_sub (cell a 0)); [exact H|apply cell_here|apply free_own]. Qed.

(** muladd_small reads the header of n first and then only that of x *)
Lemma muladd_any m m' x z z' n : alike (either (cell n 0) (cell x 0)) m m' ->
  same (alike (cell x 0)) (br_i32_muladd_small_t m x z n) (br_i32_muladd_small_t m' x z' n).
Proof.
  intros H. assert (Hx : alike (cell x 0) m m') by (eapply alike_weaken; [|exact H]; intros b k Hk; now right).
  pose proof (cell_here x) as HP. pose proof (free_own x) as F.
  unfold br_i32_muladd_small_t. eapply same_bind; [apply (same_ld _ m m' n 0 H); left; apply cell_here|]. intros h ? <-. eapply same_bind; [apply same_decide|intros _ _ _]. destruct (h =? 0)%Z; [now apply same_ret|].
  eapply same_bind; [apply same_decide|intros _ _ _].
  destruct (h <=? 32)%Z.
  - eapply same_bind; [apply (same_ld_any (cell x 0)); exact Hx|]. intros ? ? _. eapply same_bind; [apply (same_ld_any (cell x 0)); exact Hx|]. intros ? ? _. eapply same_bind; [apply same_rem|]. intros. apply same_st; [exact Hx|apply F; lia].
  - cbv zeta. eapply same_bind; [apply (same_word (cell x 0)); exact Hx|]. intros a0 a0' _. eapply same_bind; [apply (same_ld_any (cell x 0)); exact Hx|]. intros ? ? _.
    eapply same_bind; [apply (same_memmove (cell x 0)); [exact Hx|apply free_at; intros k Hk; apply F; lia]|].
    intros m1 m1' H1. eapply same_bind; [apply same_st; [exact H1|apply F; lia]|]. intros m2 m2' H2. eapply same_bind; [apply (same_word (cell x 0)); exact H2|]. intros a1 a1' _.
    eapply same_bind; [apply (same_word (cell x 0)); exact H2|]. intros b0 b0' _. eapply same_bind; [apply same_div|]. intros g g' _. eapply same_bind; [apply (same_mul_sub (cell x 0)); [exact H2|exact F]|].
    intros [[cc tb] m3] [[cc' tb'] m3'] H3. cbn [snd] in H3. eapply same_bind; [apply (same_add (cell x 0)); assumption|]. intros r r' Hr. eapply same_bind; [apply (same_sub (cell x 0)); assumption|].
    intros q q' Hq. now apply same_ret.
Qed.
Lemma muladd_claim m m' x z z' n : alike (either (cell n 0) (cell x 0)) m m' -> indistinguishable (br_i32_muladd_small_t m x z n) (br_i32_muladd_small_t m' x z' n).
Proof. intros H. eapply same_indist. now apply muladd_any. Qed.

(** a store of the same value makes a cell known *)
Lemma same_st_known (P : cells) m m' p i w : alike P m m' -> same (alike (either P (cell p i))) (stt m p i w) (stt m' p i w).
Proof.
  intros H. split; [reflexivity|]. cbn [stt fst]. unfold st. pose proof (alike_none P m m' (fst p) (snd p + i) H) as N.
  destruct (rd m (fst p) (snd p + i)) eqn:E1, (rd m' (fst p) (snd p + i)) eqn:E2; auto;
    try (destruct N as [N1 N2]; discriminate (N1 eq_refl) || discriminate (N2 eq_refl)).
  destruct H as [S HR]. split.
  - change (shape (upd m (fst p) (upd (nth (fst p) m []) (snd p + i) w)) = shape (upd m' (fst p) (upd (nth (fst p) m' []) (snd p + i) w))).
    rewrite !shape_set. exact S.
  - intros b k Hk. rewrite !rd_set by congruence. destruct (Nat.eqb_spec b (fst p)) as [->|Nb]; cbn [andb].
    + destruct (Nat.eqb_spec k (snd p + i)) as [->|Nk]; [reflexivity|]. destruct Hk as [Hk|[_ Hk]]; [now apply HR|contradiction].
    + destruct Hk as [Hk|[Hk _]]; [now apply HR|contradiction].
Qed.
(** the header of n is not one of the words x[1], x[2], ... *)
Lemma reduce_same m m' x a n : alike (either (cell n 0) (cell a 0)) m m' -> fst n <> fst x \/ snd n <= snd x ->
  same (alike (cell x 0)) (br_i32_reduce_t m x a n) (br_i32_reduce_t m' x a n).
Proof.
  intros H Hn. set (Q := either (cell n 0) (cell x 0)). unfold br_i32_reduce_t. eapply same_bind; [apply (same_ld _ m m' n 0 H); left; apply cell_here|]. intros h ? <-. cbv zeta.
  eapply same_bind; [apply same_st_known; exact H|]. intros m1 m1' H1.
  assert (HQ : alike Q m1 m1'). { eapply alike_weaken; [|exact H1]. intros b k [Hk|Hk]; [left; now left|now right]. }
  assert (Qx : forall u v, alike Q u v -> alike (cell x 0) u v). { intros u v Huv. eapply alike_weaken; [|exact Huv]. intros b k Hk. now right. }
  assert (F : free Q x 1). { intros k Hk [[E1 E2]|[_ E2]]; lia. }
  assert (Kn : Q (fst n) (snd n + 0)) by (left; apply cell_here). assert (Kx : Q (fst x) (snd x + 0)) by (right; apply cell_here).
  eapply same_bind; [apply same_decide|intros _ _ _]. destruct (h =? 0)%Z; [apply same_ret; now apply Qx|].
  eapply same_bind; [apply (same_ld _ m1 m1' a 0 H1); left; right; apply cell_here|]. intros ah ? <-. eapply same_bind; [apply same_decide|intros _ _ _]. destruct (ah <? h)%Z.
  - eapply same_bind; [apply (same_memcpy Q); [exact HQ|apply free_at; exact F]|]. intros m2 m2' H2. eapply same_mono; [exact Qx|]. now apply same_clear.
  - eapply same_bind; [apply (same_memcpy Q); [exact HQ|apply free_at; exact F]|]. intros m2 m2' H2. eapply same_bind; [apply (same_st_eq Q); exact H2|]. intros m3 m3' H3.
    eapply same_mono; [exact Qx|]. now apply same_reduce_loop.
Qed.
Lemma reduce_claim m m' x a n : alike (either (cell n 0) (cell a 0)) m m' -> fst n <> fst x \/ snd n <= snd x ->
  indistinguishable (br_i32_reduce_t m x a n) (br_i32_reduce_t m' x a n).
Proof. intros H Hn. eapply same_indist. now apply reduce_same. Qed.
Lemma encode_same m m' dst len x : alike (cell x 0) m m' -> same (alike nowhere) (br_i32_encode_t m dst len x) (br_i32_encode_t m' dst len x).
Proof.
  intros H. assert (HN : alike nowhere m m') by (eapply alike_weaken; [|exact H]; intros b k []). pose proof (free_nowhere dst) as F.
  unfold br_i32_encode_t. eapply same_bind; [apply (same_ld _ m m' x 0 H); apply cell_here|]. intros h ? <-. cbv zeta. eapply same_bind; [apply (same_clear nowhere); exact HN|]. intros m1 m1' H1.
  eapply same_bind; [instantiate (1 := fun _ _ => True); split; [reflexivity|exact Logic.I]|]. intros _ _ _. destruct (Nat.modulo _ 4) as [|r].
  - now apply same_encode_loop.
  - eapply same_bind; [apply (same_partial nowhere); [exact H1|apply F]|]. intros. now apply same_encode_loop.
Qed.
Lemma encode_claim m m' dst len x : alike (cell x 0) m m' -> indistinguishable (br_i32_encode_t m dst len x) (br_i32_encode_t m' dst len x).
Proof. intros H. eapply same_indist. now apply encode_same. Qed.

(** after decoding, the header is the bit length *)
Lemma rd_same_known (P : cells) m m' p v : alike P m m' -> reads m p [v] -> reads m' p [v] -> alike (either P (cell p 0)) m m'.
Proof.
  intros [S H] R R'. split; [exact S|]. intros b k [Hk|[-> ->]]; [now apply H|]. rewrite (R 0), (R' 0) by (cbn [length]; lia). reflexivity.
Qed.
Lemma derive_claim m m' n src bs bs' rr rrtmp dst olen : all_bytes bs -> all_bytes bs' -> length bs = length bs' -> (8 * Z.of_nat (length bs) + 32 < 2 ^ 32)%Z ->
  bits (OS2IP bs) = bits (OS2IP bs') -> reads m src bs -> reads m' src bs' -> room m n (S ((length bs + 3) / 4)) -> apart n (S ((length bs + 3) / 4)) src (length bs) ->
  alike (cell rrtmp 0) m m' -> fst n <> fst rr \/ snd n <= snd rr -> fst rrtmp <> fst n \/ snd rrtmp < snd n ->
  indistinguishable (derive_t m n src (length bs) rr rrtmp dst olen) (derive_t m' n src (length bs) rr rrtmp dst olen).
Proof.
  intros Hb Hb' L HB Bq R R' Rm A H N1 N2. eapply same_indist. unfold derive_t.
  eapply (same_bind (fun u v => alike (either (cell n 0) (cell rrtmp 0)) u v)); [|intros u v Huv; eapply same_bind; [apply reduce_same; [exact Huv|exact N1]|intros; apply encode_same; assumption]].
  assert (F : free (cell rrtmp 0) n 0) by (intros k Hk [E1 E2]; cbn [fst snd] in *; lia).
  pose proof (same_decode (cell rrtmp 0) m m' n src (length bs) H F) as [T E]. split; [exact T|].
  destruct (decode_value m n src bs Hb HB R Rm A) as (m1 & E1 & _ & [R1 _]).
  assert (Rm' : room m' n (S ((length bs' + 3) / 4))). { rewrite <- L. intros j Hj. rewrite <- (alike_none (cell rrtmp 0) m m' _ _ H). now apply Rm. }
  destruct (decode_value m' n src bs' Hb' ltac:(rewrite <- L; exact HB) R' Rm' ltac:(rewrite <- L; exact A)) as (m1' & E1' & _ & [R1' _]).
  rewrite <- L in E1'. rewrite E1, E1' in *. rewrite <- Bq in R1'. eapply alike_weaken; [|exact (rd_same_known _ _ _ _ _ E R1 R1')]. intros b k [Hk|Hk]; [now right|now left].
Qed.

(** the traced functions are the functions of C61 *)
Lemma erasure_claim :
  (forall m a b ctl, fst (br_i32_add_t m a b ctl) = br_i32_add_r m a b ctl) /\
  (forall m a b ctl, fst (br_i32_sub_t m a b ctl) = br_i32_sub_r m a b ctl) /\
  (forall hi lo d, fst (br_divrem_t hi lo d) = Ok (br_divrem hi lo d)) /\
  (forall m x z n, fst (br_i32_muladd_small_t m x z n) = br_i32_muladd_small_r m x z n) /\
  (forall m x a n, fst (br_i32_reduce_t m x a n) = br_i32_reduce_r m x a n) /\
  (forall m key num, fst (greater_equal_modulus_t m key num) = greater_equal_modulus_r m key num) /\
  (forall m key result a b, fst (montgomery_mul_t m key result a b) = montgomery_mul_r m key result a b).
Proof.
  split; [exact add_e|]. split; [exact sub_e|]. split; [exact divrem_e|]. split; [exact muladd_e|]. split; [exact reduce_e|]. split; [|exact mont_mul_e].
  intros. apply ge_modulus_e.
Qed.
Lemma bit_length_memory m x ws : all_words ws -> (32 * Z.of_nat (length ws) < 2 ^ 32)%Z -> reads m x ws -> fst (br_i32_bit_length_t m x (length ws)) = Ok (bits (eval ws)).
Proof. intros W HB R. rewrite (bit_length_value m x ws R). f_equal. apply PowmConv.br_i32_bit_length_spec; [exact W|]. rewrite PowmProofs.B32. exact HB. Qed.

(** the multiplication modulo 2^32 - 1 of 2^32 - 2 and of 1 by 2^32 - 2 *)
Definition lm (a : Z) : memory := [[4294967295]; [a]; [4294967294]; [0]]%Z.
Definition lkey : raw_key := mkraw 1 1 (0, 0) (0, 0) 3.
Lemma montgomery_leak : ~ indistinguishable (montgomery_mul_t (lm 4294967294) lkey (3, 0) (1, 0) (2, 0)) (montgomery_mul_t (lm 1) lkey (3, 0) (1, 0) (2, 0)).
Proof. intros [E _]. vm_compute in E. discriminate E. Qed.
Lemma holds_one m p w : (0 <= w < 2 ^ 32)%Z -> rd m (fst p) (snd p) = Some w -> holds m p 1 w.
Proof.
  intros Hw R. exists [w]. split; [reflexivity|]. split; [apply WordsProofs.words_cons; split; [rewrite PowmProofs.B32; exact Hw|apply WordsProofs.words_nil]|].
  split; [|rewrite WordsProofs.eval_single; reflexivity]. intros j Hj. cbn [length] in Hj. replace j with 0 by lia. rewrite Nat.add_0_r. exact R.
Qed.
Lemma montgomery_refuted : exists m m' key result a b N X X' Y,
    alike (fun c k => ~ cell a 0 c k) m m' /\ holds m (r_modulus key) (r_len key) N /\ Z.odd N = true /\ mont_const N (r_n0inv key) /\
    holds m a (r_len key) X /\ holds m' a (r_len key) X' /\ holds m b (r_len key) Y /\ (X < N)%Z /\ (X' < N)%Z /\ (Y < N)%Z /\
    ~ indistinguishable (montgomery_mul_t m key result a b) (montgomery_mul_t m' key result a b).
Proof.
  exists (lm 4294967294), (lm 1), lkey, (3, 0), (1, 0), (2, 0), 4294967295%Z, 4294967294%Z, 1%Z, 4294967294%Z.
  split. { split; [reflexivity|]. intros b k N. destruct b as [|[|b]]; try reflexivity. destruct k as [|k]; [|reflexivity]. exfalso. apply N. split; reflexivity. }
  split; [apply holds_one; [lia|reflexivity]|]. split; [reflexivity|]. split; [split; [cbn; lia|reflexivity]|].
  split; [apply holds_one; [lia|reflexivity]|]. split; [apply holds_one; [lia|reflexivity]|]. split; [apply holds_one; [lia|reflexivity]|].
  split; [lia|]. split; [lia|]. split; [lia|]. exact montgomery_leak.
Qed.
