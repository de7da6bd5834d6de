(** The claims about the word routines of c/powm.h over memory, on integers. *)
From Coq Require Import List ZArith Bool Lia PeanoNat.
From Verif Require Import Outcome WordsModel WordsSpec WordsProofs RsaModel PowmModel PowmProofs PowmArith PowmReduce PowmConv PowmMont PowmSpec PowmMain RawModel RawSpec RawProofs RawAlloc PowmRawModel PowmRaw PowmRawSpec PowmRawMain PowmRawReduce.
Import ListNotations.
Open Scope Z_scope.

Lemma i32_reads m p h n v : i32_at m p h n v -> exists ws, length ws = n /\ all_words ws /\ reads m p (h :: ws) /\ eval ws = v.
Proof. intros [H (ws & L & W & R & E)]. exists ws. split; [exact L|]. split; [exact W|]. split; [|exact E]. change (h :: ws) with ([h] ++ ws). apply reads_app. split; assumption. Qed.

(** ** Conditional addition and subtraction *)
Lemma add_ctl_carry xs : forall ys c c' cc, snd (add_ctl xs ys c cc) = snd (add_ctl xs ys c' cc).
Proof. induction xs as [|x xs IH]; intros [|y ys] c c' cc; try reflexivity. cbn [add_ctl]. cbv zeta. specialize (IH ys c c' (Z.lor (Z.land cc (EQ ((x + y + cc) mod B) x)) (LT ((x + y + cc) mod B) x))). destruct (add_ctl xs ys c _), (add_ctl xs ys c' _). exact IH. Qed.
Lemma sub_ctl_carry xs : forall ys c c' cc, snd (sub_ctl xs ys c cc) = snd (sub_ctl xs ys c' cc).
Proof. induction xs as [|x xs IH]; intros [|y ys] c c' cc; try reflexivity. cbn [sub_ctl]. cbv zeta. specialize (IH ys c c' (Z.lor (Z.land cc (EQ ((x - y - cc) mod B) x)) (GT ((x - y - cc) mod B) x))). destruct (sub_ctl xs ys c _), (sub_ctl xs ys c' _). exact IH. Qed.
Lemma bit_cases b : bit b = 0 \/ bit b = 1. Proof. destruct b; [right|left]; reflexivity. Qed.
Lemma add_memory m a b h ctl X Y : 0 < h -> h + 63 < 2 ^ 32 -> i32_at m a h (words_for h) X -> i32_at m b h (words_for h) Y -> upward a b (words_for h) ->
  exists m' c, br_i32_add_r m a b (if ctl : bool then 1 else 0) = Ok (c, m') /\ only m m' [(RawModel.at_ a 1, words_for h)] /\
    c = (X + Y) / cap (words_for h) /\ holds m' (RawModel.at_ a 1) (words_for h) (if ctl then (X + Y) mod cap (words_for h) else X).
Proof.
  intros H0 Hh HA HB U. rewrite <- B32 in Hh. destruct (i32_reads _ _ _ _ _ HA) as (xs & Lx & Wx & Rx & Ex). destruct HB as [_ (ys & Ly & Wy & Ry & Ey)].
  destruct (add_r_fit h xs H0 Hh Lx m a b xs ys (bit ctl) Lx Ly Rx Ry) as (m' & c & E & S & W). { unfold upward, RawModel.at_ in *. cbn [fst snd]. lia. }
  pose proof (add_ctl_spec xs ys ctl false Wx Wy ltac:(congruence)) as P. pose proof (add_ctl_spec xs ys true false Wx Wy ltac:(congruence)) as P1. pose proof (add_ctl_carry xs ys (bit ctl) (bit true) 0) as CC.
  change (bit false) with 0 in P, P1. destruct (add_ctl xs ys (bit ctl) 0) as [r c0]. destruct (add_ctl xs ys (bit true) 0) as [r1 c1]. cbn [fst snd] in *. injection S as Sc. subst c0. subst c1.
  destruct P as (P1_ & P2 & c' & Ec & P3). destruct P1 as (Q1 & Q2 & c1' & Ec1 & Q3). rewrite cap_Bn. rewrite Lx in *. rewrite Ex, Ey in *.
  pose proof (eval_range r1 Q1) as Rr. rewrite Q2 in Rr. assert (DV : c = (X + Y) / Bn (words_for h)). { apply (Z.div_unique_pos _ _ c (eval r1)); [exact Rr|]. rewrite Ec1. lia. }
  exists m', c. split; [destruct ctl; exact E|]. split; [pose proof (writes_only _ _ _ _ W) as O; rewrite P2 in O; exact O|]. split; [exact DV|].
  exists r. split; [exact P2|]. split; [exact P1_|]. split; [apply (writes_reads _ _ _ _ W)|]. rewrite P3. destruct ctl; [|reflexivity].
  rewrite Zmod_eq_full by (pose proof (Bn_pos (words_for h)); lia). rewrite <- DV, Ec. ring.
Qed.
Lemma sub_memory m a b h ctl X Y : 0 < h -> h + 63 < 2 ^ 32 -> i32_at m a h (words_for h) X -> i32_at m b h (words_for h) Y -> upward a b (words_for h) ->
  exists m' c, br_i32_sub_r m a b (if ctl : bool then 1 else 0) = Ok (c, m') /\ only m m' [(RawModel.at_ a 1, words_for h)] /\
    c = (if X <? Y then 1 else 0) /\ holds m' (RawModel.at_ a 1) (words_for h) (if ctl then (X - Y) mod cap (words_for h) else X).
Proof.
  intros H0 Hh HA HB U. rewrite <- B32 in Hh. destruct (i32_reads _ _ _ _ _ HA) as (xs & Lx & Wx & Rx & Ex). destruct HB as [_ (ys & Ly & Wy & Ry & Ey)].
  destruct (sub_r_fit h xs H0 Hh Lx m a b xs ys (bit ctl) Lx Ly Rx Ry) as (m' & c & E & S & W). { unfold upward, RawModel.at_ in *. cbn [fst snd]. lia. }
  pose proof (sub_ctl_spec xs ys ctl false Wx Wy ltac:(congruence)) as P. pose proof (sub_ctl_spec xs ys true false Wx Wy ltac:(congruence)) as P1. pose proof (sub_ctl_carry xs ys (bit ctl) (bit true) 0) as CC.
  change (bit false) with 0 in P, P1. destruct (sub_ctl xs ys (bit ctl) 0) as [r c0]. destruct (sub_ctl xs ys (bit true) 0) as [r1 c1]. cbn [fst snd] in *. injection S as Sc. subst c0. subst c1.
  destruct P as (P1_ & P2 & c' & Ec & P3). destruct P1 as (Q1 & Q2 & c1' & Ec1 & Q3). rewrite cap_Bn. rewrite Lx in *. rewrite Ex, Ey in *.
  pose proof (eval_range xs Wx) as RX. pose proof (eval_range ys Wy) as RY. rewrite Lx, Ex in RX. rewrite Ly, Ey in RY.
  pose proof (eval_range r1 Q1) as Rr. rewrite Q2 in Rr. assert (DV : c = if X <? Y then 1 else 0). { rewrite Ec1 in *. destruct (Z.ltb_spec X Y), (bit_cases c1') as [K|K]; rewrite K in *; lia. }
  assert (DQ : c = - ((X - Y) / Bn (words_for h))). { rewrite <- (Z.div_unique_pos (X - Y) (Bn (words_for h)) (- c) (eval r1)); [lia|exact Rr|]. rewrite Ec1. lia. }
  exists m', c. split; [destruct ctl; exact E|]. split; [pose proof (writes_only _ _ _ _ W) as O; rewrite P2 in O; exact O|]. split; [exact DV|].
  exists r. split; [exact P2|]. split; [exact P1_|]. split; [apply (writes_reads _ _ _ _ W)|]. rewrite P3. destruct ctl; [|reflexivity].
  rewrite Zmod_eq_full by (pose proof (Bn_pos (words_for h)); lia). rewrite <- Ec, DQ. ring.
Qed.

(** ** Multiply-add and reduction *)
Lemma muladd_claim m x n h X N z : has_bits N h -> h + 63 < 2 ^ 32 -> 0 <= z < 2 ^ 32 -> i32_at m x h (words_for h) X -> X < N -> i32_at m n h (words_for h) N -> apart x (S (words_for h)) n (S (words_for h)) ->
  exists m', br_i32_muladd_small_r m x z n = Ok m' /\ only m m' [(RawModel.at_ x 1, words_for h)] /\ i32_at m' x h (words_for h) ((X * 2 ^ 32 + z) mod N).
Proof.
  intros HN Hh Hz HX XN HM A. rewrite <- B32 in Hh, Hz |- *. destruct (i32_reads _ _ _ _ _ HX) as (xs & Lx & Wx & Rx & Ex). destruct (i32_reads _ _ _ _ _ HM) as (ns & Ln & Wn & Rn & En).
  pose proof (fit_modulus h ns N Wn Ln En HN Hh) as MO. destruct (muladd_memory h n ns MO m x xs z Wx Lx Hz ltac:(lia) Rx Rn A) as (m' & r & E & W & R1 & R2 & R3). rewrite Ex, En in R3.
  exists m'. split; [exact E|]. split; [rewrite <- R2; apply writes_only; exact W|]. split.
  - apply (writes_frame _ _ _ _ x [h] W); [apply HX|]. ap.
  - exists r. split; [exact R2|]. split; [exact R1|]. split; [apply (writes_reads _ _ _ _ W)|exact R3].
Qed.
Lemma reduce_claim m x a n h ah A N : has_bits N h -> h + 63 < 2 ^ 32 -> 0 <= ah -> ah + 31 < 2 ^ 32 -> A < 2 ^ ah -> room m x (S (words_for h)) -> i32_at m a ah (words_for ah) A -> i32_at m n h (words_for h) N ->
  apart x (S (words_for h)) n (S (words_for h)) -> apart x (S (words_for h)) a (S (words_for ah)) ->
  exists m', br_i32_reduce_r m x a n = Ok m' /\ only m m' [(x, S (words_for h))] /\ i32_at m' x h (words_for h) (A mod N).
Proof.
  intros HN Hh Ha0 Ha HA Rx IA HM An Aa. rewrite <- B32 in Hh, Ha. destruct (i32_reads _ _ _ _ _ IA) as (as_ & La & Wa & Ra & Ea). destruct (i32_reads _ _ _ _ _ HM) as (ns & Ln & Wn & Rn & En).
  pose proof (fit_modulus h ns N Wn Ln En HN Hh) as MO. destruct (reduce_memory h n ns MO m x a ah as_ Wa La Ha0 Ha ltac:(lia) Rx Ra Rn An ltac:(rewrite La; exact Aa)) as (m' & r & E & W & R1 & R2 & R3). rewrite Ea, En in R3.
  exists m'. split; [exact E|]. split; [rewrite <- R2; apply (writes_only m x (h :: r) m'); exact W|]. pose proof (writes_reads _ _ _ _ W) as Rd. change (h :: r) with ([h] ++ r) in Rd. apply reads_app in Rd. split; [apply Rd|].
  exists r. split; [exact R2|]. split; [exact R1|]. split; [apply Rd|exact R3].
Qed.

(** ** Montgomery multiplication *)
Lemma mont_claim m key result a b N X Y : holds m (r_modulus key) (r_len key) N -> Z.odd N = true -> mont_const N (r_n0inv key) -> holds m a (r_len key) X -> holds m b (r_len key) Y -> room m result (r_len key) ->
  apart result (r_len key) a (r_len key) -> apart result (r_len key) b (r_len key) -> apart result (r_len key) (r_modulus key) (r_len key) ->
  exists m' v, montgomery_mul_r m key result a b = Ok m' /\ only m m' [(result, r_len key)] /\ holds m' result (r_len key) v /\ (v * cap (r_len key)) mod N = (X * Y) mod N /\ (Y < N -> v < Y + N).
Proof.
  intros (ns & Ln & Wn & Rn & En) Od Kc (xs & Lx & Wx & Rx & Ex) (ys & Ly & Wy & Ry & Ey) Rr Aa Ab An.
  assert (N0 : 0 < N). { pose proof (eval_range ns Wn) as RN. rewrite En in RN. destruct (Z.eq_dec N 0) as [->|]; [discriminate|lia]. }
  assert (L0 : (0 < r_len key)%nat). { destruct (r_len key); [|lia]. destruct ns; [|discriminate]. rewrite eval_nil in En. lia. }
  destruct (montgomery_mul_r_ok key ns Ln L0 m result a b xs ys [] 0 Lx Ly Rx Ry Rn Rr Aa Ab An) as (m' & r & E & S & Lr & W).
  destruct (montgomery_mul_spec (mkkey (r_len key) (r_n0inv key) ns [] 0) Wn (mont_const_ok ns N _ Wn En Kc) ltac:(cbn [k_modulus]; rewrite En; exact N0) Ln xs ys Wx Wy Lx Ly) as (r' & S' & W1 & W2 & W3 & W4).
  rewrite S in S'. injection S' as <-. cbn [k_modulus k_len] in *. rewrite En, Ex, Ey in *.
  exists m', (eval r). split; [exact E|]. split; [rewrite <- Lr; apply writes_only; exact W|]. split; [exists r; split; [exact Lr|]; split; [exact W1|]; split; [apply (writes_reads _ _ _ _ W)|reflexivity]|].
  split; [rewrite cap_Bn, Z.mul_comm; apply cong_mod; assumption|exact W4].
Qed.

(** ** The result over an operand *)
Lemma st_same m p i w : rd m (fst p) (snd p + i) = Some w -> st m p i w = Ok m.
Proof.
  intros H. destruct (st_ok m p i w) as (m' & E & S & W); [congruence|]. rewrite E. f_equal. apply mem_same; [exact S|]. intros b k. destruct (W b k) as [W1 W2].
  destruct (Nat.eq_dec b (fst p)) as [->|Nb]; [|apply W2; unfold within, RawModel.at_; cbn [fst snd length]; lia]. destruct (Nat.eq_dec k (snd p + i)) as [->|Nk]; [|apply W2; unfold within, RawModel.at_; cbn [fst snd length]; lia].
  rewrite W1 by (unfold within, RawModel.at_; cbn [fst snd length]; lia). unfold RawModel.at_. cbn [fst snd]. rewrite Nat.sub_diag. symmetry. exact H.
Qed.
Lemma reads_zero m p n j : reads m p (repeat 0 n) -> (j < n)%nat -> rd m (fst p) (snd p + j) = Some 0.
Proof. intros R H. rewrite (R j) by (rewrite repeat_length; exact H). rewrite nth_repeat. reflexivity. Qed.
Lemma ld_zero m p n j : reads m p (repeat 0 n) -> (j < n)%nat -> ld m p j = Ok 0.
Proof. intros R H. unfold ld. rewrite (reads_zero m p n j R H). reflexivity. Qed.
Lemma ld_room m p n j : room m p n -> (j < n)%nat -> exists w, ld m p j = Ok w.
Proof. intros R H. unfold ld. specialize (R j H). destruct (rd m (fst p) (snd p + j)) as [w|]; [exists w; reflexivity|contradiction]. Qed.
Section ALIAS.
Variables (m : memory) (key : raw_key) (result b : loc) (a : Z).
Let L := r_len key.
Hypothesis L0 : (0 < L)%nat.
Hypothesis Rn : room m (r_modulus key) L.
Hypothesis Rb : room m b L.
Hypothesis Z0 : reads m result (repeat 0 L).
Hypothesis Hz : a = 0 \/ reads m b (repeat 0 L).
Lemma mont_loop_zero k : forall i, (i + k < L)%nat -> mont_loop_r k i result a b (r_modulus key) 0 0 0 m = Ok (0, 0, m).
Proof.
  induction k as [|k IH]; intros i Hi; cbn [mont_loop_r]; [reflexivity|]. destruct (ld_room m b L (S i) Rb ltac:(lia)) as [bi Eb]. rewrite Eb. cbn [bind]. rewrite (ld_zero m result L (S i) Z0) by lia. cbn [bind].
  destruct (ld_room m _ L (S i) Rn ltac:(lia)) as [ni En]. rewrite En. cbn [bind].
  assert (P : a * bi = 0). { destruct Hz as [->|H]; [reflexivity|]. rewrite (ld_zero m b L (S i) H) in Eb by lia. injection Eb as <-. ring. }
  cbv zeta. replace ((Z.shiftr 0 32 + a * bi + 0) mod W64) with 0 by (rewrite P; reflexivity). replace ((Z.shiftr 0 32 + 0 * ni + 0 mod B) mod W64) with 0 by (rewrite Z.mul_0_l, Zmod_0_l; reflexivity). rewrite Zmod_0_l.
  rewrite st_same by (apply (reads_zero m result L); [exact Z0|lia]). cbn [bind]. apply IH. lia.
Qed.
Lemma mont_step_zero : mont_step_r m key result a b = Ok m.
Proof.
  unfold mont_step_r. destruct (ld_room m b L 0 Rb L0) as [b0 Eb]. rewrite Eb. cbn [bind]. rewrite (ld_zero m result L 0 Z0 L0). cbn [bind]. destruct (ld_room m _ L 0 Rn L0) as [n0 En]. rewrite En. cbn [bind].
  assert (P : a * b0 = 0). { destruct Hz as [->|H]; [reflexivity|]. rewrite (ld_zero m b L 0 H) in Eb by lia. injection Eb as <-. ring. }
  cbv zeta. assert (D : ((a * b0 + 0) mod W64 mod B * r_n0inv key) mod B = 0) by (rewrite P; reflexivity). rewrite D. replace ((0 * n0 + (a * b0 + 0) mod W64 mod B) mod W64) with 0 by (rewrite P; reflexivity). rewrite P. change ((0 + 0) mod W64) with 0. fold L.
  rewrite mont_loop_zero by lia. cbn [bind]. change ((Z.shiftr 0 32 + Z.shiftr 0 32) mod W64) with 0. rewrite Zmod_0_l. rewrite st_same by (apply (reads_zero m result L); [exact Z0|lia]). reflexivity.
Qed.
End ALIAS.
Lemma mont_alias m key result a b : (0 < r_len key)%nat -> room m (r_modulus key) (r_len key) -> room m a (r_len key) -> room m b (r_len key) -> result = a \/ result = b ->
  exists m', montgomery_mul_r m key result a b = Ok m' /\ only m m' [(result, r_len key)] /\ holds m' result (r_len key) 0.
Proof.
  intros L0 Rn Ra Rb H. set (L := r_len key) in *. unfold montgomery_mul_r. fold L. assert (Rr : room m result L) by (destruct H as [-> | ->]; assumption).
  destruct (clear_writes L 0 result m) as (m1 & -> & W). { rewrite at_0. exact Rr. } rewrite at_0 in W. cbn [bind]. pose proof (writes_reads _ _ _ _ W) as Z0.
  assert (K : forall k i, (i + k <= L)%nat -> mont_rows_r k i key result a b m1 = Ok m1).
  { induction k as [|k IH]; intros i Hi; cbn [mont_rows_r]; [reflexivity|]. destruct (ld_room m1 a L i (writes_room _ _ _ _ _ _ W Ra) ltac:(lia)) as [ai Ea]. rewrite Ea. cbn [bind].
    rewrite (mont_step_zero m1 key result b ai L0); [cbn [bind]; apply IH; lia|apply (writes_room _ _ _ _ _ _ W Rn)|apply (writes_room _ _ _ _ _ _ W Rb)|exact Z0|].
    destruct H as [<- | <-]; [left|right; exact Z0]. rewrite (ld_zero m1 result L i Z0) in Ea by lia. injection Ea as <-. reflexivity. }
  rewrite K by lia. exists m1. split; [reflexivity|]. split; [rewrite <- (repeat_length 0 L); apply writes_only; exact W|]. exists (repeat 0 L). split; [apply repeat_length|]. split; [apply words_repeat0|]. split; [exact Z0|apply eval_repeat0].
Qed.
Lemma reduce_alias m a n h N A : has_bits N h -> h + 63 < 2 ^ 32 -> 64 < h -> i32_at m a h (words_for h) A -> i32_at m n h (words_for h) N -> br_i32_reduce_r m a a n = UB.
Proof.
  intros HN Hh H64 IA HM. rewrite <- B32 in Hh. destruct (i32_reads _ _ _ _ _ IA) as (as_ & La & Wa & Ra & Ea). destruct (i32_reads _ _ _ _ _ HM) as (ns & Ln & Wn & Rn & En).
  unfold br_i32_reduce_r. rewrite (reads_ld0 _ _ _ 0 Rn) by (cbn; lia). cbn [nth bind]. rewrite (nwords_shift h) by lia. change (nwords h) with (words_for h).
  pose proof (Ra 0%nat ltac:(cbn; lia)) as R0. cbn [nth] in R0. rewrite st_same by exact R0. cbn [bind]. rewrite (proj2 (Z.eqb_neq h 0)) by lia. rewrite (reads_ld0 _ _ _ 0 Ra) by (cbn; lia). cbn [nth bind]. rewrite Z.ltb_irrefl.
  rewrite (nwords_shift h) by lia. change (nwords h) with (words_for h). pose proof (nwords_bits h ltac:(lia)) as N1. change (nwords h) with (words_for h) in N1.
  unfold memcpy_r, overlap, RawModel.at_. cbn [fst snd]. rewrite Nat.eqb_refl, !(proj2 (Nat.ltb_lt _ _)) by lia. reflexivity.
Qed.

(** ** Comparison with and subtraction of the modulus *)
Lemma ge_claim m key num N X : holds m (r_modulus key) (r_len key) N -> holds m num (r_len key) X -> greater_equal_modulus_r m key num = Ok (N <=? X).
Proof.
  intros (ns & Ln & Wn & Rn & En) (xs & Lx & Wx & Rx & Ex). unfold greater_equal_modulus_r. rewrite (ge_modulus_r_ok (r_len key) xs ns num (r_modulus key) m Lx Ln Rx Rn). f_equal.
  rewrite <- En, <- Ex. apply (greater_equal_modulus_spec ns xs Wn Wx). congruence.
Qed.
Lemma subtract_claim m key num N X : holds m (r_modulus key) (r_len key) N -> holds m num (r_len key) X -> apart num (r_len key) (r_modulus key) (r_len key) ->
  exists m', subtract_modulus_r m key num = Ok m' /\ only m m' [(num, r_len key)] /\ holds m' num (r_len key) ((X - N) mod cap (r_len key)).
Proof.
  intros (ns & Ln & Wn & Rn & En) (xs & Lx & Wx & Rx & Ex) A. unfold subtract_modulus_r.
  destruct (sub_modulus_r_ok xs ns (r_len key) 0 num (r_modulus key) 0 m Lx Ln) as (m' & E & W); rewrite ?at_0; try assumption. rewrite at_0 in W.
  pose proof (sub_modulus_spec xs ns 0 Wx Wn ltac:(congruence) ltac:(lia)) as P.
  destruct P as (P1 & P2 & c & P3). rewrite Lx in *. exists m'. split; [exact E|]. split; [rewrite <- P2; apply writes_only; exact W|].
  eexists. split; [exact P2|]. split; [exact P1|]. split; [apply (writes_reads _ _ _ _ W)|]. rewrite cap_Bn. pose proof (eval_range _ P1) as RR. rewrite P2 in RR.
  rewrite <- En, <- Ex. apply (Z.mod_unique_pos _ _ (- c)); [exact RR|]. lia.
Qed.
Lemma refuses_claim junk m key inout N RR bs : (0 < r_len key)%nat -> holds m (r_modulus key) (r_len key) N -> holds m (r_rr key) (r_len key) RR -> bytes_at m inout bs -> length bs = (4 * r_len key)%nat ->
  0 <= r_exponent key < 2 ^ 64 -> (Z.even (r_exponent key) = true \/ r_exponent key < 3) -> pow_mod_r junk m key inout = Ok (false, m).
Proof.
  intros L0 (ns & Ln & Wn & Rn & En) (rr & Lr & Wr & Rr & Er) (ws & Ww & Rw & ->) Lb He H. rewrite le_bytes_length in Lb.
  destruct (pow_mod_refuses junk m key inout ns rr ws L0 Ln Lr ltac:(lia) Rn Rr Rw He H) as (m' & E & ->). exact E.
Qed.
