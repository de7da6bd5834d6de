(** The word routines of c/powm.h over memory do what the list functions of PowmModel say. *)
From Coq Require Import List ZArith Bool Lia PeanoNat.
From Verif Require Import Outcome WordsModel WordsSpec WordsProofs PowmModel RawModel RawSpec RawProofs RawAlloc PowmRawModel.
Import ListNotations.
Open Scope nat_scope.

Ltac ap := unfold apart, at_ in *; cbn [fst snd length] in *; lia.

Lemma writes_same m p ws : reads m p ws -> writes m p ws m.
Proof.
  intros R. split; [reflexivity|]. intros b k. split; [|reflexivity]. intros [-> H]. rewrite <- (R (k - snd p)) by lia. f_equal. lia.
Qed.
(** ** Copies *)
Lemma load_n_ok ws : forall m p i, reads m (at_ p i) ws -> load_n m p i (length ws) = Ok ws.
Proof.
  induction ws as [|w ws IH]; intros m p i R; [reflexivity|]. cbn [length load_n]. rewrite (reads_hd _ _ _ _ _ R). cbn [bind]. rewrite (IH _ _ _ (reads_tl _ _ _ _ _ R)). reflexivity.
Qed.
Lemma store_n_ok ws : forall m p i, room m (at_ p i) (length ws) -> exists m', store_n m p i ws = Ok m' /\ writes m (at_ p i) ws m'.
Proof.
  induction ws as [|w ws IH]; intros m p i R; [eexists; split; [reflexivity|apply writes_nil]|]. cbn [length store_n] in *.
  destruct (st_ok m p i w (room_hd _ _ _ _ R)) as (m1 & -> & W1). cbn [bind].
  destruct (IH m1 p (S i) (writes_room _ _ _ _ _ _ W1 (room_tl _ _ _ _ R))) as (m2 & -> & W2).
  eexists; split; [reflexivity|]. apply (writes_up m (at_ p i) [_] m1 ws m2 W1). rewrite at_at. cbn [length]. now rewrite Nat.add_1_r.
Qed.
Lemma memmove_ok m dst src n ws : length ws = n -> reads m src ws -> room m dst n -> exists m', memmove_r m dst src n = Ok m' /\ writes m dst ws m'.
Proof.
  intros <- R Rm. unfold memmove_r. rewrite (load_n_ok ws m src 0) by (rewrite at_0; exact R). cbn [bind].
  destruct (store_n_ok ws m dst 0) as (m' & E & W); [rewrite at_0; exact Rm|]. rewrite at_0 in W. eauto.
Qed.
Lemma overlap_apart p q n : apart p n q n -> overlap p q n = false.
Proof.
  intros A. unfold overlap. destruct (Nat.eqb_spec (fst p) (fst q)) as [E|]; [|reflexivity]. destruct (Nat.ltb_spec (snd p) (snd q + n)); [|reflexivity].
  destruct (Nat.ltb_spec (snd q) (snd p + n)); [|reflexivity]. ap.
Qed.
Lemma memcpy_ok m dst src n ws : length ws = n -> reads m src ws -> room m dst n -> apart dst n src n -> exists m', memcpy_r m dst src n = Ok m' /\ writes m dst ws m'.
Proof. intros L R Rm A. unfold memcpy_r. rewrite (overlap_apart _ _ _ A). apply memmove_ok; assumption. Qed.

(** ** Montgomery multiplication *)
Lemma sub_modulus_r_ok xs : forall ns k i num n acc m, length xs = k -> length ns = k -> reads m (at_ num i) xs -> reads m (at_ n i) ns -> apart (at_ num i) k (at_ n i) k ->
  exists m', sub_modulus_r k i num n acc m = Ok m' /\ writes m (at_ num i) (sub_modulus xs ns acc) m'.
Proof.
  induction xs as [|a xs IH]; intros ns k i num n acc m Lx Ln Rx Rn A; destruct ns as [|b ns]; cbn [length] in *; subst k; try discriminate.
  - eexists; split; [reflexivity|apply writes_nil].
  - cbn [sub_modulus_r sub_modulus]. rewrite (reads_hd _ _ _ _ _ Rx), (reads_hd _ _ _ _ _ Rn). cbn [bind].
    destruct (st_ok m num i (s64 (acc + (a - b) mod W64) mod B)%Z (room_hd _ _ _ _ (reads_room _ _ _ Rx))) as (m1 & -> & W1). cbn [bind].
    destruct (IH ns (length xs) (S i) num n (Z.shiftr (s64 (acc + (a - b) mod W64)) 32) m1 eq_refl ltac:(lia)) as (m2 & E & W2).
    { apply (writes_frame _ _ _ _ _ _ W1 (reads_tl _ _ _ _ _ Rx)). ap. } { apply (writes_frame _ _ _ _ _ _ W1 (reads_tl _ _ _ _ _ Rn)). ap. } { ap. }
    rewrite E. eexists; split; [reflexivity|]. apply (writes_up m (at_ num i) [_] m1 _ m2 W1). rewrite at_at. cbn [length]. now rewrite Nat.add_1_r.
Qed.
Lemma ge_modulus_r_ok k : forall xs ns num n m, length xs = k -> length ns = k -> reads m num xs -> reads m n ns -> ge_modulus_r k m num n = Ok (ge_top (rev xs) (rev ns)).
Proof.
  induction k as [|k IH]; intros xs ns num n m Lx Ln Rx Rn.
  - destruct xs; [|discriminate]. reflexivity.
  - destruct (exists_last (l := xs)) as (xs' & a & ->); [intros ->; discriminate|]. destruct (exists_last (l := ns)) as (ns' & b & ->); [intros ->; discriminate|].
    rewrite app_length in Lx, Ln. cbn [length] in Lx, Ln. rewrite !rev_app_distr. cbn [rev app ge_modulus_r ge_top].
    rewrite (reads_ld0 _ _ _ k Rx) by (rewrite app_length; cbn; lia). rewrite (reads_ld0 _ _ _ k Rn) by (rewrite app_length; cbn; lia). cbn [bind].
    rewrite !app_nth2 by lia. replace (k - length xs') with 0 by lia. replace (k - length ns') with 0 by lia. cbn [nth].
    apply reads_app in Rx, Rn. rewrite (IH xs' ns' num n m ltac:(lia) ltac:(lia) (proj1 Rx) (proj1 Rn)). destruct (a <? b)%Z; [reflexivity|]. destruct (b <? a)%Z; reflexivity.
Qed.
Lemma mont_loop_length b : forall res n a d0 u v, length b = length res -> length n = length res -> length (fst (fst (mont_loop b res n a d0 u v))) = length res.
Proof.
  induction b as [|bi b IH]; intros res n a d0 u v Lb Ln; destruct res as [|ri res]; cbn [length] in *; try discriminate; [reflexivity|]. destruct n as [|ni n]; cbn [length] in *; try discriminate. cbn [mont_loop].
  specialize (IH res n a d0 ((Z.shiftr u 32 + a * bi + ri) mod W64)%Z ((Z.shiftr v 32 + d0 * ni + ((Z.shiftr u 32 + a * bi + ri) mod W64) mod B) mod W64)%Z ltac:(lia) ltac:(lia)).
  destruct (mont_loop b res n a d0 _ _) as [[r x] y]. cbn [fst length] in *. lia.
Qed.
Lemma mont_loop_r_ok rt : forall bt nt k i result a b n d0 u v m, length rt = k -> length bt = k -> length nt = k ->
  room m (at_ result i) (S k) -> reads m (at_ result (S i)) rt -> reads m (at_ b (S i)) bt -> reads m (at_ n (S i)) nt ->
  apart (at_ result i) (S k) (at_ b i) (S k) -> apart (at_ result i) (S k) (at_ n i) (S k) ->
  exists m', mont_loop_r k i result a b n d0 u v m = Ok (snd (fst (mont_loop bt rt nt a d0 u v)), snd (mont_loop bt rt nt a d0 u v), m') /\
    writes m (at_ result i) (fst (fst (mont_loop bt rt nt a d0 u v))) m'.
Proof.
  induction rt as [|r rt IH]; intros bt nt k i result a b n d0 u v m Lr Lb Ln Rm Rr Rb Rn Ab An; destruct bt as [|b' bt]; destruct nt as [|n' nt]; cbn [length] in *; subst k; try discriminate.
  - cbn [mont_loop_r mont_loop fst snd]. eexists; split; [reflexivity|apply writes_nil].
  - cbn [mont_loop_r mont_loop]. rewrite (reads_hd _ _ _ _ _ Rb), (reads_hd _ _ _ _ _ Rr), (reads_hd _ _ _ _ _ Rn). cbn [bind].
    set (u1 := ((Z.shiftr u 32 + a * b' + r) mod W64)%Z). set (v1 := ((Z.shiftr v 32 + d0 * n' + u1 mod B) mod W64)%Z).
    destruct (st_ok m result i (v1 mod B)%Z (room_hd _ _ _ _ Rm)) as (m1 & -> & W1). cbn [bind].
    clearbody u1 v1. destruct (IH bt nt (length rt) (S i) result a b n d0 u1 v1 m1 eq_refl ltac:(lia) ltac:(lia)) as (m2 & E & W2).
    { apply (writes_room _ _ _ _ _ _ W1). apply room_tl. exact Rm. }
    { apply (writes_frame _ _ _ _ _ _ W1 (reads_tl _ _ _ _ _ Rr)). ap. } { apply (writes_frame _ _ _ _ _ _ W1 (reads_tl _ _ _ _ _ Rb)). ap. } { apply (writes_frame _ _ _ _ _ _ W1 (reads_tl _ _ _ _ _ Rn)). ap. } { ap. } { ap. }
    rewrite E. destruct (mont_loop bt rt nt a d0 u1 v1) as [[l x] y]. cbn [fst snd] in *. eexists; split; [reflexivity|].
    apply (writes_up m (at_ result i) [_] m1 _ m2 W1). rewrite at_at. cbn [length]. now rewrite Nat.add_1_r.
Qed.
Lemma sub_modulus_length u : forall v c, length u = length v -> length (sub_modulus u v c) = length u.
Proof. induction u as [|a u IH]; intros [|b v] c L; cbn [length sub_modulus] in *; try discriminate; [reflexivity|]. rewrite IH; lia. Qed.

Section KEY.
Variables (key : raw_key) (ns : list Z).
Let n := r_modulus key. Let L := r_len key.
Hypothesis Ln : length ns = L.
Hypothesis L0 : 0 < L.
Lemma mont_step_r_ok m result a b rs bs : length rs = L -> length bs = L -> reads m result rs -> reads m b bs -> reads m n ns -> apart result L b L -> apart result L n L ->
  exists m' r, mont_step_r m key result a b = Ok m' /\ mont_step ns (r_n0inv key) rs a bs = Ok r /\ length r = L /\ writes m result r m'.
Proof.
  intros Lr Lb Rr Rb Rn Ab An. unfold mont_step_r. fold n L. rewrite (reads_ld0 _ _ _ 0 Rb), (reads_ld0 _ _ _ 0 Rr), (reads_ld0 _ _ _ 0 Rn) by lia.
  destruct bs as [|b0 bt]; [cbn in Lb; lia|]. destruct rs as [|r0 rt]; [cbn in Lr; lia|]. destruct ns as [|n0 nt]; [cbn in Ln; lia|]. cbn [nth bind mont_step]. cbn [length] in *.
  set (u := ((a * b0 + r0) mod W64)%Z). set (d0 := ((u mod B * r_n0inv key) mod B)%Z). set (v := ((d0 * n0 + u mod B) mod W64)%Z).
  clearbody u d0 v. destruct (mont_loop_r_ok rt bt nt (L - 1) 0 result a b n d0 u v m) as (m1 & E & W1); try lia.
  { rewrite at_0. replace (S (L - 1)) with (length (r0 :: rt)) by (cbn; lia). apply reads_room. exact Rr. }
  { apply (reads_tl _ _ 0 r0). rewrite at_0. exact Rr. } { apply (reads_tl _ _ 0 b0). rewrite at_0. exact Rb. } { apply (reads_tl _ _ 0 n0). rewrite at_0. exact Rn. } { ap. } { ap. }
  rewrite E. cbn [bind]. pose proof (mont_loop_length bt rt nt a d0 u v ltac:(lia) ltac:(lia)) as ML. destruct (mont_loop bt rt nt a d0 u v) as [[l x] y]. cbn [fst snd] in *. rewrite at_0 in W1.
  set (t := ((Z.shiftr x 32 + Z.shiftr y 32) mod W64)%Z).
  clearbody t. destruct (st_ok m1 result (L - 1) (t mod B)%Z) as (m2 & -> & W2). { apply (writes_room _ _ _ _ _ L W1); [|lia]. rewrite <- Lr. apply (reads_room _ _ _ Rr). }
  cbn [bind]. replace (L - 1) with (length l) in W2 by lia. pose proof (writes_up m result l m1 [_] m2 W1 W2) as W.
  assert (Ll : length (l ++ [(t mod B)%Z]) = L) by (rewrite app_length; cbn [length]; lia).
  destruct (Z.shiftr t 32 =? 0)%Z.
  - exists m2. eexists. split; [reflexivity|]. split; [reflexivity|]. split; [exact Ll|exact W].
  - unfold subtract_modulus_r. fold n L. destruct (sub_modulus_r_ok (l ++ [(t mod B)%Z]) (n0 :: nt) L 0 result n 0%Z m2 Ll ltac:(cbn; lia)) as (m3 & E3 & W3); rewrite ?at_0.
    { apply (writes_reads _ _ _ _ W). } { apply (writes_frame _ _ _ _ _ _ W Rn). rewrite Ll. replace (length (n0 :: nt)) with L by (cbn; lia). exact An. } { exact An. }
    rewrite at_0 in W3. exists m3. eexists. split; [exact E3|]. split; [reflexivity|]. unfold subtract_modulus. assert (Ls : length (sub_modulus (l ++ [(t mod B)%Z]) (n0 :: nt) 0) = L) by (rewrite sub_modulus_length; [exact Ll|cbn [length]; lia]).
    split; [exact Ls|]. apply (writes_again _ _ _ _ _ _ W W3). lia.
Qed.
Lemma mont_rows_r_ok result a b bs k : forall i as_ rs m, length as_ = k -> length rs = L -> length bs = L -> reads m result rs -> reads m (at_ a i) as_ -> reads m b bs -> reads m n ns ->
  apart result L (at_ a i) k -> apart result L b L -> apart result L n L ->
  exists m' r, mont_rows_r k i key result a b m = Ok m' /\ mont_rows ns (r_n0inv key) rs as_ bs = Ok r /\ length r = L /\ (writes m result r m').
Proof.
  induction k as [|k IH]; intros i as_ rs m La Lr Lb Rr Ra Rb Rn Aa Ab An; destruct as_ as [|a0 as_]; cbn [length] in La; try discriminate.
  - exists m, rs. split; [reflexivity|]. split; [reflexivity|]. split; [exact Lr|]. apply writes_same. exact Rr.
  - cbn [mont_rows_r mont_rows]. rewrite (reads_hd _ _ _ _ _ Ra). cbn [bind]. destruct (mont_step_r_ok m result a0 b rs bs Lr Lb Rr Rb Rn Ab An) as (m1 & r1 & E1 & S1 & L1 & W1). rewrite E1, S1. cbn [bind].
    destruct (IH (S i) as_ r1 m1 ltac:(lia) L1 Lb) as (m2 & r2 & E2 & S2 & L2 & W2).
    { apply (writes_reads _ _ _ _ W1). } { apply (writes_frame _ _ _ _ _ _ W1 (reads_tl _ _ _ _ _ Ra)). ap. } { apply (writes_frame _ _ _ _ _ _ W1 Rb). rewrite L1, Lb. exact Ab. } { apply (writes_frame _ _ _ _ _ _ W1 Rn). rewrite L1, Ln. exact An. } { ap. } { exact Ab. } { exact An. }
    exists m2, r2. split; [exact E2|]. split; [exact S2|]. split; [exact L2|]. apply (writes_again _ _ _ _ _ _ W1 W2). lia.
Qed.
Lemma montgomery_mul_r_ok m result a b as_ bs rr e : length as_ = L -> length bs = L -> reads m a as_ -> reads m b bs -> reads m n ns -> room m result L ->
  apart result L a L -> apart result L b L -> apart result L n L ->
  exists m' r, montgomery_mul_r m key result a b = Ok m' /\ montgomery_mul (mkkey L (r_n0inv key) ns rr e) as_ bs = Ok r /\ length r = L /\ writes m result r m'.
Proof.
  intros La Lb Ra Rb Rn Rm Aa Ab An. unfold montgomery_mul_r, montgomery_mul. fold L. cbn [k_modulus k_n0inv k_len].
  destruct (clear_r_ok L 0 result m) as (m1 & -> & W1); [rewrite at_0; exact Rm|]. rewrite at_0 in W1. cbn [bind].
  assert (F : forall q ws, length ws = L -> reads m q ws -> apart result L q L -> reads m1 q ws). { intros q ws Lw Rq A. apply (writes_frame _ _ _ _ _ _ W1 Rq). rewrite repeat_length, Lw. exact A. }
  destruct (mont_rows_r_ok result a b bs L 0 as_ (repeat 0%Z L) m1 La (repeat_length _ _) Lb) as (m2 & r & E & S & Lr & W2); rewrite ?at_0; try assumption.
  { apply (writes_reads _ _ _ _ W1). } { apply F; assumption. } { apply F; assumption. } { apply F; assumption. }
  exists m2, r. split; [exact E|]. split; [exact S|]. split; [exact Lr|]. apply (writes_again _ _ _ _ _ _ W1 W2). rewrite repeat_length. lia.
Qed.
End KEY.

(** ** The exponent loop and pow_mod *)
Lemma only_more m m1 rs rs' : only m m1 rs -> incl rs rs' -> only m m1 rs'.
Proof. intros [S1 F1] I. split; [exact S1|]. intros b k H. apply F1. intros r Hr. apply H. now apply I. Qed.

Section LOOP.
Variables (key : raw_key) (ns rr : list Z).
Let n := r_modulus key. Let L := r_len key.
Let lkey := mkkey L (r_n0inv key) ns rr (r_exponent key).
Hypothesis Ln : length ns = L.
Hypothesis L0 : 0 < L.
Lemma writes_only1 m p ws m' rs : writes m p ws m' -> length ws = L -> In (p, L) rs -> only m m' rs.
Proof. intros W Lw I. apply (only_more m m' [(p, length ws)]); [now apply writes_only|]. intros r [<-|[]]. rewrite Lw. exact I. Qed.
Lemma pow_bits_r_ok acc tmp a_scaled as_ j : forall accs m, length accs = L -> length as_ = L -> reads m acc accs -> reads m a_scaled as_ -> reads m n ns -> room m tmp L ->
  apart acc L tmp L -> apart acc L a_scaled L -> apart tmp L a_scaled L -> apart acc L n L -> apart tmp L n L ->
  exists m' r, pow_bits_r j key acc tmp a_scaled m = Ok m' /\ pow_bits j lkey accs as_ = Ok r /\ length r = L /\ reads m' acc r /\ only m m' [(acc, L); (tmp, L)].
Proof.
  induction j as [|j IH]; intros accs m Lc La Rc Ra Rn Rt A1 A2 A3 A4 A5; cbn [pow_bits_r pow_bits].
  - exists m, accs. split; [reflexivity|]. split; [reflexivity|]. split; [exact Lc|]. split; [exact Rc|]. apply only_refl.
  - destruct (montgomery_mul_r_ok key ns Ln L0 m tmp acc acc accs accs rr (r_exponent key) Lc Lc Rc Rc Rn Rt ltac:(ap) ltac:(ap) A5) as (m1 & t & E1 & S1 & L1 & W1).
    rewrite E1. cbn [bind]. fold L in S1. change (montgomery_mul lkey accs accs = Ok t) in S1. rewrite S1. cbn [bind]. change (k_exponent lkey) with (r_exponent key).
    assert (O1 : only m m1 [(acc, L); (tmp, L)]) by (apply (writes_only1 _ _ _ _ _ W1 L1); right; left; reflexivity).
    assert (Rt1 : reads m1 tmp t) by apply (writes_reads _ _ _ _ W1).
    assert (Ra1 : reads m1 a_scaled as_). { apply (writes_frame _ _ _ _ _ _ W1 Ra). rewrite L1, La. exact A3. }
    assert (Rn1 : reads m1 n ns). { apply (writes_frame _ _ _ _ _ _ W1 Rn). rewrite L1, Ln. exact A5. }
    assert (Rc1 : room m1 acc L). { apply (writes_room _ _ _ _ _ _ W1). rewrite <- Lc. apply (reads_room _ _ _ Rc). }
    assert (H : exists m2 r, (if is_public_exponent_bit_set (r_exponent key) (Z.of_nat (S j)) then montgomery_mul_r m1 key acc tmp a_scaled else memcpy_r m1 acc tmp (r_len key)) = Ok m2 /\
      (if is_public_exponent_bit_set (r_exponent key) (Z.of_nat (S j)) then montgomery_mul lkey t as_ else Ok t) = Ok r /\ length r = L /\ writes m1 acc r m2).
    { destruct (is_public_exponent_bit_set (r_exponent key) (Z.of_nat (S j))).
      - destruct (montgomery_mul_r_ok key ns Ln L0 m1 acc tmp a_scaled t as_ rr (r_exponent key) L1 La Rt1 Ra1 Rn1 Rc1 A1 A2 A4) as (m2 & r & E2 & S2 & L2 & W2). exists m2, r. split; [exact E2|]. split; [exact S2|]. split; [exact L2|exact W2].
      - destruct (memcpy_ok m1 acc tmp L t L1 Rt1 Rc1 A1) as (m2 & E2 & W2). exists m2, t. split; [exact E2|]. split; [reflexivity|]. split; [exact L1|exact W2]. }
    destruct H as (m2 & r & E2 & S2 & L2 & W2). rewrite E2, S2. cbn [bind].
    destruct (IH r m2 L2 La) as (m3 & r3 & E3 & S3 & L3 & R3 & O3); try assumption.
    { apply (writes_reads _ _ _ _ W2). } { apply (writes_frame _ _ _ _ _ _ W2 Ra1). rewrite L2, La. exact A2. } { apply (writes_frame _ _ _ _ _ _ W2 Rn1). rewrite L2, Ln. exact A4. }
    { apply (writes_room _ _ _ _ _ _ W2). apply (writes_room _ _ _ _ _ _ W1). exact Rt. }
    exists m3, r3. split; [exact E3|]. split; [exact S3|]. split; [exact L3|]. split; [exact R3|]. apply (only_trans _ m1); [exact O1|]. apply (only_trans _ m2); [|exact O3]. apply (writes_only1 _ _ _ _ _ W2 L2). left. reflexivity.
Qed.
Lemma load_val_r_ok val inout k : forall i ws m, length ws = k -> reads m inout ws -> room m (at_ val i) k -> apart (at_ val i) k inout k ->
  exists m', load_val_r k i val inout m = Ok m' /\ writes m (at_ val i) (map bswap (rev ws)) m'.
Proof.
  induction k as [|k IH]; intros i ws m Lw R Rm A.
  - destruct ws; [|discriminate]. eexists; split; [reflexivity|apply writes_nil].
  - destruct (exists_last (l := ws)) as (ws' & w & ->); [intros ->; discriminate|]. rewrite app_length in Lw. cbn [length] in Lw. rewrite rev_app_distr. cbn [rev app map load_val_r].
    rewrite (reads_ld0 _ _ _ k R) by (rewrite app_length; cbn; lia). cbn [bind]. rewrite app_nth2 by lia. replace (k - length ws') with 0 by lia. cbn [nth].
    destruct (st_ok m val i (bswap w) (room_hd _ _ _ _ Rm)) as (m1 & -> & W1). cbn [bind]. apply reads_app in R.
    destruct (IH (S i) ws' m1 ltac:(lia)) as (m2 & E2 & W2). { apply (writes_frame _ _ _ _ _ _ W1 (proj1 R)). ap. } { apply (writes_room _ _ _ _ _ _ W1). apply room_tl. exact Rm. } { ap. }
    rewrite E2. eexists; split; [reflexivity|]. apply (writes_up m (at_ val i) [_] m1 _ m2 W1). rewrite at_at. cbn [length]. now rewrite Nat.add_1_r.
Qed.
Lemma store_val_r_ok result inout k : forall j ws m, length ws = k -> reads m result ws -> room m (at_ inout j) k -> apart (at_ inout j) k result k ->
  exists m', store_val_r k j result inout m = Ok m' /\ writes m (at_ inout j) (map bswap (rev ws)) m'.
Proof.
  induction k as [|k IH]; intros i ws m Lw R Rm A.
  - destruct ws; [|discriminate]. eexists; split; [reflexivity|apply writes_nil].
  - destruct (exists_last (l := ws)) as (ws' & w & ->); [intros ->; discriminate|]. rewrite app_length in Lw. cbn [length] in Lw. rewrite rev_app_distr. cbn [rev app map store_val_r].
    rewrite (reads_ld0 _ _ _ k R) by (rewrite app_length; cbn; lia). cbn [bind]. rewrite app_nth2 by lia. replace (k - length ws') with 0 by lia. cbn [nth].
    destruct (st_ok m inout i (bswap w) (room_hd _ _ _ _ Rm)) as (m1 & -> & W1). cbn [bind]. apply reads_app in R.
    destruct (IH (S i) ws' m1 ltac:(lia)) as (m2 & E2 & W2). { apply (writes_frame _ _ _ _ _ _ W1 (proj1 R)). ap. } { apply (writes_room _ _ _ _ _ _ W1). apply room_tl. exact Rm. } { ap. }
    rewrite E2. eexists; split; [reflexivity|]. apply (writes_up m (at_ inout i) [_] m1 _ m2 W1). rewrite at_at. cbn [length]. now rewrite Nat.add_1_r.
Qed.

(** the list form of pow_mod with the words of val given *)
Definition pow_words (val : list Z) : outcome (option (list Z)) :=
  let k := num_public_exponent_bits (k_exponent lkey) in
  if (k <? 2)%Z then Ok None
  else if negb (is_public_exponent_bit_set (k_exponent lkey) 0) then Ok None
  else
    let* acc := montgomery_mul lkey val (k_rr lkey) in
    let* acc := pow_bits (Z.to_nat (k - 2)) lkey acc acc in
    let* tmp := montgomery_mul lkey acc acc in
    let* acc := montgomery_mul lkey tmp val in
    Ok (Some (if greater_equal_modulus (k_modulus lkey) acc then subtract_modulus (k_modulus lkey) acc else acc)).
Lemma pow_mod_body_ok m val acc tmp a_scaled inout ws : length ws = L -> length rr = L -> reads m inout ws -> reads m n ns -> reads m (r_rr key) rr ->
  room m val L -> room m acc L -> room m tmp L -> room m a_scaled L ->
  let ls := [val; acc; tmp; a_scaled] in
  (forall p q, In p ls -> In q ls -> p <> q -> apart p L q L) -> NoDup ls -> (forall p q, In p ls -> In q [inout; n; r_rr key] -> apart p L q L) ->
  exists m' o, pow_mod_body_r m key val acc tmp a_scaled inout = Ok (match o with Some _ => true | None => false end, m') /\ pow_words (map bswap (rev ws)) = Ok o /\
    only m m' [(val, L); (acc, L); (tmp, L); (a_scaled, L); (inout, match o with Some _ => L | None => 0 end)] /\ match o with Some r => length r = L /\ reads m' inout (map bswap (rev r)) | None => True end.
Proof.
  intros Lw Lrr Ri Rn Rr Mv Mc Mt Ma ls LL ND LO.
  assert (D : val <> acc /\ val <> tmp /\ val <> a_scaled /\ acc <> tmp /\ acc <> a_scaled /\ tmp <> a_scaled).
  { unfold ls in ND. inversion_clear ND as [|? ? N1 N]. inversion_clear N as [|? ? N2 N']. inversion_clear N' as [|? ? N3 _]. cbn [In] in *. repeat split; intros ->; intuition. }
  destruct D as (D1 & D2 & D3 & D4 & D5 & D6).
  assert (A : forall p q, In p ls -> In q ls -> p <> q -> apart p L q L) by exact LL. assert (Iv : In val ls) by (left; reflexivity). assert (Ic : In acc ls) by (right; left; reflexivity). assert (It : In tmp ls) by (right; right; left; reflexivity). assert (Ia : In a_scaled ls) by (right; right; right; left; reflexivity).
  assert (Ii : In inout [inout; n; r_rr key]) by (left; reflexivity). assert (In_ : In n [inout; n; r_rr key]) by (right; left; reflexivity). assert (Ir : In (r_rr key) [inout; n; r_rr key]) by (right; right; left; reflexivity).
  clearbody ls.
  unfold pow_mod_body_r, pow_words. fold L. cbn [k_exponent k_rr k_modulus lkey].
  destruct (load_val_r_ok val inout L 0 ws m Lw Ri) as (m1 & E1 & W1); rewrite ?at_0; [exact Mv|apply LO; assumption|]. rewrite at_0 in W1. rewrite E1. cbn [bind].
  set (vs := map bswap (rev ws)) in *. assert (Lv : length vs = L) by (unfold vs; rewrite map_length, rev_length; exact Lw).
  assert (O1 : forall x, only m m1 [(val, L); (acc, L); (tmp, L); (a_scaled, L); (inout, x)]) by (intros x; apply (writes_only1 _ _ _ _ _ W1 Lv); left; reflexivity).
  destruct (num_public_exponent_bits (r_exponent key) <? 2)%Z. { exists m1, None. split; [reflexivity|]. split; [reflexivity|]. split; [apply O1|exact I]. }
  destruct (negb (is_public_exponent_bit_set (r_exponent key) 0)). { exists m1, None. split; [reflexivity|]. split; [reflexivity|]. split; [apply O1|exact I]. }
  assert (F1 : forall q qs, length qs = L -> reads m q qs -> apart val L q L -> reads m1 q qs) by (intros q qs Lq Rq Aq; apply (writes_frame _ _ _ _ _ _ W1 Rq); rewrite Lv, Lq; exact Aq).
  pose proof (writes_reads _ _ _ _ W1) as Rv1. pose proof (F1 n ns Ln Rn (LO _ _ Iv In_)) as Rn1. pose proof (F1 (r_rr key) rr Lrr Rr (LO _ _ Iv Ir)) as Rr1. clear F1.
  destruct (montgomery_mul_r_ok key ns Ln L0 m1 acc val (r_rr key) vs rr rr (r_exponent key) Lv Lrr Rv1 Rr1 Rn1 (writes_room _ _ _ _ _ _ W1 Mc)) as (m2 & c2 & E2 & S2 & L2 & W2); [apply A; auto|apply LO; assumption|apply LO; assumption|].
  rewrite E2. cbn [bind]. change (montgomery_mul lkey vs rr = Ok c2) in S2. rewrite S2. cbn [bind]. change (length c2 = L) in L2.
  assert (R2 : room m2 a_scaled L) by (apply (writes_room _ _ _ _ _ _ W2), (writes_room _ _ _ _ _ _ W1), Ma). pose proof (writes_reads _ _ _ _ W2) as Rc2.
  destruct (memcpy_ok m2 a_scaled acc L c2 L2 Rc2 R2) as (m3 & E3 & W3); [apply A; auto|]. rewrite E3. cbn [bind].
  assert (F2 : forall q qs, length qs = L -> reads m1 q qs -> apart acc L q L -> apart a_scaled L q L -> reads m3 q qs).
  { intros q qs Lq Rq Aq1 Aq2. apply (writes_frame _ _ _ _ _ _ W3); [apply (writes_frame _ _ _ _ _ _ W2 Rq)|]; rewrite L2, Lq; assumption. }
  pose proof (F2 val vs Lv Rv1 (A _ _ Ic Iv (not_eq_sym D1)) (A _ _ Ia Iv (not_eq_sym D3))) as Rv3. pose proof (F2 n ns Ln Rn1 (LO _ _ Ic In_) (LO _ _ Ia In_)) as Rn3. clear F2.
  assert (Rc3 : reads m3 acc c2) by (apply (writes_frame _ _ _ _ _ _ W3 Rc2); rewrite L2; apply A; auto). pose proof (writes_reads _ _ _ _ W3) as Ra3.
  assert (Mt3 : room m3 tmp L) by (apply (writes_room _ _ _ _ _ _ W3), (writes_room _ _ _ _ _ _ W2), (writes_room _ _ _ _ _ _ W1), Mt).
  destruct (pow_bits_r_ok acc tmp a_scaled c2 (Z.to_nat (num_public_exponent_bits (r_exponent key) - 2)) c2 m3 L2 L2 Rc3 Ra3 Rn3 Mt3) as (m4 & c4 & E4 & S4 & L4 & Rc4 & O4); try (apply A; auto; fail); try (apply LO; assumption).
  rewrite E4, S4. cbn [bind].
  assert (F4 : forall q qs, length qs = L -> reads m3 q qs -> apart acc L q L -> apart tmp L q L -> reads m4 q qs).
  { intros q qs Lq Rq Aq1 Aq2. apply (only_reads _ _ _ _ _ O4 Rq). rewrite Lq. intros r [<-|[<-|[]]]; assumption. }
  pose proof (F4 val vs Lv Rv3 (A _ _ Ic Iv (not_eq_sym D1)) (A _ _ It Iv (not_eq_sym D2))) as Rv4. pose proof (F4 n ns Ln Rn3 (LO _ _ Ic In_) (LO _ _ It In_)) as Rn4. clear F4.
  destruct (montgomery_mul_r_ok key ns Ln L0 m4 tmp acc acc c4 c4 rr (r_exponent key) L4 L4 Rc4 Rc4 Rn4 (only_room _ _ _ _ _ O4 Mt3)) as (m5 & t5 & E5 & S5 & L5 & W5); [apply A; auto|apply A; auto|apply LO; assumption|].
  rewrite E5. cbn [bind]. change (montgomery_mul lkey c4 c4 = Ok t5) in S5. rewrite S5. cbn [bind]. change (length t5 = L) in L5.
  pose proof (writes_reads _ _ _ _ W5) as Rt5.
  assert (Rv5 : reads m5 val vs) by (apply (writes_frame _ _ _ _ _ _ W5 Rv4); rewrite L5, Lv; apply A; auto). assert (Rn5 : reads m5 n ns) by (apply (writes_frame _ _ _ _ _ _ W5 Rn4); rewrite L5, Ln; apply LO; assumption).
  assert (Mc5 : room m5 acc L) by (apply (writes_room _ _ _ _ _ _ W5); rewrite <- L4; apply (reads_room _ _ _ Rc4)).
  destruct (montgomery_mul_r_ok key ns Ln L0 m5 acc tmp val t5 vs rr (r_exponent key) L5 Lv Rt5 Rv5 Rn5 Mc5) as (m6 & c6 & E6 & S6 & L6 & W6); [apply A; auto|apply A; auto|apply LO; assumption|].
  rewrite E6. cbn [bind]. change (montgomery_mul lkey t5 vs = Ok c6) in S6. rewrite S6. cbn [bind]. change (length c6 = L) in L6.
  assert (Mt6 : room m6 tmp L) by (apply (writes_room _ _ _ _ _ _ W6); rewrite <- L5; apply (reads_room _ _ _ Rt5)).
  destruct (memcpy_ok m6 tmp acc L c6 L6 (writes_reads _ _ _ _ W6) Mt6) as (m7 & E7 & W7); [apply A; auto|]. rewrite E7. cbn [bind].
  assert (Rn7 : reads m7 n ns). { apply (writes_frame _ _ _ _ _ _ W7); [apply (writes_frame _ _ _ _ _ _ W6 Rn5)|]; rewrite L6, Ln; apply LO; assumption. }
  pose proof (writes_reads _ _ _ _ W7) as Rt7. unfold greater_equal_modulus_r. change (ge_modulus_r (r_len key) m7 tmp (r_modulus key)) with (ge_modulus_r L m7 tmp n). rewrite (ge_modulus_r_ok L c6 ns tmp n m7 L6 Ln Rt7 Rn7). cbn [bind].
  change (ge_top (rev c6) (rev ns)) with (greater_equal_modulus ns c6).
  set (res := if greater_equal_modulus ns c6 then subtract_modulus ns c6 else c6).
  assert (H : exists m8, (if greater_equal_modulus ns c6 then subtract_modulus_r m7 key tmp else Ok m7) = Ok m8 /\ length res = L /\ writes m7 tmp res m8).
  { unfold res. destruct (greater_equal_modulus ns c6).
    - unfold subtract_modulus_r. destruct (sub_modulus_r_ok c6 ns L 0 tmp n 0%Z m7 L6 Ln) as (m8 & E8 & W8); rewrite ?at_0; try assumption; [apply LO; assumption|]. rewrite at_0 in W8. exists m8. split; [exact E8|]. unfold subtract_modulus. split; [rewrite sub_modulus_length; lia|exact W8].
    - exists m7. split; [reflexivity|]. split; [exact L6|]. apply writes_same. exact Rt7. }
  destruct H as (m8 & E8 & L8 & W8). rewrite E8. cbn [bind].
  assert (O8 : only m m8 [(val, L); (acc, L); (tmp, L); (a_scaled, L); (inout, L)]).
  { apply (only_trans _ m1); [apply O1|]. apply (only_trans _ m2); [apply (writes_only1 _ _ _ _ _ W2 L2); cbn; tauto|]. apply (only_trans _ m3); [apply (writes_only1 _ _ _ _ _ W3 L2); cbn; tauto|].
    apply (only_trans _ m4); [apply (only_more _ _ _ _ O4); intros r [<-|[<-|[]]]; cbn; tauto|]. apply (only_trans _ m5); [apply (writes_only1 _ _ _ _ _ W5 L5); cbn; tauto|]. apply (only_trans _ m6); [apply (writes_only1 _ _ _ _ _ W6 L6); cbn; tauto|].
    apply (only_trans _ m7); [apply (writes_only1 _ _ _ _ _ W7 L6); cbn; tauto|]. apply (writes_only1 _ _ _ _ _ W8 L8); cbn; tauto. }
  assert (Mi8 : room m8 inout L) by (apply (only_room _ _ _ _ _ O8); rewrite <- Lw; apply (reads_room _ _ _ Ri)).
  destruct (store_val_r_ok tmp inout L 0 res m8 L8 (writes_reads _ _ _ _ W8)) as (m9 & E9 & W9); rewrite ?at_0; [exact Mi8|pose proof (LO _ _ It Ii); ap|]. rewrite at_0 in W9. rewrite E9. cbn [bind].
  exists m9, (Some res). split; [reflexivity|]. split; [reflexivity|]. split.
  - apply (only_trans _ m8); [exact O8|]. apply (writes_only1 _ _ _ _ _ W9); [rewrite map_length, rev_length; exact L8|cbn; tauto].
  - split; [exact L8|apply (writes_reads _ _ _ _ W9)].
Qed.
End LOOP.
