(** The BearSSL routines of c/powm.h over memory: conditional addition and subtraction, multiply-add, reduction. *)
From Coq Require Import List ZArith Bool Lia PeanoNat.
From Verif Require Import Outcome WordsModel WordsSpec WordsProofs RsaModel PowmModel PowmProofs PowmArith PowmReduce PowmConv RawModel RawSpec RawProofs RawAlloc PowmRawModel PowmRaw PowmRawSpec PowmRawMain.
Import ListNotations.
Open Scope nat_scope.

Lemma upward_refl p n : upward p p n. Proof. right. left. lia. Qed.
Lemma add_ctl_r_ok xs : forall ys k u a b ctl cc m, length xs = k -> length ys = k -> reads m (RawModel.at_ a u) xs -> reads m (RawModel.at_ b u) ys -> upward (RawModel.at_ a u) (RawModel.at_ b u) k ->
  exists m', add_ctl_r k u a b ctl cc m = Ok (snd (add_ctl xs ys ctl cc), m') /\ writes m (RawModel.at_ a u) (fst (add_ctl xs ys ctl cc)) m'.
Proof.
  induction xs as [|x xs IH]; intros ys k u a b ctl cc m Lx Ly Rx Ry U; destruct ys as [|y ys]; cbn [length] in *; subst k; try discriminate.
  - eexists; split; [reflexivity|apply writes_nil].
  - cbn [add_ctl_r add_ctl]. rewrite (reads_hd _ _ _ _ _ Rx), (reads_hd _ _ _ _ _ Ry). cbn [bind].
    set (naw := ((x + y + cc) mod B)%Z). set (cc' := Z.lor (Z.land cc (EQ naw x)) (LT naw x)).
    destruct (st_ok m a u (MUX ctl naw x) (room_hd _ _ _ _ (reads_room _ _ _ Rx))) as (m1 & -> & W1). cbn [bind].
    destruct (IH ys (length xs) (S u) a b ctl cc' m1 eq_refl (eq_add_S _ _ Ly) (step_frame _ _ _ _ _ _ _ _ W1 (reads_tl _ _ _ _ _ Rx) eq_refl (upward_refl _ _))
      (step_frame _ _ _ _ _ _ _ _ W1 (reads_tl _ _ _ _ _ Ry) (eq_add_S _ _ Ly) U) (upward_S _ _ _ _ U)) as (m2 & E & W2).
    rewrite E. destruct (add_ctl xs ys ctl cc') as [r c]. cbn [fst snd] in *. eexists; split; [reflexivity|]. apply (writes_up m (RawModel.at_ a u) [_] m1 r m2 W1). rewrite at_at. cbn [length]. now rewrite Nat.add_1_r.
Qed.
Lemma sub_ctl_r_ok xs : forall ys k u a b ctl cc m, length xs = k -> length ys = k -> reads m (RawModel.at_ a u) xs -> reads m (RawModel.at_ b u) ys -> upward (RawModel.at_ a u) (RawModel.at_ b u) k ->
  exists m', sub_ctl_r k u a b ctl cc m = Ok (snd (sub_ctl xs ys ctl cc), m') /\ writes m (RawModel.at_ a u) (fst (sub_ctl xs ys ctl cc)) m'.
Proof.
  induction xs as [|x xs IH]; intros ys k u a b ctl cc m Lx Ly Rx Ry U; destruct ys as [|y ys]; cbn [length] in *; subst k; try discriminate.
  - eexists; split; [reflexivity|apply writes_nil].
  - cbn [sub_ctl_r sub_ctl]. rewrite (reads_hd _ _ _ _ _ Rx), (reads_hd _ _ _ _ _ Ry). cbn [bind].
    set (naw := ((x - y - cc) mod B)%Z). set (cc' := Z.lor (Z.land cc (EQ naw x)) (GT naw x)).
    destruct (st_ok m a u (MUX ctl naw x) (room_hd _ _ _ _ (reads_room _ _ _ Rx))) as (m1 & -> & W1). cbn [bind].
    destruct (IH ys (length xs) (S u) a b ctl cc' m1 eq_refl (eq_add_S _ _ Ly) (step_frame _ _ _ _ _ _ _ _ W1 (reads_tl _ _ _ _ _ Rx) eq_refl (upward_refl _ _))
      (step_frame _ _ _ _ _ _ _ _ W1 (reads_tl _ _ _ _ _ Ry) (eq_add_S _ _ Ly) U) (upward_S _ _ _ _ U)) as (m2 & E & W2).
    rewrite E. destruct (sub_ctl xs ys ctl cc') as [r c]. cbn [fst snd] in *. eexists; split; [reflexivity|]. apply (writes_up m (RawModel.at_ a u) [_] m1 r m2 W1). rewrite at_at. cbn [length]. now rewrite Nat.add_1_r.
Qed.
Lemma mul_sub_r_ok xs : forall ns k u x n q cc tb m, length xs = k -> length ns = k -> reads m (RawModel.at_ x u) xs -> reads m (RawModel.at_ n u) ns -> upward (RawModel.at_ x u) (RawModel.at_ n u) k ->
  exists m', mul_sub_r k u x n q cc tb m = Ok (snd (fst (mul_sub xs ns q cc tb)), snd (mul_sub xs ns q cc tb), m') /\ writes m (RawModel.at_ x u) (fst (fst (mul_sub xs ns q cc tb))) m'.
Proof.
  induction xs as [|x0 xs IH]; intros ns k u x n q cc tb m Lx Ly Rx Ry U; destruct ns as [|y ns]; cbn [length] in *; subst k; try discriminate.
  - eexists; split; [reflexivity|apply writes_nil].
  - cbn [mul_sub_r mul_sub]. rewrite (reads_hd _ _ _ _ _ Rx), (reads_hd _ _ _ _ _ Ry). cbn [bind].
    set (zl := ((y * q + cc) mod W64)%Z). set (nxw := ((x0 - zl mod B) mod B)%Z). set (cc' := ((Z.shiftr zl 32 mod B + GT nxw x0) mod W64)%Z). set (tb' := MUX (EQ nxw y) tb (GT nxw y)).
    destruct (st_ok m x u nxw (room_hd _ _ _ _ (reads_room _ _ _ Rx))) as (m1 & -> & W1). cbn [bind].
    destruct (IH ns (length xs) (S u) x n q cc' tb' m1 eq_refl (eq_add_S _ _ Ly) (step_frame _ _ _ _ _ _ _ _ W1 (reads_tl _ _ _ _ _ Rx) eq_refl (upward_refl _ _))
      (step_frame _ _ _ _ _ _ _ _ W1 (reads_tl _ _ _ _ _ Ry) (eq_add_S _ _ Ly) U) (upward_S _ _ _ _ U)) as (m2 & E & W2).
    rewrite E. destruct (mul_sub xs ns q cc' tb') as [[r c] t]. cbn [fst snd] in *. eexists; split; [reflexivity|]. apply (writes_up m (RawModel.at_ x u) [_] m1 r m2 W1). rewrite at_at. cbn [length]. now rewrite Nat.add_1_r.
Qed.
Lemma word_r_ok m a ws off w : reads m (RawModel.at_ a 1) ws -> br_i32_word ws off = Ok w -> br_i32_word_r m a off = Ok w.
Proof.
  intros R. unfold br_i32_word, br_i32_word_r. set (u := Z.to_nat (Z.shiftr off 5)).
  assert (H : forall k v, RsaModel.at_ ws k = Ok v -> ld m a (k + 1) = Ok v).
  { intros k v E. unfold RsaModel.at_ in E. destruct (nth_error ws k) as [v'|] eqn:N; [|discriminate]. injection E as ->. rewrite Nat.add_comm.
    rewrite (reads_ld _ _ _ _ k R) by (apply nth_error_Some; congruence). f_equal. apply nth_error_nth. exact N. }
  destruct (_ =? 0)%Z; [apply H|]. destruct (RsaModel.at_ ws u) as [lo| | |] eqn:E1; cbn [bind]; try discriminate. rewrite (H _ _ E1). destruct (RsaModel.at_ ws (u + 1)) as [hi| | |] eqn:E2; cbn [bind]; try discriminate. rewrite (H _ _ E2). cbn [bind]. exact (fun e => e).
Qed.
Lemma at_len (ws : list Z) k v : RsaModel.at_ ws k = Ok v -> k < length ws /\ nth k ws 0%Z = v.
Proof. unfold RsaModel.at_. destruct (nth_error ws k) as [v'|] eqn:N; [|discriminate]. intros E. injection E as ->. split; [apply nth_error_Some; congruence|apply nth_error_nth; exact N]. Qed.
Lemma add_ctl_length a : forall b ctl cc, length a = length b -> length (fst (add_ctl a b ctl cc)) = length a.
Proof. induction a as [|x a IH]; intros [|y b] ctl cc L; cbn [length] in L; try discriminate; [reflexivity|]. cbn [add_ctl]. match goal with |- context [add_ctl a b ctl ?c] => specialize (IH b ctl c ltac:(lia)); destruct (add_ctl a b ctl c) end. cbn [fst length] in *. lia. Qed.
Lemma sub_ctl_length a : forall b ctl cc, length a = length b -> length (fst (sub_ctl a b ctl cc)) = length a.
Proof. induction a as [|x a IH]; intros [|y b] ctl cc L; cbn [length] in L; try discriminate; [reflexivity|]. cbn [sub_ctl]. match goal with |- context [sub_ctl a b ctl ?c] => specialize (IH b ctl c ltac:(lia)); destruct (sub_ctl a b ctl c) end. cbn [fst length] in *. lia. Qed.
Lemma mul_sub_length a : forall b q cc tb, length a = length b -> length (fst (fst (mul_sub a b q cc tb))) = length a.
Proof. induction a as [|x a IH]; intros [|y b] q cc tb L; cbn [length] in L; try discriminate; [reflexivity|]. cbn [mul_sub]. match goal with |- context [mul_sub a b q ?c ?t] => specialize (IH b q c t ltac:(lia)); destruct (mul_sub a b q c t) as [[? ?] ?] end. cbn [fst length] in *. lia. Qed.

(** the functions, on numbers that fill their arrays: [h] bits in [words_for h] words *)
Section FIT.
Variables (h : Z) (n : loc) (ns : list Z).
Hypothesis H0 : (0 < h)%Z.
Hypothesis Hh : (h + 63 < B)%Z.
Let L := words_for h.
Hypothesis Ln : length ns = L.
Lemma count_h : word_count h = L. Proof. rewrite word_count_spec by lia. reflexivity. Qed.
Lemma mlen_h : Z.to_nat (Z.shiftr ((h + 31) mod B) 5) = L. Proof. rewrite nwords_shift by lia. reflexivity. Qed.
Lemma add_r_fit m a b xs ys ctl : length xs = L -> length ys = L -> reads m a (h :: xs) -> reads m (RawModel.at_ b 1) ys -> upward (RawModel.at_ a 1) (RawModel.at_ b 1) L ->
  exists m' c, br_i32_add_r m a b ctl = Ok (c, m') /\ (fst (add_ctl xs ys ctl 0), c) = add_ctl xs ys ctl 0 /\ writes m (RawModel.at_ a 1) (fst (add_ctl xs ys ctl 0)) m'.
Proof.
  intros Lx Ly Rx Ry U. unfold br_i32_add_r. rewrite (reads_ld0 _ _ _ 0 Rx) by (cbn; lia). cbn [nth bind]. rewrite count_h.
  destruct (add_ctl_r_ok xs ys L 1 a b ctl 0%Z m Lx Ly) as (m' & E & W); try assumption. { apply (reads_tl _ _ 0 h). rewrite at_0. exact Rx. }
  exists m'. eexists. split; [exact E|]. split; [destruct (add_ctl xs ys ctl 0); reflexivity|exact W].
Qed.
Lemma sub_r_fit m a b xs ys ctl : length xs = L -> length ys = L -> reads m a (h :: xs) -> reads m (RawModel.at_ b 1) ys -> upward (RawModel.at_ a 1) (RawModel.at_ b 1) L ->
  exists m' c, br_i32_sub_r m a b ctl = Ok (c, m') /\ (fst (sub_ctl xs ys ctl 0), c) = sub_ctl xs ys ctl 0 /\ writes m (RawModel.at_ a 1) (fst (sub_ctl xs ys ctl 0)) m'.
Proof.
  intros Lx Ly Rx Ry U. unfold br_i32_sub_r. rewrite (reads_ld0 _ _ _ 0 Rx) by (cbn; lia). cbn [nth bind]. rewrite count_h.
  destruct (sub_ctl_r_ok xs ys L 1 a b ctl 0%Z m Lx Ly) as (m' & E & W); try assumption. { apply (reads_tl _ _ 0 h). rewrite at_0. exact Rx. }
  exists m'. eexists. split; [exact E|]. split; [destruct (sub_ctl xs ys ctl 0); reflexivity|exact W].
Qed.
Lemma take_full (l : list Z) : length l = L -> take L l = Ok l.
Proof. intros E. apply take_all. exact E. Qed.
Lemma header m m' x xs r : reads m x (h :: xs) -> writes m (RawModel.at_ x 1) r m' -> reads m' x (h :: r).
Proof.
  intros R W. change (h :: r) with ([h] ++ r). apply reads_app. split; [|apply (writes_reads _ _ _ _ W)].
  apply (writes_frame _ _ _ _ x [h] W); [change (h :: xs) with ([h] ++ xs) in R; apply reads_app in R; apply R|]. ap.
Qed.
Lemma muladd_r_ok m x xs z r : length xs = L -> reads m x (h :: xs) -> reads m n (h :: ns) -> apart x (S L) n (S L) ->
  br_i32_muladd_small (h, xs) z (h, ns) = Ok (h, r) -> length r = L -> exists m', br_i32_muladd_small_r m x z n = Ok m' /\ writes m (RawModel.at_ x 1) r m'.
Proof.
  intros Lx Rx Rn A E Lr. unfold br_i32_muladd_small_r, br_i32_muladd_small in *. cbn [fst snd] in E. rewrite (reads_ld0 _ _ _ 0 Rn) by (cbn; lia). cbn [nth bind].
  rewrite (proj2 (Z.eqb_neq h 0)) in * by lia.
  assert (Rx1 : reads m (RawModel.at_ x 1) xs) by (apply (reads_tl _ _ 0 h); rewrite at_0; exact Rx). assert (Rn1 : reads m (RawModel.at_ n 1) ns) by (apply (reads_tl _ _ 0 h); rewrite at_0; exact Rn).
  destruct (h <=? 32)%Z.
  - destruct (RsaModel.at_ xs 0) as [x1| | |] eqn:E1; cbn [bind] in E; try discriminate. destruct (RsaModel.at_ ns 0) as [n1| | |] eqn:E2; cbn [bind] in E; try discriminate. injection E as <-.
    apply at_len in E1 as [K1 <-]. apply at_len in E2 as [K2 <-]. pose proof (reads_ld _ _ 1 _ 0 Rx1 K1) as J1. pose proof (reads_ld _ _ 1 _ 0 Rn1 K2) as J2. rewrite Nat.add_0_r in J1, J2. rewrite J1, J2. cbn [bind].
    destruct xs as [|x0 xs]; [cbn in K1; lia|]. cbn [skipn nth] in *.
    destruct (st_ok m x 1 (br_rem x0 z (nth 0 ns 0%Z))) as (m1 & Es & W1). { apply (room_hd _ _ _ _ (reads_room _ _ _ Rx1)). }
    exists m1. split; [exact Es|]. change (br_rem x0 z (nth 0 ns 0%Z) :: xs) with ([br_rem x0 z (nth 0 ns 0%Z)] ++ xs). apply (writes_up m _ _ m1 xs m1 W1). apply writes_same. rewrite at_at. cbn [length Nat.add].
    apply (writes_frame _ _ _ _ _ _ W1 (reads_tl _ _ _ _ _ Rx1)). ap.
  - rewrite mlen_h in *. destruct (br_i32_word xs (h - 32)) as [a0| | |] eqn:Ea; cbn [bind] in E; try discriminate. rewrite (word_r_ok _ _ _ _ _ Rx1 Ea). cbn [bind].
    destruct (RsaModel.at_ xs (L - 1)) as [hi| | |] eqn:Eh; cbn [bind] in E; try discriminate. apply at_len in Eh as [Kh Eh].
    pose proof (reads_ld _ _ 1 _ (L - 1) Rx1 Kh) as J1. replace (1 + (L - 1)) with L in J1 by lia. rewrite J1, Eh. cbn [bind].
    unfold take at 1 in E. destruct (Nat.leb_spec (L - 1) (length xs)) as [_|]; [|lia]. cbn [bind] in E. rewrite (skipn_all2 xs) in E by lia. rewrite app_nil_r in E.
    set (low := firstn (L - 1) xs) in *. assert (Ll : length low = L - 1) by (unfold low; rewrite firstn_length; lia).
    assert (Rlow : reads m (RawModel.at_ x 1) low) by (apply reads_firstn; exact Rx1).
    destruct (memmove_ok m (RawModel.at_ x 2) (RawModel.at_ x 1) (L - 1) low Ll Rlow) as (m1 & -> & W1).
    { replace (RawModel.at_ x 2) with (RawModel.at_ (RawModel.at_ x 1) 1) by (rewrite at_at; reflexivity). apply (room_sub _ _ L); [rewrite <- Lx; apply reads_room; exact Rx1|lia]. }
    cbn [bind]. destruct (st_ok m1 x 1 z) as (m2 & -> & W2). { pose proof (writes_room _ _ _ _ _ _ W1 (reads_room _ _ _ Rx1) 0 ltac:(lia)) as Q. unfold RawModel.at_ in Q. cbn [fst snd] in Q. rewrite Nat.add_0_r in Q. exact Q. }
    cbn [bind]. assert (W12 : writes m (RawModel.at_ x 1) (z :: low) m2). { apply (writes_down m (RawModel.at_ x 1) [z] m1 low m2); [rewrite at_at; exact W1|exact W2]. }
    assert (Ll2 : length (z :: low) = L) by (cbn [length]; lia).
    assert (Rn2 : reads m2 (RawModel.at_ n 1) ns). { apply (writes_frame _ _ _ _ _ _ W12 Rn1). rewrite Ll2, Ln. ap. }
    pose proof (writes_reads _ _ _ _ W12) as Rz.
    destruct (br_i32_word (z :: low) (h - 32)) as [a1| | |] eqn:Ea1; cbn [bind] in E; try discriminate. rewrite (word_r_ok _ _ _ _ _ Rz Ea1). cbn [bind].
    destruct (br_i32_word ns (h - 32)) as [b0| | |] eqn:Eb0; cbn [bind] in E; try discriminate. rewrite (word_r_ok _ _ _ _ _ Rn2 Eb0). cbn [bind].
    set (q := MUX (EQ a0 b0) 4294967295 (MUX (EQ (br_div a0 a1 b0) 0) 0 ((br_div a0 a1 b0 - 1) mod B)%Z)) in *.
    rewrite (take_full _ Ll2), (take_full _ Ln) in E. cbn [bind] in E.
    assert (U : upward (RawModel.at_ x 1) (RawModel.at_ n 1) L) by (unfold upward; ap).
    destruct (mul_sub_r_ok (z :: low) ns L 1 x n q 0%Z 1%Z m2 Ll2 Ln Rz Rn2 U) as (m3 & E3 & W3). rewrite E3. cbn [bind].
    pose proof (mul_sub_length (z :: low) ns q 0 1 ltac:(lia)) as Lm. destruct (mul_sub (z :: low) ns q 0 1) as [[s cc] tb]. cbn [fst snd] in *.
    rewrite (skipn_all2 (z :: low)) in E by lia. rewrite app_nil_r in E.
    set (over := Z.lor (Z.shiftr cc 32 mod B) (GT (cc mod B) hi)) in *. set (under := Z.land (not32 over) (Z.lor tb (Z.land (not32 (Z.shiftr cc 32 mod B)) (LT (cc mod B) hi)))) in *.
    assert (Ls : length s = L) by lia.
    unfold br_i32_add in E. cbn [fst snd] in E. rewrite count_h, (take_full _ Ls), (take_full _ Ln) in E. cbn [bind] in E.
    assert (W13 : writes m (RawModel.at_ x 1) s m3) by (apply (writes_again _ _ _ _ _ _ W12 W3); lia).
    assert (Hx3 : reads m3 x (h :: s)) by (apply (header m m3 x xs s Rx W13)).
    assert (Rn3 : reads m3 (RawModel.at_ n 1) ns). { apply (writes_frame _ _ _ _ _ _ W13 Rn1). rewrite Ls, Ln. ap. }
    destruct (add_r_fit m3 x n s ns over Ls Ln Hx3 Rn3 U) as (m4 & c4 & E4 & S4 & W4). rewrite E4. cbn [bind snd].
    pose proof (add_ctl_length s ns over 0 ltac:(lia)) as La. destruct (add_ctl s ns over 0) as [t ct]. cbn [fst snd] in *. cbn [bind fst snd] in E. rewrite (skipn_all2 s) in E by lia. rewrite app_nil_r in E.
    assert (Lt : length t = L) by lia. assert (W14 : writes m (RawModel.at_ x 1) t m4) by (apply (writes_again _ _ _ _ _ _ W13 W4); lia).
    unfold br_i32_sub in E. cbn [fst snd] in E. rewrite count_h, (take_full _ Lt), (take_full _ Ln) in E. cbn [bind] in E.
    destruct (sub_r_fit m4 x n t ns under Lt Ln (header m m4 x xs t Rx W14)) as (m5 & c5 & E5 & S5 & W5).
    { apply (writes_frame _ _ _ _ _ _ W14 Rn1). rewrite Lt, Ln. ap. } { exact U. }
    rewrite E5. cbn [bind snd]. pose proof (sub_ctl_length t ns under 0 ltac:(lia)) as Lb. destruct (sub_ctl t ns under 0) as [v cv]. cbn [fst snd bind] in *. rewrite (skipn_all2 t) in E by lia. rewrite app_nil_r in E. injection E as <-.
    exists m5. split; [reflexivity|]. apply (writes_again _ _ _ _ _ _ W14 W5). lia.
Qed.
End FIT.

(** ** On integers *)
Open Scope Z_scope.
Lemma clear_writes k : forall i x m, room m (RawModel.at_ x i) k -> exists m', clear_r k i x m = Ok m' /\ writes m (RawModel.at_ x i) (repeat 0 k) m'.
Proof. exact (clear_r_ok k). Qed.
Lemma fit_modulus h ns N : all_words ns -> length ns = words_for h -> eval ns = N -> has_bits N h -> h + 63 < B -> modulus_ok h ns.
Proof. intros W Ln E [H0 HN] Hh. split; [exact H0|]. split; [exact Hh|]. split; [exact W|]. split; [exact Ln|rewrite E; exact HN]. Qed.
Section RED.
Variables (h : Z) (n : loc) (ns : list Z).
Hypothesis MO : modulus_ok h ns.
Let L := words_for h.
Let N := eval ns.
Lemma MO0 : 0 < h. Proof. apply MO. Qed.
Lemma MOh : h + 63 < B. Proof. apply MO. Qed.
Lemma MOw : all_words ns. Proof. apply MO. Qed.
Lemma MOl : length ns = L. Proof. apply MO. Qed.
Lemma MOn : 2 ^ (h - 1) <= N < 2 ^ h. Proof. apply MO. Qed.
Lemma muladd_memory m x xs z : all_words xs -> length xs = L -> w32 z -> eval xs < N -> reads m x (h :: xs) -> reads m n (h :: ns) -> apart x (S L) n (S L) ->
  exists m' r, br_i32_muladd_small_r m x z n = Ok m' /\ writes m (RawModel.at_ x 1) r m' /\ all_words r /\ length r = L /\ eval r = (eval xs * B + z) mod N.
Proof.
  intros Wx Lx Wz HX Rx Rn A. destruct (muladd_spec h ns xs [] z MO Wx words_nil ltac:(rewrite MOl; exact Lx) Wz HX) as (r & R1 & R2 & R3 & R4). rewrite !app_nil_r in R1. rewrite MOl in R3.
  destruct (muladd_r_ok h n ns MO0 MOh MOl m x xs z r Lx Rx Rn A R1 R3) as (m' & E & W). exists m', r. auto.
Qed.
Lemma reduce_loop_memory x a as_ u : all_words as_ -> apart x (S L) n (S L) -> forall m xs, (u <= length as_)%nat -> all_words xs -> length xs = L -> eval xs < N ->
  reads m x (h :: xs) -> reads m n (h :: ns) -> reads m (RawModel.at_ a 1) as_ -> apart x (S L) (RawModel.at_ a 1) (length as_) ->
  exists m' r, reduce_loop_r u x a n m = Ok m' /\ writes m (RawModel.at_ x 1) r m' /\ all_words r /\ length r = L /\ eval r = (eval xs * Bn u + eval (firstn u as_)) mod N.
Proof.
  intros Wa An. induction u as [|u IH]; intros m xs Hu Wx Lx HX Rx Rn Ra Aa.
  - exists m, xs. split; [reflexivity|]. split; [apply writes_same; apply (reads_tl _ _ 0 h); rewrite at_0; exact Rx|]. split; [exact Wx|]. split; [exact Lx|]. cbn [firstn]. rewrite eval_nil, Bn_0. rewrite Z.mod_small; [ring|]. pose proof (eval_range xs Wx). lia.
  - cbn [reduce_loop_r]. pose proof (reads_ld _ _ 1 _ u Ra ltac:(lia)) as LD. change (1 + u)%nat with (S u) in LD. rewrite LD. cbn [bind].
    destruct (muladd_memory m x xs (nth u as_ 0) Wx Lx (nth_word as_ u Wa) HX Rx Rn An) as (m1 & r & E1 & W1 & R2 & R3 & R4). rewrite E1. cbn [bind].
    assert (HM : 0 < N) by (pose proof (eval_range xs Wx); lia).
    destruct (IH m1 r ltac:(lia) R2 R3 ltac:(rewrite R4; apply Z.mod_pos_bound; exact HM)) as (m2 & r2 & E2 & W2 & I2 & I3 & I4).
    { apply (header h ns MOl m m1 x xs r Rx W1). } { apply (writes_frame _ _ _ _ _ _ W1 Rn). cbn [length]. rewrite MOl, R3. ap. } { apply (writes_frame _ _ _ _ _ _ W1 Ra). rewrite R3. ap. } { exact Aa. }
    exists m2, r2. split; [exact E2|]. split; [apply (writes_again _ _ _ _ _ _ W1 W2); congruence|]. split; [exact I2|]. split; [exact I3|].
    rewrite I4, R4. rewrite (firstn_S_snoc u as_) by lia. rewrite eval_snoc, firstn_length_le, Bn_S by lia. rewrite <- Z.add_mod_idemp_l, Z.mul_mod_idemp_l, Z.add_mod_idemp_l by lia. f_equal. ring.
Qed.
Lemma reduce_memory m x a ah as_ : all_words as_ -> length as_ = words_for ah -> 0 <= ah -> ah + 31 < B -> eval as_ < 2 ^ ah -> room m x (S L) -> reads m a (ah :: as_) -> reads m n (h :: ns) ->
  apart x (S L) n (S L) -> apart x (S L) a (S (length as_)) ->
  exists m' r, br_i32_reduce_r m x a n = Ok m' /\ writes m x (h :: r) m' /\ all_words r /\ length r = L /\ eval r = eval as_ mod N.
Proof.
  intros Wa La Ha0 HB Ha Rx Ra Rn An Aa. pose proof MO0 as H0. pose proof MOh as Hh. pose proof MOl as Ln. pose proof MOn as HN. pose proof MOw as Wn.
  pose proof (nwords_bits h H0) as N1. change (nwords h) with L in N1. assert (L1 : (1 <= L)%nat) by lia.
  unfold br_i32_reduce_r. rewrite (reads_ld0 _ _ _ 0 Rn) by (cbn; lia). cbn [nth bind]. rewrite (nwords_shift h) by lia. change (nwords h) with L.
  destruct (st_ok m x 0 h) as (m1 & -> & W1). { apply (room_hd _ _ 0 L). rewrite at_0. exact Rx. }
  cbn [bind]. rewrite at_0 in W1. rewrite (proj2 (Z.eqb_neq h 0)) by lia.
  assert (Ra1 : reads m1 a (ah :: as_)) by (apply (writes_frame _ _ _ _ _ _ W1 Ra); ap). assert (Rn1 : reads m1 n (h :: ns)) by (apply (writes_frame _ _ _ _ _ _ W1 Rn); cbn [length]; rewrite Ln; ap).
  assert (Rx1 : room m1 (RawModel.at_ x 1) L) by (apply (writes_room _ _ _ _ _ _ W1); apply (room_sub _ _ (S L)); [exact Rx|lia]).
  assert (Ras : reads m1 (RawModel.at_ a 1) as_) by (apply (reads_tl _ _ 0 ah); rewrite at_0; exact Ra1).
  rewrite (reads_ld0 _ _ _ 0 Ra1) by (cbn; lia). cbn [nth bind]. rewrite (nwords_shift ah) by lia. change (nwords ah) with (words_for ah). rewrite <- La.
  assert (LA : (length as_ <= L)%nat \/ h <= ah). { destruct (Z.le_gt_cases h ah); [right; assumption|left]. rewrite La. unfold words_for, L, words_for. apply Z2Nat.inj_le; [apply Z.div_pos; lia|apply Z.div_pos; lia|]. apply Z.div_le_mono; lia. }
  destruct (Z.ltb_spec ah h) as [Sm|G].
  - destruct LA as [LA|]; [|lia].
    destruct (memcpy_ok m1 (RawModel.at_ x 1) (RawModel.at_ a 1) (length as_) as_ eq_refl Ras) as (m2 & E2 & W2). { pose proof (room_sub _ _ L 0 (length as_) Rx1 ltac:(lia)) as Q. rewrite at_0 in Q. exact Q. } { ap. }
    rewrite E2. cbn [bind]. destruct (clear_writes (L - length as_) (length as_ + 1) x m2) as (m3 & E3 & W3).
    { apply (writes_room _ _ _ _ _ _ W2). replace (RawModel.at_ x (length as_ + 1)) with (RawModel.at_ (RawModel.at_ x 1) (length as_)) by (rewrite at_at; f_equal; lia). apply (room_sub _ _ L); [exact Rx1|lia]. }
    rewrite E3. exists m3, (as_ ++ repeat 0 (L - length as_)). split; [reflexivity|]. split.
    { change (h :: as_ ++ repeat 0 (L - length as_)) with ([h] ++ (as_ ++ repeat 0 (L - length as_))). apply (writes_up _ _ _ _ _ _ W1). apply (writes_up _ _ _ _ _ _ W2). cbn [length]. rewrite at_at. rewrite Nat.add_comm. exact W3. }
    split; [apply words_app; split; [exact Wa|apply words_repeat0]|]. split; [rewrite app_length, repeat_length; lia|]. rewrite eval_app, eval_repeat0, Z.mul_0_r, Z.add_0_r. symmetry. apply Z.mod_small.
    pose proof (eval_range as_ Wa). assert (2 ^ ah <= 2 ^ (h - 1)) by (apply Z.pow_le_mono_r; lia). lia.
  - assert (LL : (L <= length as_)%nat). { rewrite La. unfold words_for, L, words_for. apply Z2Nat.inj_le; [apply Z.div_pos; lia|apply Z.div_pos; lia|]. apply Z.div_le_mono; lia. }
    set (u := (1 + (length as_ - L))%nat). assert (Lsk : length (skipn u as_) = (L - 1)%nat) by (rewrite skipn_length; unfold u; lia).
    assert (Rsk : reads m1 (RawModel.at_ a (2 + (length as_ - L))) (skipn u as_)). { replace (RawModel.at_ a (2 + (length as_ - L))) with (RawModel.at_ (RawModel.at_ a 1) u) by (rewrite at_at; reflexivity). apply reads_skipn; [exact Ras|unfold u; lia]. }
    destruct (memcpy_ok m1 (RawModel.at_ x 1) (RawModel.at_ a (2 + (length as_ - L))) (L - 1) (skipn u as_) Lsk Rsk) as (m2 & E2 & W2). { pose proof (room_sub _ _ L 0 (L - 1) Rx1 ltac:(lia)) as Q. rewrite at_0 in Q. exact Q. } { clear - Aa LL L1. ap. }
    rewrite E2. cbn [bind]. destruct (st_ok m2 x L 0) as (m3 & E3 & W3). { apply (room_hd m2 x L 0). apply (writes_room _ _ _ _ _ _ W2). pose proof (room_sub _ _ L (L - 1) 1 Rx1 ltac:(lia)) as Q. rewrite at_at in Q. replace (1 + (L - 1))%nat with L in Q by lia. exact Q. }
    rewrite E3. cbn [bind]. set (xs := skipn u as_ ++ [0]).
    assert (W13 : writes m x (h :: xs) m3). { change (h :: xs) with ([h] ++ xs). apply (writes_up _ _ _ _ _ _ W1). cbn [length]. unfold xs. apply (writes_up _ _ _ _ _ _ W2). rewrite at_at, Lsk. replace (1 + (L - 1))%nat with L by lia. exact W3. }
    assert (Wx : all_words xs) by (apply words_app; split; [apply words_skipn; exact Wa|apply words_cons; split; [pose proof B_pos; lia|apply words_nil]]).
    assert (Lx : length xs = L) by (unfold xs; rewrite app_length, Lsk; cbn [length]; lia). assert (EX : eval xs = eval (skipn u as_)) by (unfold xs; rewrite eval_snoc; ring).
    replace (1 + length as_ - L)%nat with u by (unfold u; lia).
    destruct (reduce_loop_memory x a as_ u Wa An m3 xs) as (m4 & r & E4 & W4 & I2 & I3 & I4); try assumption.
    { unfold u. lia. } { rewrite EX. pose proof (eval_range _ (words_skipn u as_ Wa)) as RX. rewrite Lsk, Bn_pow2 in RX. assert (2 ^ (32 * Z.of_nat (L - 1)) <= 2 ^ (h - 1)) by (apply Z.pow_le_mono_r; lia). lia. }
    { apply (writes_reads _ _ _ _ W13). } { apply (writes_frame _ _ _ _ _ _ W13 Rn). cbn [length]. rewrite Lx, Ln. exact An. } { apply (writes_frame _ _ _ _ _ (as_) W13); [apply (reads_tl _ _ 0 ah); rewrite at_0; exact Ra|]. cbn [length]. rewrite Lx. clear - Aa. ap. } { clear - Aa. ap. }
    rewrite E4. exists m4, r. split; [reflexivity|]. split.
    { apply (writes_again _ _ _ _ _ _ W13); [|cbn [length]; congruence]. change (h :: r) with ([h] ++ r). apply (writes_up m3 x [h] m3 r m4); [apply writes_same; pose proof (writes_reads _ _ _ _ W13) as Q; change (h :: xs) with ([h] ++ xs) in Q; apply reads_app in Q; apply Q|exact W4]. }
    split; [exact I2|]. split; [exact I3|]. rewrite I4, EX. f_equal. rewrite (eval_split u as_) by (unfold u; lia). ring.
Qed.
End RED.
