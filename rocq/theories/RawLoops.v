From Coq Require Import List ZArith Bool Lia.
From Verif Require Import Outcome LoopModel WordsModel WordsSpec WordsProofs RawModel RawSpec RawProofs.
Import ListNotations.
Open Scope nat_scope.

Lemma snoc_of {A} (l : list A) n : length l = S n -> exists u a, l = u ++ [a] /\ length u = n.
Proof. intros L. destruct (exists_snoc l) as (u & a & ->); [intros ->; discriminate|]. exists u, a. split; [reflexivity|]. rewrite app_length in L. cbn [length] in L. lia. Qed.
Lemma reads_snoc m p u a : reads m p (u ++ [a]) -> reads m p u /\ ld m p (length u) = Ok a.
Proof.
  intros H. split; [now apply reads_app in H|]. rewrite (reads_ld0 m p _ (length u) H) by (rewrite app_length; cbn [length]; lia).
  now rewrite nth_app, Nat.ltb_irrefl, Nat.sub_diag.
Qed.

Lemma cmp_ge_ok m px py n : forall xs ys, length xs = n -> length ys = n -> reads m px xs -> reads m py ys -> cmp_ge_r m px py n = Ok (cmp_ge_n xs ys).
Proof.
  induction n as [|n IH]; intros xs ys Lx Ly Rx Ry.
  - destruct xs, ys; try discriminate. reflexivity.
  - destruct (snoc_of xs n Lx) as (u & a & -> & Lu). destruct (snoc_of ys n Ly) as (v & b & -> & Lv).
    destruct (reads_snoc _ _ _ _ Rx) as [Ru Ea]. destruct (reads_snoc _ _ _ _ Ry) as [Rv Eb]. rewrite Lu in Ea. rewrite Lv in Eb.
    cbn [cmp_ge_r]. rewrite Ea, Eb. cbn [bind]. rewrite (IH u v Lu Lv Ru Rv). unfold cmp_ge_n. rewrite !rev_unit. cbn [cmp_ge_top].
    destruct (a >? b)%Z, (a <? b)%Z; reflexivity.
Qed.
Lemma cmp_ok m px py n : forall xs ys, length xs = n -> length ys = n -> reads m px xs -> reads m py ys -> cmp_r m px py n = Ok (cmp_n xs ys).
Proof.
  induction n as [|n IH]; intros xs ys Lx Ly Rx Ry.
  - destruct xs, ys; try discriminate. reflexivity.
  - destruct (snoc_of xs n Lx) as (u & a & -> & Lu). destruct (snoc_of ys n Ly) as (v & b & -> & Lv).
    destruct (reads_snoc _ _ _ _ Rx) as [Ru Ea]. destruct (reads_snoc _ _ _ _ Ry) as [Rv Eb]. rewrite Lu in Ea. rewrite Lv in Eb.
    cbn [cmp_r]. rewrite Ea, Eb. cbn [bind]. rewrite (IH u v Lu Lv Ru Rv). unfold cmp_n. rewrite !rev_unit. cbn [cmp_top].
    destruct (a =? b)%Z; reflexivity.
Qed.
Lemma real_size_ok m x n : forall xs, length xs = n -> reads m x xs -> real_size_r m x n = Ok (get_real_size xs).
Proof.
  induction n as [|n IH]; intros xs Lx Rx.
  - destruct xs; [reflexivity|discriminate].
  - destruct (snoc_of xs n Lx) as (u & a & -> & Lu). destruct (reads_snoc _ _ _ _ Rx) as [Ru Ea]. rewrite Lu in Ea.
    cbn [real_size_r]. rewrite Ea. cbn [bind]. rewrite (IH u Lu Ru). unfold get_real_size. rewrite !rev_unit. cbn [real_size_top].
    destruct (a =? 0)%Z; [reflexivity|]. cbn [length]. rewrite rev_length, Lu. reflexivity.
Qed.

Lemma shl_loop_snoc u : forall lo t p bit, shl_loop lo (u ++ [t; p]) bit = shl_loop lo (u ++ [t]) bit ++ [Z.lor (Z.shiftl p bit mod B) (Z.shiftr t (32 - bit))].
Proof. induction u as [|a u IH]; intros lo t p bit; cbn [app shl_loop]; [reflexivity|]. now rewrite IH. Qed.
Lemma shl_loop_len x : forall lo bit, length (shl_loop lo x bit) = length x.
Proof. induction x as [|a x IH]; intros lo bit; cbn [shl_loop length]; [reflexivity|]. now rewrite IH. Qed.
Lemma downward_less z x n k : downward z x n -> k <= n -> downward z x k.
Proof. unfold downward. lia. Qed.
Lemma shl_r_ok i : forall pz px bit prev m xs, length xs = i -> reads m px xs -> room m pz (S i) -> downward pz px (S i) ->
  exists m', shl_r i pz px bit prev m = Ok (nth 0 (xs ++ [prev]) 0%Z, m') /\ writes m (at_ pz 1) (tl (shl_loop 0 (xs ++ [prev]) bit)) m'.
Proof.
  induction i as [|i IH]; intros pz px bit prev m xs Lx Rx Rz D.
  - destruct xs; [|discriminate]. cbn. eexists; split; [reflexivity|apply writes_nil].
  - destruct (snoc_of xs i Lx) as (u & t & -> & Lu). destruct (reads_snoc _ _ _ _ Rx) as [Ru Et]. rewrite Lu in Et.
    cbn [shl_r]. rewrite Et. cbn [bind].
    destruct (st_ok m pz (S i) (Z.lor (Z.shiftl prev bit mod B) (Z.shiftr t (32 - bit)))) as (m1 & -> & W1); [apply Rz; lia|]. cbn [bind].
    assert (Ru1 : reads m1 px u) by (eapply writes_frame; [exact W1|exact Ru|]; revert D; unfold downward, apart, at_; cbn [fst snd length]; lia).
    assert (Rz1 : room m1 pz (S i)) by (intros j Hj; apply (writes_room _ _ _ _ _ _ W1 Rz); lia).
    destruct (IH pz px bit t m1 u Lu Ru1 Rz1 (downward_less pz px (S (S i)) (S i) D ltac:(lia))) as (m2 & -> & W2).
    exists m2. split; [f_equal; f_equal; rewrite <- app_assoc; destruct u; reflexivity|].
    rewrite <- app_assoc. cbn [app]. rewrite shl_loop_snoc.
    assert (Hc : exists h r, shl_loop 0 (u ++ [t]) bit = h :: r /\ length r = i).
    { pose proof (shl_loop_len (u ++ [t]) 0%Z bit) as L. rewrite app_length in L. cbn [length] in L.
      destruct (shl_loop 0 (u ++ [t]) bit) as [|h r]; cbn [length] in L; [lia|]. exists h, r. split; [reflexivity|lia]. }
    destruct Hc as (h & r & E & Lr). rewrite E in *. cbn [tl app] in *.
    apply (writes_down m (at_ pz 1) r m1 [_] m2); [|exact W2]. rewrite at_at, Lr. exact W1.
Qed.
Lemma in_bits bit : (0 < bit < 32)%Z -> (0 <? bit)%Z && (bit <? 32)%Z = true.
Proof. intros. apply andb_true_intro. split; lia. Qed.
Lemma shl_n_ok m pz px bit n xs : (0 < bit < 32)%Z -> length xs = S n -> reads m px xs -> room m pz (S n) -> downward pz px (S n) ->
  exists m', shl_n_r m pz px bit (S n) = Ok (snd (shl_n xs bit), m') /\ writes m pz (fst (shl_n xs bit)) m'.
Proof.
  intros Hb Lx Rx Rz D. unfold shl_n_r. rewrite (in_bits bit Hb). cbn [check bind].
  destruct (snoc_of xs n Lx) as (u & a & -> & Lu). destruct (reads_snoc _ _ _ _ Rx) as [Ru Ea]. rewrite Lu in Ea. rewrite Ea. cbn [bind].
  destruct (shl_r_ok n pz px bit a m u Lu Ru Rz D) as (m1 & -> & W1). cbn [bind fst snd].
  destruct (st_ok m1 pz 0 (Z.shiftl (nth 0 (u ++ [a]) 0) bit mod B)%Z) as (m2 & -> & W2); [apply (writes_room _ _ _ _ _ _ W1 Rz); lia|].
  cbn [bind]. unfold shl_n. rewrite last_snoc. cbn [fst snd]. exists m2. split; [reflexivity|].
  destruct (u ++ [a]) as [|h r] eqn:E; [destruct u; discriminate|]. cbn [shl_loop tl nth] in *. rewrite Z.shiftr_0_l, Z.lor_0_r.
  apply (writes_down m pz [_] m1 _ m2 W1). now rewrite at_0 in W2.
Qed.

Lemma shr_r_ok xs : forall k i pz px bit prev m, length xs = k -> reads m (at_ px (S i)) xs -> room m (at_ pz i) k -> upward (at_ pz i) (at_ px i) (S k) ->
  exists m' u p, shr_r k i pz px bit prev m = Ok (p, m') /\ writes m (at_ pz i) u m' /\ length u = k /\ shr_loop prev xs bit = u ++ [Z.shiftr p bit].
Proof.
  induction xs as [|a xs IH]; intros k i pz px bit prev m Lx Rx Rz U; cbn [length] in *; subst k.
  - exists m, [], prev. repeat split; apply writes_nil.
  - cbn [shr_r shr_loop]. rewrite (reads_hd _ _ _ _ _ Rx). cbn [bind].
    destruct (st_ok m pz i (Z.lor (Z.shiftr prev bit) (Z.shiftl a (32 - bit) mod B))) as (m1 & -> & W1); [apply (room_hd _ _ _ _ Rz)|]. cbn [bind].
    assert (Rx1 : reads m1 (at_ px (S (S i))) xs).
    { eapply writes_frame; [exact W1|apply (reads_tl _ _ _ _ _ Rx)|]. revert U. unfold upward, apart, at_. cbn [fst snd length]. lia. }
    destruct (IH (length xs) (S i) pz px bit a m1 eq_refl Rx1 (writes_room _ _ _ _ _ _ W1 (room_tl _ _ _ _ Rz)) (upward_S _ _ _ _ U)) as (m2 & u & p & -> & W2 & Lu & E).
    exists m2, (Z.lor (Z.shiftr prev bit) (Z.shiftl a (32 - bit) mod B) :: u), p. split; [reflexivity|]. split; [|split; [cbn [length]; lia|now rewrite E]].
    apply (writes_up m (at_ pz i) [_] m1 u m2 W1). rewrite at_at. cbn [length]. now rewrite Nat.add_1_r.
Qed.
Lemma shr_n_ok m pz px bit n xs : (0 < bit < 32)%Z -> length xs = S n -> reads m px xs -> room m pz (S n) -> upward pz px (S n) ->
  exists m', shr_n_r m pz px bit (S n) = Ok m' /\ writes m pz (shr_n xs bit) m'.
Proof.
  intros Hb Lx Rx Rz U. unfold shr_n_r. rewrite (in_bits bit Hb). cbn [check bind].
  destruct xs as [|a xs]; [discriminate|]. cbn [length] in Lx. injection Lx as Lx.
  rewrite (reads_ld0 _ _ _ 0 Rx) by (cbn [length]; lia). cbn [bind nth].
  rewrite <- (at_0 px) in Rx. pose proof (reads_tl _ _ _ _ _ Rx) as Rt.
  destruct (shr_r_ok xs n 0 pz px bit a m Lx Rt) as (m1 & u & p & -> & W1 & Lu & E); [intros j Hj; rewrite at_0; apply Rz; lia|now rewrite !at_0|].
  cbn [bind fst snd]. rewrite at_0 in W1.
  destruct (st_ok m1 pz n (Z.shiftr p bit)) as (m2 & -> & W2); [apply (writes_room _ _ _ _ _ _ W1 Rz); lia|].
  exists m2. split; [reflexivity|]. cbn [shr_n]. rewrite E. apply (writes_up m pz u m1 [_] m2 W1). now rewrite Lu.
Qed.

Lemma copy_down_ok k : forall y x m xs, length xs = k -> reads m x xs -> room m y k -> downward y x k ->
  exists m', copy_down_r k y x m = Ok m' /\ writes m y xs m'.
Proof.
  induction k as [|k IH]; intros y x m xs Lx Rx Ry D.
  - destruct xs; [|discriminate]. eexists; split; [reflexivity|apply writes_nil].
  - destruct (snoc_of xs k Lx) as (u & a & -> & Lu). destruct (reads_snoc _ _ _ _ Rx) as [Ru Ea]. rewrite Lu in Ea.
    cbn [copy_down_r]. rewrite Ea. cbn [bind]. destruct (st_ok m y k a) as (m1 & -> & W1); [apply Ry; lia|]. cbn [bind].
    assert (Ru1 : reads m1 x u) by (eapply writes_frame; [exact W1|exact Ru|]; revert D; unfold downward, apart, at_; cbn [fst snd length]; lia).
    destruct (IH y x m1 u Lu Ru1) as (m2 & -> & W2); [intros j Hj; apply (writes_room _ _ _ _ _ _ W1 Ry); lia|apply (downward_less _ _ _ _ D); lia|].
    exists m2. split; [reflexivity|]. apply (writes_down m y u m1 [_] m2); [now rewrite Lu|assumption].
Qed.
Lemma shift_left_ok m y x bit n xs : (0 <= bit)%Z -> length xs = S n -> reads m x xs -> room m y (length (shift_left xs bit)) ->
  downward (at_ y (Z.to_nat (bit / 32))) x (S n) ->
  exists m', shift_left_r m y x bit (S n) = Ok (length (shift_left xs bit), m') /\ writes m y (shift_left xs bit) m'.
Proof.
  intros Hb Lx Rx Ry D. unfold shift_left_r, shift_left in *. cbn [Nat.ltb Nat.leb check bind].
  set (q := Z.to_nat (bit / 32)) in *. rewrite app_length, repeat_length in Ry.
  destruct (Z.eqb_spec (bit mod 32) 0) as [R0|R0].
  - destruct (copy_down_ok (S n) (at_ y q) x m xs Lx Rx) as (m1 & -> & W1); [apply (room_sub _ _ _ _ _ Ry); lia|assumption|]. cbn [bind fst snd].
    destruct (clear_n_ok m1 y q) as (m2 & -> & W2); [intros j Hj; apply (writes_room _ _ _ _ _ _ W1 Ry); lia|]. cbn [bind].
    exists m2. split; [f_equal; f_equal; rewrite app_length, repeat_length; lia|].
    apply (writes_down m y (repeat 0%Z q) m1 xs m2); [now rewrite repeat_length|assumption].
  - assert (Hr : (0 < bit mod 32 < 32)%Z) by (pose proof (Z.mod_pos_bound bit 32); lia).
    destruct (shl_n xs (bit mod 32)) as [zs top] eqn:E.
    assert (Lz : length zs = S n) by (unfold shl_n in E; injection E as <- <-; now rewrite shl_loop_len).
    rewrite app_length in Ry. cbn [length] in Ry. rewrite Lz in Ry.
    destruct (shl_n_ok m (at_ y q) x (bit mod 32) n xs Hr Lx Rx) as (m1 & -> & W1); [apply (room_sub _ _ _ _ _ Ry); lia|assumption|].
    rewrite E in *. cbn [bind fst snd] in *.
    destruct (st_ok m1 y (q + S n) top) as (m2 & -> & W2); [apply (writes_room _ _ _ _ _ _ W1 Ry); lia|]. cbn [bind fst snd].
    destruct (clear_n_ok m2 y q) as (m3 & -> & W3); [intros j Hj; apply (writes_room _ _ _ _ _ _ W2), (writes_room _ _ _ _ _ _ W1 Ry) || idtac; try lia|].
    { apply (writes_room _ _ _ _ _ _ W2 (writes_room _ _ _ _ _ _ W1 Ry)). lia. }
    cbn [bind]. exists m3. split; [f_equal; f_equal; rewrite !app_length, repeat_length, Lz; cbn [length]; lia|].
    apply (writes_down m y (repeat 0%Z q) m2 (zs ++ [top]) m3); [|assumption]. rewrite repeat_length.
    apply (writes_up m (at_ y q) zs m1 [top] m2 W1). now rewrite at_at, Lz.
Qed.
Lemma shift_right_ok m y x bit n xs : (0 <= bit <= 32 * Z.of_nat (S n))%Z -> length xs = S n -> reads m x xs ->
  room m y (S n - Z.to_nat (bit / 32)) -> upward y (at_ x (Z.to_nat (bit / 32))) (S n - Z.to_nat (bit / 32)) ->
  exists m', shift_right_r m y x bit (S n) = Ok (S n - Z.to_nat (bit / 32), m') /\ writes m y (shift_right xs bit) m'.
Proof.
  intros Hb Lx Rx Ry U. unfold shift_right_r, shift_right. replace (bit <=? 32 * Z.of_nat (S n))%Z with true by lia. cbn [Nat.ltb Nat.leb check bind].
  set (q := Z.to_nat (bit / 32)) in *.
  assert (Hq : q <= S n) by (unfold q; apply Nat2Z.inj_le; rewrite Z2Nat.id by (apply Z.div_pos; lia); apply Z.div_le_upper_bound; lia).
  replace (q <=? S n) with true by (symmetry; now apply Nat.leb_le). cbn [check bind].
  pose proof (reads_skipn m x xs q Rx ltac:(lia)) as Rs. assert (Ls : length (skipn q xs) = S n - q) by (rewrite skipn_length; lia).
  destruct (Z.eqb_spec (bit mod 32) 0) as [R0|R0].
  - destruct (copy_n_ok m y (at_ x q) (S n - q) (skipn q xs) Ls Rs Ry U) as (m1 & -> & W1). cbn [bind]. eauto.
  - assert (Hr : (0 < bit mod 32 < 32)%Z) by (pose proof (Z.mod_pos_bound bit 32); lia).
    assert (q < S n) by (unfold q; apply Nat2Z.inj_lt; rewrite Z2Nat.id by (apply Z.div_pos; lia); pose proof (Z.div_mod bit 32); lia).
    replace (S n - q) with (S (n - q)) in * by lia.
    destruct (shr_n_ok m y (at_ x q) (bit mod 32) (n - q) (skipn q xs) Hr Ls Rs Ry U) as (m1 & -> & W1). cbn [bind]. eauto.
Qed.

Lemma reads_writes m p ws : reads m p ws -> writes m p ws m.
Proof.
  intros H. split; [reflexivity|]. intros b k. split; [|reflexivity]. unfold within. intros [-> Hk]. specialize (H (k - snd p) ltac:(lia)).
  rewrite <- H. f_equal. lia.
Qed.
Lemma writes_keep m p u m1 t : writes m p u m1 -> reads m (at_ p (length u)) t -> writes m p (u ++ t) m1.
Proof.
  intros W R. apply (writes_up m p u m1 t m1 W). apply reads_writes. eapply writes_frame; [exact W|exact R|]. unfold apart, at_. cbn [fst snd]. lia.
Qed.
Lemma add_one_r_ok ys : forall k i y m, length ys = k -> reads m (at_ y i) ys ->
  exists m', add_one_r k i y m = Ok (snd (add_one ys), m') /\ writes m (at_ y i) (fst (add_one ys)) m'.
Proof.
  induction ys as [|a ys IH]; intros k i y m L R; cbn [length] in *; subst k.
  - eexists; split; [reflexivity|apply writes_nil].
  - cbn [add_one_r add_one]. rewrite (reads_hd _ _ _ _ _ R). cbn [bind].
    destruct (st_ok m y i ((a + 1) mod B)%Z (room_hd _ _ _ (length ys) (reads_room _ _ _ R))) as (m1 & -> & W1). cbn [bind].
    destruct ((a + 1) mod B =? 0)%Z.
    + assert (R1 : reads m1 (at_ y (S i)) ys) by (eapply writes_frame; [exact W1|apply (reads_tl _ _ _ _ _ R)|]; unfold apart, at_; cbn [fst snd length]; lia).
      destruct (IH (length ys) (S i) y m1 eq_refl R1) as (m2 & -> & W2). destruct (add_one ys) as [r c]. cbn [fst snd] in *.
      exists m2. split; [reflexivity|]. apply (writes_up m (at_ y i) [_] m1 r m2 W1). rewrite at_at. cbn [length]. now rewrite Nat.add_1_r.
    + exists m1. split; [reflexivity|]. cbn [fst]. apply (writes_keep m (at_ y i) [_] m1 ys W1). rewrite at_at. cbn [length]. rewrite Nat.add_1_r. apply (reads_tl _ _ _ _ _ R).
Qed.
Lemma sub_one_r_ok ys : forall k i y m, length ys = k -> reads m (at_ y i) ys ->
  exists m', sub_one_r k i y m = Ok (snd (sub_one ys), m') /\ writes m (at_ y i) (fst (sub_one ys)) m'.
Proof.
  induction ys as [|a ys IH]; intros k i y m L R; cbn [length] in *; subst k.
  - eexists; split; [reflexivity|apply writes_nil].
  - cbn [sub_one_r sub_one]. rewrite (reads_hd _ _ _ _ _ R). cbn [bind].
    destruct (st_ok m y i ((a - 1) mod B)%Z (room_hd _ _ _ (length ys) (reads_room _ _ _ R))) as (m1 & -> & W1). cbn [bind].
    destruct (a =? 0)%Z.
    + assert (R1 : reads m1 (at_ y (S i)) ys) by (eapply writes_frame; [exact W1|apply (reads_tl _ _ _ _ _ R)|]; unfold apart, at_; cbn [fst snd length]; lia).
      destruct (IH (length ys) (S i) y m1 eq_refl R1) as (m2 & -> & W2). destruct (sub_one ys) as [r c]. cbn [fst snd] in *.
      exists m2. split; [reflexivity|]. apply (writes_up m (at_ y i) [_] m1 r m2 W1). rewrite at_at. cbn [length]. now rewrite Nat.add_1_r.
    + exists m1. split; [reflexivity|]. cbn [fst]. apply (writes_keep m (at_ y i) [_] m1 ys W1). rewrite at_at. cbn [length]. rewrite Nat.add_1_r. apply (reads_tl _ _ _ _ _ R).
Qed.
Lemma add_word_ok m y n x ys : length ys = n -> reads m y ys -> exists m', add_word_r m y n x = Ok (snd (add_word ys x), m') /\ writes m y (fst (add_word ys x)) m'.
Proof.
  intros L R. destruct ys as [|a ys]; cbn [length] in L; subst n; [eexists; split; [reflexivity|apply writes_nil]|].
  cbn [add_word_r add_word]. rewrite <- (at_0 y) in R. rewrite (reads_hd _ _ _ _ _ R). cbn [bind].
  destruct (st_ok m y 0 ((a + x) mod B)%Z (room_hd _ _ _ (length ys) (reads_room _ _ _ R))) as (m1 & -> & W1). cbn [bind]. rewrite at_0 in W1.
  destruct ((a + x) mod B >=? x)%Z.
  - exists m1. split; [reflexivity|]. cbn [fst]. apply (writes_keep m y [_] m1 ys W1). apply (reads_tl _ _ _ _ _ R).
  - assert (R1 : reads m1 (at_ y 1) ys) by (eapply writes_frame; [exact W1|apply (reads_tl _ _ _ _ _ R)|]; unfold apart, at_; cbn [fst snd length]; lia).
    destruct (add_one_r_ok ys (length ys) 1 y m1 eq_refl R1) as (m2 & -> & W2). destruct (add_one ys) as [r c]. cbn [fst snd] in *.
    exists m2. split; [reflexivity|]. apply (writes_up m y [_] m1 r m2 W1 W2).
Qed.
Lemma sub_word_ok m y n x ys : length ys = n -> reads m y ys -> exists m', sub_word_r m y n x = Ok (snd (sub_word ys x), m') /\ writes m y (fst (sub_word ys x)) m'.
Proof.
  intros L R. destruct ys as [|a ys]; cbn [length] in L; subst n; [eexists; split; [reflexivity|apply writes_nil]|].
  cbn [sub_word_r sub_word]. rewrite <- (at_0 y) in R. rewrite (reads_hd _ _ _ _ _ R). cbn [bind].
  destruct (st_ok m y 0 ((a - x) mod B)%Z (room_hd _ _ _ (length ys) (reads_room _ _ _ R))) as (m1 & -> & W1). cbn [bind]. rewrite at_0 in W1.
  destruct (a >=? x)%Z.
  - exists m1. split; [reflexivity|]. cbn [fst]. apply (writes_keep m y [_] m1 ys W1). apply (reads_tl _ _ _ _ _ R).
  - assert (R1 : reads m1 (at_ y 1) ys) by (eapply writes_frame; [exact W1|apply (reads_tl _ _ _ _ _ R)|]; unfold apart, at_; cbn [fst snd length]; lia).
    destruct (sub_one_r_ok ys (length ys) 1 y m1 eq_refl R1) as (m2 & -> & W2). destruct (sub_one ys) as [r c]. cbn [fst snd] in *.
    exists m2. split; [reflexivity|]. apply (writes_up m y [_] m1 r m2 W1 W2).
Qed.

Lemma div_word1_lt r a y : (0 < y <= B)%Z -> (0 <= snd (div_word1 r a y) < y)%Z.
Proof. intros Hy. unfold div_word1. cbn [snd]. set (t := Z.lor (Z.shiftl r 32) a). pose proof (Z.mod_pos_bound t y ltac:(lia)). rewrite Z.mod_small by lia. lia. Qed.
Lemma div_word_loop_ok n : forall q x y r m xs, length xs = n -> reads m x xs -> room m q n -> downward q x n -> (0 <= r < y)%Z -> (y < B)%Z ->
  exists m', div_word_loop_r n q x y r m = Ok (snd (div_word_loop r (rev xs) y), m') /\ writes m q (rev (fst (div_word_loop r (rev xs) y))) m'.
Proof.
  induction n as [|n IH]; intros q x y r m xs L R Rq D Hr Hy.
  - destruct xs; [|discriminate]. eexists; split; [reflexivity|apply writes_nil].
  - destruct (snoc_of xs n L) as (u & a & -> & Lu). destruct (reads_snoc _ _ _ _ R) as [Ru Ea]. rewrite Lu in Ea.
    cbn [div_word_loop_r]. rewrite Ea. cbn [bind]. unfold div_word1_r. replace (r <? y)%Z with true by lia. cbn [check bind].
    rewrite rev_unit. cbn [div_word_loop]. pose proof (div_word1_lt r a y ltac:(lia)) as Hr'. destruct (div_word1 r a y) as [d r']. cbn [fst snd] in *.
    destruct (st_ok m q n d) as (m1 & -> & W1); [apply Rq; lia|]. cbn [bind].
    assert (Ru1 : reads m1 x u) by (eapply writes_frame; [exact W1|exact Ru|]; revert D; unfold downward, apart, at_; cbn [fst snd length]; lia).
    destruct (IH q x y r' m1 u Lu Ru1) as (m2 & -> & W2); [intros j Hj; apply (writes_room _ _ _ _ _ _ W1 Rq); lia|apply (downward_less _ _ _ _ D); lia|assumption|assumption|].
    assert (Ld : forall r, length (rev (fst (div_word_loop r (rev u) y))) = n).
    { intros r0. rewrite rev_length, <- Lu, <- (rev_length u). generalize (rev u). intros l. revert r0. induction l as [|b l IHl]; intros r0; [reflexivity|].
      cbn [div_word_loop]. destruct (div_word1 r0 b y) as [d0 r1]. specialize (IHl r1). destruct (div_word_loop r1 l y). cbn [fst length] in *. now rewrite IHl. }
    specialize (Ld r'). destruct (div_word_loop r' (rev u) y) as [qs rr]. cbn [fst snd rev] in *. exists m2. split; [reflexivity|].
    apply (writes_down m q (rev qs) m1 [d] m2); [now rewrite Ld|assumption].
Qed.
Lemma mod_word_loop_ok n : forall m x y r xs, length xs = n -> reads m x xs -> (0 <= r < y)%Z -> (y < B)%Z ->
  mod_word_loop_r n m x y r = Ok (snd (div_word_loop r (rev xs) y)).
Proof.
  induction n as [|n IH]; intros m x y r xs L R Hr Hy.
  - destruct xs; [|discriminate]. reflexivity.
  - destruct (snoc_of xs n L) as (u & a & -> & Lu). destruct (reads_snoc _ _ _ _ R) as [Ru Ea]. rewrite Lu in Ea.
    cbn [mod_word_loop_r]. rewrite Ea. cbn [bind]. unfold div_word1_r. replace (r <? y)%Z with true by lia. cbn [check bind].
    rewrite rev_unit. cbn [div_word_loop]. pose proof (div_word1_lt r a y ltac:(lia)) as Hr'. destruct (div_word1 r a y) as [d r']. cbn [fst snd] in *.
    rewrite (IH m x y r' u Lu Ru Hr' Hy). destruct (div_word_loop r' (rev u) y). reflexivity.
Qed.
