(** Builds with assertions: the single operations. *)
From Coq Require Import List ZArith Bool Lia PeanoNat.
From Coq Require Import ZifyBool ZifyNat ZifyN.
From Verif Require Import Outcome LoopModel LoopProofs BitLemmas WordsModel WordsSpec WordsProofs DivProofs
  UtilsSpec BigintModel BigintSpec BigintProofs BigintBits BigintBytes BigintClosure BigintClaims NumModel NumProofs NumLcm AssertModel AssertSpec.
Import ListNotations.
Open Scope Z_scope.

Lemma can_true c n : room c n -> can_resize c n = true. Proof. apply room_can. Qed.
Lemma can_false c n : ~ room c n -> can_resize c n = false.
Proof. intros H. destruct (can_resize c n) eqn:E; [|reflexivity]. exfalso. apply H. apply room_can. exact E. Qed.
Lemma room_dec c n : room c n \/ ~ room c n.
Proof. destruct c; cbn; [destruct (le_lt_dec n n0); [left; assumption|right; lia]|left; exact I]. Qed.

Lemma max_swap (a b : nat) : (if Nat.ltb a b then (b, a) else (a, b)) = (Nat.max a b, Nat.min a b).
Proof. destruct (Nat.ltb_spec a b); f_equal; lia. Qed.

Lemma d_uadd_eq c z x y : d_uadd c z x y = if can_resize c (Nat.max (size x) (size y) + 1) then Ok (uadd c z x y) else Abort.
Proof. unfold d_uadd. rewrite max_swap. rewrite (proj2 (Nat.leb_le _ _)) by lia. cbn [check bind]. destruct (can_resize _ _); reflexivity. Qed.

Lemma sub_word_borrow c x y : valid c x -> 0 <= y < B -> y <= magnitude x -> snd (sub_word (words x) y) = 0.
Proof.
  intros Hx Hy H. destruct (words_valid c x Hx) as (W & L & N). pose proof (sub_word_spec (words x) y W Hy N) as S. destruct (sub_word (words x) y) as [z b]. destruct S as (Wz & Lz & Hb & E).
  pose proof (eval_range z Wz) as R. rewrite Lz in R. rewrite magnitude_words in H. cbn [snd]. pose proof (Bn_pos (length (words x))). nia.
Qed.

Lemma d_usub1_eq c z x y : valid c x -> 0 <= y < B -> y <= magnitude x -> d_usub1 c z x y = Ok (usub1 c z x y).
Proof. intros Hx Hy H. unfold d_usub1. rewrite (can_true c _ (valid_size_room c x Hx)), (sub_word_borrow c x y Hx Hy H). reflexivity. Qed.

Lemma usub_borrow_0 x y : all_words x -> all_words y -> (length y <= length x)%nat -> x <> [] -> eval y <= eval x -> usub_borrow x y = 0.
Proof.
  intros Wx Wy L N H. unfold usub_borrow. set (k := length y).
  assert (Wf : all_words (firstn k x)) by (apply words_firstn; exact Wx).
  assert (Ws : all_words (skipn k x)) by (apply words_skipn; exact Wx).
  assert (Lf : length (firstn k x) = k) by (rewrite firstn_length; unfold k; lia).
  pose proof (sub_n_spec (firstn k x) y Wf Wy Lf) as S. destruct (sub_n (firstn k x) y) as [lo b]. destruct S as (Wl & Ll & Hb & E).
  assert (Ex : eval x = eval (firstn k x) + Bn k * eval (skipn k x)).
  { rewrite <- (firstn_skipn k x) at 1. rewrite eval_app, Lf. reflexivity. }
  pose proof (eval_range lo Wl) as Rl. rewrite Ll, Lf in Rl. rewrite Lf in E. pose proof (Bn_pos k).
  destruct (Nat.ltb_spec k (length x)) as [Q|Q].
  - assert (Ns : skipn k x <> []). { intros Z0. apply (f_equal (@length Z)) in Z0. rewrite skipn_length in Z0. cbn in Z0. lia. }
    pose proof (sub_word_spec (skipn k x) b Ws ltac:(pose proof B_pos; rewrite B_val; lia) Ns) as S2. destruct (sub_word (skipn k x) b) as [hi b2]. destruct S2 as (Wh & Lh & Hb2 & E2).
    pose proof (eval_range hi Wh) as Rh. rewrite Lh in Rh. pose proof (Bn_pos (length (skipn k x))). cbn [snd].
    assert (0 <= eval (skipn k x) - b).
    { destruct (Z.lt_ge_cases (eval (skipn k x) - b) 0) as [Z0|]; [|assumption]. exfalso. assert (Bn k * (eval (skipn k x) - b) <= Bn k * (-1)) by (apply Z.mul_le_mono_nonneg_l; lia). lia. }
    destruct (Z.eq_dec b2 0) as [|Z1]; [assumption|]. assert (b2 = 1) by lia. subst b2. lia.
  - assert (Z0 : skipn k x = []) by (apply skipn_all2; lia). rewrite Z0 in Ex. cbn [eval] in Ex. destruct (Z.eq_dec b 0) as [|Z1]; [assumption|]. assert (b = 1) by lia. subst b. lia.
Qed.

Lemma d_usub_eq c z x y : valid c x -> valid c y -> magnitude y <= magnitude x -> d_usub c z x y = Ok (usub c z x y).
Proof.
  intros Hx Hy H. unfold d_usub. pose proof Hx as (_ & Sx & _).
  assert (Ls : (size y <= size x)%nat). { apply (size_le_iff c y (size x) Hy ltac:(lia)). pose proof (magnitude_range c x Hx). lia. }
  rewrite (proj2 (Nat.leb_le _ _) Ls), (can_true c _ (valid_size_room c x Hx)).
  destruct (words_valid c x Hx) as (Wx & Lx & Nx), (words_valid c y Hy) as (Wy & Ly & _).
  rewrite usub_borrow_0; [reflexivity|assumption|assumption|lia|assumption|]. rewrite <- !magnitude_words. exact H.
Qed.

Lemma d_add_signed_eq c z x xN y yN : valid c x -> valid c y ->
  d_add_signed c z x xN y yN = if negb (Bool.eqb xN yN) || can_resize c (Nat.max (size x) (size y) + 1) then Ok (add_signed c z x xN y yN) else Abort.
Proof.
  intros Hx Hy. unfold d_add_signed, add_signed. pose proof (ucompare_spec c x y Hx Hy) as C. unfold cmp_result in C.
  destruct (xorb xN yN) eqn:E.
  - replace (Bool.eqb xN yN) with false by (destruct xN, yN; cbn in *; congruence). cbn [negb orb].
    destruct (Z.leb_spec 0 (ucompare x y)); rewrite d_usub_eq by (try assumption; lia); reflexivity.
  - replace (Bool.eqb xN yN) with true by (destruct xN, yN; cbn in *; congruence). cbn [negb orb]. rewrite d_uadd_eq. destruct (can_resize _ _); reflexivity.
Qed.

Definition sum_room (c : cap) (x y : bigint) (s : bool) : Prop := s = true -> room c (Nat.max (size x) (size y) + 1).

Lemma d_add_signed_ok c z x xN y yN : storage_ok c z -> valid c x -> valid c y ->
  exact_or_stop c (xN = yN -> room c (Nat.max (size x) (size y) + 1)) (sgn xN (magnitude x) + sgn yN (magnitude y)) (d_add_signed c z x xN y yN).
Proof.
  intros Hz Hx Hy. rewrite d_add_signed_eq by assumption. split.
  - intros P. replace (negb (Bool.eqb xN yN) || can_resize c (Nat.max (size x) (size y) + 1)) with true.
    + eexists. split; [reflexivity|]. apply add_signed_spec; assumption.
    + symmetry. destruct (Bool.eqb xN yN) eqn:E; [|reflexivity]. apply eqb_prop in E. cbn. apply can_true. auto.
  - intros P. destruct (Bool.eqb xN yN) eqn:E; cbn [negb orb].
    + rewrite can_false; [reflexivity|]. intros R. apply P. auto.
    + exfalso. apply P. intros Q. rewrite Q, eqb_reflx in E. discriminate E.
Qed.

Lemma d_add_ok c z x y : storage_ok c z -> valid c x -> valid c y ->
  exact_or_stop c (neg x = neg y -> room c (Nat.max (size x) (size y) + 1)) (value x + value y) (d_add c z x y).
Proof. intros. apply d_add_signed_ok; assumption. Qed.
Lemma d_sub_ok c z x y : storage_ok c z -> valid c x -> valid c y ->
  exact_or_stop c (neg x <> neg y -> room c (Nat.max (size x) (size y) + 1)) (value x - value y) (d_sub c z x y).
Proof.
  intros Hz Hx Hy. pose proof (d_add_signed_ok c z x (neg x) y (negb (neg y)) Hz Hx Hy) as H. rewrite sgn_negb in H. unfold d_sub.
  assert (Q : (neg x = negb (neg y) -> room c (Nat.max (size x) (size y) + 1)) <-> (neg x <> neg y -> room c (Nat.max (size x) (size y) + 1))).
  { destruct (neg x), (neg y); cbn; intuition congruence. }
  destruct H as [H1 H2]. split; intros P; [apply H1|apply H2]; tauto.
Qed.

(** *** word operands *)
Lemma d_add1_eq c same z x y yN : valid c x -> 0 <= y < B ->
  d_add1_signed c same z x y yN = if negb (Bool.eqb (neg x) yN) || can_resize c (size x + 1) then Ok (add1_signed c same z x y yN) else Abort.
Proof.
  intros Hx Hy. unfold d_add1_signed, add1_signed. destruct (xorb (neg x) yN) eqn:E.
  - replace (Bool.eqb (neg x) yN) with false by (destruct (neg x), yN; cbn in *; congruence). cbn [negb orb].
    destruct (Nat.ltb_spec 1 (size x)) as [Q|Q]; cbn [orb].
    + pose proof (size_gt1 c x Hx Q). rewrite d_usub1_eq by (try assumption; lia). reflexivity.
    + pose proof Hx as (_ & Sx & _). assert (S1 : size x = 1%nat) by lia. pose proof (size1 c x Hx S1) as M.
      destruct (Z.geb_spec (word0 x) y) as [G|G].
      * rewrite d_usub1_eq by (try assumption; lia). reflexivity.
      * unfold d_assign_word. rewrite can_true by (eapply room_le; [apply (valid_size_room c x Hx)|lia]). reflexivity.
  - replace (Bool.eqb (neg x) yN) with true by (destruct (neg x), yN; cbn in *; congruence). cbn [negb orb]. unfold d_uadd1. destruct (can_resize _ _); reflexivity.
Qed.

Lemma d_add1_ok c same z x y yN : storage_ok c z -> valid c x -> 0 <= y < B -> (same = true -> z = x) ->
  exact_or_stop c (neg x = yN -> room c (size x + 1)) (value x + sgn yN y) (d_add1_signed c same z x y yN).
Proof.
  intros Hz Hx Hy Hs. rewrite d_add1_eq by assumption. split.
  - intros P. replace (negb (Bool.eqb (neg x) yN) || can_resize c (size x + 1)) with true.
    + eexists. split; [reflexivity|]. apply add1_signed_spec; assumption.
    + symmetry. destruct (Bool.eqb (neg x) yN) eqn:E; [|reflexivity]. apply eqb_prop in E. cbn. apply can_true. auto.
  - intros P. destruct (Bool.eqb (neg x) yN) eqn:E; cbn [negb orb].
    + rewrite can_false; [reflexivity|]. intros R. apply P. auto.
    + exfalso. apply P. intros Q. rewrite Q, eqb_reflx in E. discriminate E.
Qed.

Lemma cabs_pos y : int32 y -> y <> invalid_var -> 0 <= to_int32 (cabs32 y) /\ 0 <= cabs32 y < B /\ (forall s : bool, sgn (if s then negb (y <? 0) else y <? 0) (cabs32 y) = if s then - y else y).
Proof.
  unfold int32, invalid_var. intros H N. rewrite cabs32_spec. pose proof (int32_abs y H). unfold to_int32. change (2 ^ 31) with 2147483648 in *.
  destruct (Z.ltb_spec (Z.abs y) 2147483648); [|lia]. split; [lia|]. split; [assumption|]. intros s. destruct s, (Z.ltb_spec y 0); cbn [negb sgn]; lia.
Qed.
Lemma d_adds1_ok c same z x y : storage_ok c z -> valid c x -> int32 y -> (same = true -> z = x) ->
  exact_or_stop c (y <> - 2 ^ 31 /\ (neg x = (y <? 0) -> room c (size x + 1))) (value x + y) (d_adds1 c same z x y).
Proof.
  intros Hz Hx Hy Hs. unfold d_adds1. destruct (Z.eqb_spec y invalid_var) as [->|N]; cbn [negb check bind].
  { split; [intros [P _]; elim P; reflexivity|reflexivity]. }
  destruct (cabs_pos y Hy N) as (A & Ab & V). rewrite (proj2 (Z.leb_le _ _) A). cbn [check bind].
  destruct (d_add1_ok c same z x (cabs32 y) (y <? 0) Hz Hx Ab Hs) as [H1 H2]. rewrite (V false) in H1. split; [intros [_ P]; exact (H1 P)|]. intros P. apply H2. intros Q. apply P. split; assumption.
Qed.
Lemma d_subs1_ok c same z x y : storage_ok c z -> valid c x -> int32 y -> (same = true -> z = x) ->
  exact_or_stop c (y <> - 2 ^ 31 /\ (neg x = (0 <=? y) -> room c (size x + 1))) (value x - y) (d_subs1 c same z x y).
Proof.
  intros Hz Hx Hy Hs. unfold d_subs1. destruct (Z.eqb_spec y invalid_var) as [->|N]; cbn [negb check bind].
  { split; [intros [P _]; elim P; reflexivity|reflexivity]. }
  destruct (cabs_pos y Hy N) as (A & Ab & V). rewrite (proj2 (Z.leb_le _ _) A). cbn [check bind].
  destruct (d_add1_ok c same z x (cabs32 y) (negb (y <? 0)) Hz Hx Ab Hs) as [H1 H2]. rewrite (V true), Z.add_opp_r in H1.
  replace (negb (y <? 0)) with (0 <=? y) in * by lia. split; [intros [_ P]; exact (H1 P)|]. intros P. apply H2. intros Q. apply P. split; assumption.
Qed.
Lemma d_addu1_ok c same z x y : storage_ok c z -> valid c x -> 0 <= y < 2 ^ 32 -> (same = true -> z = x) ->
  exact_or_stop c (neg x = false -> room c (size x + 1)) (value x + y) (d_addu1 c same z x y).
Proof. intros Hz Hx Hy Hs. apply (d_add1_ok c same z x y false Hz Hx); [rewrite B_val; exact Hy|exact Hs]. Qed.
Lemma d_subu1_ok c same z x y : storage_ok c z -> valid c x -> 0 <= y < 2 ^ 32 -> (same = true -> z = x) ->
  exact_or_stop c (neg x = true -> room c (size x + 1)) (value x - y) (d_subu1 c same z x y).
Proof. intros Hz Hx Hy Hs. apply (d_add1_ok c same z x y true Hz Hx); [rewrite B_val; exact Hy|exact Hs]. Qed.

(** *** products *)
Lemma d_mul_ok c sX sY z x y : storage_ok c z -> valid c x -> valid c y -> (sX = true -> z = x) -> (sY = true -> z = y) ->
  (room c (size x + size y) -> exists r, d_mul c sX sY z x y = Ok (true, r) /\ valid c r /\ value r = value x * value y) /\
  (~ room c (size x + size y) -> d_mul c sX sY z x y = Abort).
Proof.
  intros Hz Hx Hy H1 H2. unfold d_mul. split; intros R.
  - rewrite (can_true _ _ R). cbn [check bind]. destruct (mul_spec c sX sY z x y Hz Hx Hy R H1 H2) as (r & -> & P). exists r. split; [reflexivity|exact P].
  - rewrite (can_false _ _ R). reflexivity.
Qed.
Lemma d_op_mul_ok c x y : valid c x -> valid c y -> exact_or_stop c (room c (size x + size y)) (value x * value y) (d_op_mul c x y).
Proof.
  intros Hx Hy. destruct (d_mul_ok c false false (zero c) x y (zero_storage c x Hx) Hx Hy ltac:(discriminate) ltac:(discriminate)) as [H1 H2]. unfold d_op_mul. split; intros R.
  - destruct (H1 R) as (r & -> & P). exists r. split; [reflexivity|exact P].
  - rewrite (H2 R). reflexivity.
Qed.
Lemma d_mulu1_ok c z x y : storage_ok c z -> valid c x -> 0 <= y < B -> exact_or_stop c (room c (size x + 1)) (value x * y) (d_mulu1 c z x y).
Proof.
  intros Hz Hx Hy. unfold d_mulu1. split; intros R.
  - rewrite (can_true _ _ R). eexists. split; [reflexivity|]. destruct (mulu1_spec c z x y Hz Hx Hy R) as (V & E & _). split; assumption.
  - rewrite (can_false _ _ R). reflexivity.
Qed.
Lemma d_muls1_ok c z x y : storage_ok c z -> valid c x -> int32 y -> exact_or_stop c (y <> - 2 ^ 31 /\ room c (size x + 1)) (value x * y) (d_muls1 c z x y).
Proof.
  intros Hz Hx Hy. unfold d_muls1. destruct (Z.eqb_spec y invalid_var) as [->|N]; cbn [negb check bind].
  { split; [intros [P _]; elim P; reflexivity|reflexivity]. }
  unfold d_mulu1. split.
  - intros [_ R]. rewrite (can_true _ _ R). cbn [check bind]. eexists. split; [reflexivity|]. apply (muls1_spec c z x y Hz Hx Hy R).
  - intros P. rewrite can_false; [reflexivity|]. intros R. apply P. split; [exact N|exact R].
Qed.

(** *** division *)
Lemma d_udiv_eq c q r x y : storage_ok c r -> valid c x -> valid c y -> match q with Some q => storage_ok c q | None => True end ->
  d_udiv c q r x y = udiv c q r x y.
Proof.
  intros Hr Hx Hy Hq. unfold d_udiv. destruct (Nat.ltb (size x) (size y)) eqn:L; [reflexivity|].
  assert (Hqr : match q with Some _ => can_resize c (size x - size y + 1) | None => true end = true).
  { destruct q; [|reflexivity]. apply room_can. apply room_le with (size x); [apply valid_size_room; assumption|]. destruct Hx as (_ & ? & _), Hy as (_ & ? & _). lia. }
  rewrite Hqr. cbn [check bind].
  destruct (Z.eq_dec (magnitude y) 0) as [E|E].
  - pose proof (udiv_by_zero c q r x y Hx Hy E) as U. rewrite U. unfold udiv in U. rewrite L, Hqr in U. destruct (div (size x - size y + 1) (words x) (words y)) as [[[qw xw] rn]| | |]; cbn [bind] in *; try discriminate U; [|reflexivity].
    destruct (can_resize c rn); discriminate U.
  - destruct (udiv_spec c q r x y Hr Hx Hy E Hq) as (q' & r' & U & _). rewrite U. unfold udiv in U. rewrite L, Hqr in U. destruct (div (size x - size y + 1) (words x) (words y)) as [[[qw xw] rn]| | |]; cbn [bind] in *; try discriminate U.
    destruct (can_resize c rn); [reflexivity|discriminate U].
Qed.
Lemma d_div_mod_eq c q r x y : storage_ok c r -> valid c x -> valid c y -> match q with Some q => storage_ok c q | None => True end ->
  d_div_mod c q r x y = div_mod c q r x y.
Proof. intros. unfold d_div_mod, div_mod. rewrite d_udiv_eq by assumption. reflexivity. Qed.
Lemma d_div_q_eq c q x y : storage_ok c q -> valid c x -> valid c y -> d_div_q c q x y = div_q c q x y.
Proof. intros Hq Hx Hy. unfold d_div_q, div_q. rewrite d_div_mod_eq; [reflexivity|apply (zero_storage c x Hx)|assumption..]. Qed.
Lemma d_mod_r_eq c r x y : storage_ok c r -> valid c x -> valid c y -> d_mod_r c r x y = mod_r c r x y.
Proof. intros Hq Hx Hy. unfold d_mod_r, mod_r. rewrite d_div_mod_eq; [reflexivity|assumption..|exact I]. Qed.

(** floored division: the quotient that is rounded down is incremented, which asks for one word more *)
Lemma d_quot_rem_r c r x y : storage_ok c r -> valid c x -> valid c y -> value y <> 0 -> d_quot_rem c None r x y = quot_rem c None r x y.
Proof.
  intros Hr Hx Hy N. unfold d_quot_rem, quot_rem. rewrite d_udiv_eq by (try assumption; exact I). rewrite value_zero_iff in N.
  destruct (udiv_spec c None r x y Hr Hx Hy N I) as (q' & r' & -> & Vr & Mr & Q). destruct q'; [contradiction|]. cbn [bind option_map].
  destruct (negb (is_zero (set_neg r' (neg y))) && xorb (neg x) (neg y)); [|reflexivity].
  pose proof (magnitude_range c y Hy). rewrite d_usub_eq; [reflexivity|exact Hy|exact Vr|]. rewrite set_neg_mag, Mr. pose proof (Z.mod_pos_bound (magnitude x) (magnitude y) ltac:(lia)). lia.
Qed.

Lemma d_quot_rem_ok c q r x y : storage_ok c q -> storage_ok c r -> valid c x -> valid c y -> value y <> 0 ->
  (d_quot_rem c (Some q) r x y = Abort /\ ~ room c (size x + 1) /\ value x mod value y <> 0 /\ xorb (neg x) (neg y) = true) \/
  exists q' r', d_quot_rem c (Some q) r x y = Ok (Some q', r') /\ valid c q' /\ valid c r' /\ value q' = value x / value y /\ value r' = value x mod value y.
Proof.
  intros Hq Hr Hx Hy N. unfold d_quot_rem. rewrite d_udiv_eq by assumption. pose proof N as N'. rewrite value_zero_iff in N'.
  destruct (udiv_spec c (Some q) r x y Hr Hx Hy N' Hq) as (q' & r' & E & Vr & Mr & Q). destruct q' as [q'|]; [|contradiction]. destruct Q as (Vq & Mq). rewrite E. cbn [bind option_map].
  pose proof (magnitude_range c y Hy) as Ry. pose proof (magnitude_range c x Hx) as Rx. pose proof (Z.mod_pos_bound (magnitude x) (magnitude y) ltac:(lia)) as MB. pose proof (Z.div_mod (magnitude x) (magnitude y) ltac:(lia)) as DM.
  rewrite (is_zero_spec c) by (apply set_neg_valid; exact Vr). rewrite set_neg_mag, Mr.
  destruct (xorb (neg x) (neg y)) eqn:S; [destruct (Z.eqb_spec (magnitude x mod magnitude y) 0) as [Z0|Z0]|]; cbn [negb andb].
  - right. exists (set_neg q' true), (set_neg r' (neg y)). split; [reflexivity|]. split; [exact Vq|]. split; [exact Vr|]. rewrite !set_neg_value, Mq, Mr, Z0. rewrite !value_sgn.
    assert (D : magnitude x = magnitude y * (magnitude x / magnitude y)) by lia. set (k := magnitude x / magnitude y) in *.
    split.
    + apply Z.div_unique with 0; destruct (neg x), (neg y); try discriminate S; cbn [sgn]; lia.
    + apply Z.mod_unique with (- k); destruct (neg x), (neg y); try discriminate S; cbn [sgn]; lia.
  - unfold d_uadd1. change (size (set_neg q' true)) with (size q').
    assert (Zm : value x mod value y <> 0).
    { rewrite !value_sgn. intros C. apply Z0. destruct (neg x), (neg y); cbn [sgn] in C; try discriminate S.
      - rewrite <- (Z.opp_involutive (magnitude x)). apply Z_mod_zero_opp_full. exact C.
      - apply Z.mod_divide in C; [|lia]. apply Z.mod_divide; [lia|]. destruct C as [k C]. exists (- k). lia. }
    destruct (room_dec c (size q' + 1)) as [R|R].
    + right. rewrite (can_true _ _ R). cbn [check bind].
      destruct (uadd1_spec c (set_neg q' true) (set_neg q' true) 1 (valid_storage _ _ Vq) Vq ltac:(rewrite B_val; lia) R) as (V1 & M1 & N1).
      rewrite d_usub_eq; [|exact Hy|exact Vr|rewrite set_neg_mag; lia]. cbn [bind].
      destruct (usub_spec c (set_neg r' (neg y)) y (set_neg r' (neg y)) (valid_storage _ _ Vr) Hy Vr ltac:(rewrite set_neg_mag; lia)) as (V2 & M2 & N2).
      eexists _, _. split; [reflexivity|]. split; [exact V1|]. split; [exact V2|]. rewrite set_neg_mag in M1, M2, N1, N2. rewrite !value_sgn. rewrite N1, N2, M1, M2, Mq, Mr.
      rewrite (proj2 (Z.eqb_neq (magnitude y) (magnitude x mod magnitude y))) by lia. pose proof (Z.div_pos (magnitude x) (magnitude y) ltac:(lia) ltac:(lia)).
      rewrite (proj2 (Z.eqb_neq (magnitude x / magnitude y + 1) 0)) by lia. rewrite !set_neg_neg.
      set (k := magnitude x / magnitude y) in *. set (e := magnitude x mod magnitude y) in *.
      split.
      * apply Z.div_unique with (sgn (neg y) (magnitude y - e)); destruct (neg x), (neg y); try discriminate S; cbn [sgn]; lia.
      * apply Z.mod_unique with (sgn true (k + 1)); destruct (neg x), (neg y); try discriminate S; cbn [sgn]; lia.
    + left. rewrite (can_false _ _ R). cbn [check bind]. split; [reflexivity|]. split; [|split; [exact Zm|reflexivity]]. intros C. apply R. apply (room_le c _ _ C).
      assert ((size q' <= size x)%nat); [|lia]. pose proof Hx as (_ & ? & _). apply (size_le_iff c q' (size x) Vq ltac:(lia)). rewrite Mq. assert (magnitude x / magnitude y <= magnitude x) by (apply Z.div_le_upper_bound; nia). lia.
  - right. rewrite andb_false_r. exists (set_neg q' false), (set_neg r' (neg y)). split; [reflexivity|]. split; [exact Vq|]. split; [exact Vr|]. rewrite !set_neg_value, Mq, Mr. rewrite !value_sgn.
    split.
    + apply Z.div_unique with (sgn (neg y) (magnitude x mod magnitude y)); destruct (neg x), (neg y); try discriminate S; cbn [sgn]; lia.
    + apply Z.mod_unique with (magnitude x / magnitude y); destruct (neg x), (neg y); try discriminate S; cbn [sgn]; lia.
Qed.
