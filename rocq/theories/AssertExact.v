(** Builds with assertions: words, shifts, bits and the number-theoretic functions. *)
From Coq Require Import List ZArith Bool Lia PeanoNat Znumtheory.
From Coq Require Import ZifyBool ZifyNat ZifyN.
From Verif Require Import Outcome LoopModel LoopProofs BitLemmas WordsModel WordsSpec WordsProofs DivProofs
  UtilsSpec BigintModel BigintSpec BigintProofs BigintBits BigintBytes BigintClosure BigintClaims NumModel NumProofs NumPow NumLcm NumClaims
  AssertModel AssertSpec AssertProofs AssertRefine AssertSim.
Import ListNotations.
Open Scope Z_scope.

(** *** assignments *)
Lemma d_assign_int_exact c z x : storage_ok c z -> room c 1 -> int32 x -> exact_or_stop c (x <> - 2 ^ 31) x (d_assign_int c z x).
Proof.
  intros Hz R I32. split; intros N.
  - rewrite d_assign_int_ok by assumption. eexists. split; [reflexivity|]. pose proof (int32_abs x I32). destruct (assign_int_spec c z x Hz R ltac:(lia)) as (V & E & _). split; assumption.
  - unfold d_assign_int, invalid_var. destruct (Z.eqb_spec x (- 2 ^ 31)); [reflexivity|contradiction].
Qed.
Lemma d_assign_u64_exact c z x : storage_ok c z -> 0 <= x < 2 ^ 64 -> exact_or_stop c (room c 2) x (d_assign_u64 c z x).
Proof.
  intros Hz Hx. unfold d_assign_u64. split; intros R.
  - rewrite (can_true _ _ R). cbn [check bind]. destruct (assign_u64_spec c z x Hz R) as (r & -> & V & E & _); [rewrite W64_val, B_val; change (2 ^ 64) with 18446744073709551616 in Hx; lia|]. eexists. split; [reflexivity|]. split; assumption.
  - rewrite (can_false _ _ R). reflexivity.
Qed.
Lemma d_assign_i64_exact c z x : storage_ok c z -> - 2 ^ 63 <= x < 2 ^ 63 -> exact_or_stop c (x <> - 2 ^ 31 /\ room c 2) x (d_assign_i64 c z x).
Proof.
  intros Hz Hx. unfold d_assign_i64, invalid_var, d_assign_u64. destruct (Z.eqb_spec x (- 2 ^ 31)) as [->|N]; cbn [negb check bind].
  { split; [intros [P _]; elim P; reflexivity|reflexivity]. }
  split.
  - intros [_ R]. rewrite (can_true _ _ R). cbn [check bind]. destruct (assign_i64_spec c z x Hz R Hx) as (r & E & V & Ev & _). unfold assign_i64 in E. rewrite E. exists r. split; [reflexivity|]. split; assumption.
  - intros P. rewrite can_false; [reflexivity|]. intros R. apply P. split; assumption.
Qed.

(** *** division by one word *)
Lemma d_divs1_exact c q x y : storage_ok c q -> valid c x -> int32 y -> exact_or_stop c (y <> 0 /\ y <> - 2 ^ 31) (Z.quot (value x) y) (d_divs1 c q x y).
Proof.
  intros Hq Hx I32. assert (E : y <> - 2 ^ 31 -> d_divs1 c q x y = divs1 c q x y).
  { intros N. unfold d_divs1, d_div_mods1_q, invalid_var, divs1. rewrite (proj2 (Z.eqb_neq _ _) N), (can_true _ _ (valid_size_room c x Hx)). reflexivity. }
  split.
  - intros [N0 N]. rewrite (E N). exact (divs1_spec c q x y Hq Hx I32 N0).
  - intros P. destruct (Z.eq_dec y (- 2 ^ 31)) as [->|N]; [unfold d_divs1, d_div_mods1_q, invalid_var; rewrite Z.eqb_refl; reflexivity|]. rewrite (E N).
    assert (y = 0) as -> by lia. apply (div_word_zero_claim c q x Hx).
Qed.
Lemma d_mods1_exact c r x y : storage_ok c r -> valid c x -> int32 y -> exact_or_stop c (y <> 0 /\ y <> - 2 ^ 31) (Z.rem (value x) y) (d_mods1 c r x y).
Proof.
  intros Hr Hx I32. split.
  - intros [N0 N]. rewrite (d_mods1_eq c r x y Hx I32 N0 N). destruct (mods1_spec c r x y Hr Hx I32 N0) as (r' & E & V & Ev & _). exists r'. split; [exact E|]. split; assumption.
  - intros P. destruct (Z.eq_dec y (- 2 ^ 31)) as [->|N]; [unfold d_mods1, d_div_mods1_r, invalid_var; rewrite Z.eqb_refl; reflexivity|].
    assert (y = 0) as -> by lia. pose proof (proj1 (proj2 (div_word_zero_claim c r x Hx))) as E. unfold mods1 in E. unfold d_mods1, d_div_mods1_r. cbn [negb check bind].
    change (0 =? invalid_var) with false. cbn [negb check bind]. destruct (div_mods1_r x 0); cbn [bind] in *; try discriminate E; reflexivity.
Qed.
Lemma d_divu1_exact c q x y : storage_ok c q -> valid c x -> 0 <= y < 2 ^ 32 -> exact_or_stop c (y <> 0 /\ neg x = false) (value x / y) (d_divu1 c q x y).
Proof.
  intros Hq Hx Hy. unfold d_divu1. rewrite (can_true _ _ (valid_size_room c x Hx)). split.
  - intros [N0 N]. rewrite N. cbn [negb check bind]. fold (divu1 c q x y). destruct (divu1_spec c q x y Hq Hx ltac:(rewrite B_val; change (2 ^ 32) with 4294967296 in Hy; lia)) as (q' & E & V & Ev).
    exists q'. split; [exact E|]. split; [exact V|]. rewrite Ev. f_equal. pose proof (magnitude_range c x Hx). rewrite value_sgn, N. cbn [sgn]. lia.
  - intros P. destruct (neg x) eqn:N; cbn [negb check bind]; [reflexivity|]. assert (y = 0) as -> by (destruct (Z.eq_dec y 0); [assumption|exfalso; apply P; auto]).
    fold (divu1 c q x 0). apply (div_word_zero_claim c q x Hx).
Qed.
(** [modu1] still writes through the null pointer *)
Lemma d_modu1_ub c r x y : 0 < y -> d_modu1 c r x y = if neg x then Abort else UB.
Proof. intros Hy. unfold d_modu1, udiv_modu1_null. destruct (neg x); cbn [negb check bind]; [reflexivity|]. rewrite (proj2 (Z.eqb_neq y 0)) by lia. reflexivity. Qed.

(** *** shifts *)
Lemma d_shl_exact c z x n : storage_ok c z -> valid c x -> 0 <= n -> exact_or_stop c (room c (size x + Z.to_nat ((n + 31) / 32))) (value x * 2 ^ n) (d_shl c z x n).
Proof.
  intros Hz Hx Hn. unfold d_shl. split; intros R.
  - rewrite (can_true _ _ R). cbn [check bind]. destruct (shl_spec c z x n Hz Hx Hn R) as (r & E & V & Ev & _). exists r. split; [exact E|]. split; assumption.
  - rewrite (can_false _ _ R). reflexivity.
Qed.
Lemma d_shr_exact c z x n : storage_ok c z -> valid c x -> 0 <= n -> exists r, d_shr c z x n = Ok r /\ valid c r /\ value r = Z.quot (value x) (2 ^ n).
Proof. intros Hz Hx Hn. rewrite (d_shr_eq c z x n Hx Hn). eexists. split; [reflexivity|]. destruct (shr_spec c z x n Hz Hx Hn) as (V & E & _). split; assumption. Qed.

(** *** bits *)
Lemma d_or_exact c z x y : valid c z -> valid c x -> valid c y -> neg z = false -> exact_or_stop c (neg x = false /\ neg y = false) (Z.lor (value x) (value y)) (d_or_bit c z x y).
Proof.
  intros Hz Hx Hy Nz. unfold d_or_bit. rewrite max_swap, (proj2 (Nat.leb_le _ _)) by lia. rewrite can_true.
  2:{ destruct (Nat.max_spec (size x) (size y)) as [[_ ->]|[_ ->]]; apply valid_size_room; assumption. }
  split.
  - intros [N1 N2]. rewrite N1, N2. cbn [negb andb check bind]. eexists. split; [reflexivity|]. pose proof (magnitude_range c x Hx). pose proof (magnitude_range c y Hy).
    apply (or_claim c z x y Hz Hx Hy); [rewrite value_sgn, N1; cbn [sgn]; lia|rewrite value_sgn, N2; cbn [sgn]; lia|exact Nz].
  - intros P. destruct (neg x), (neg y); try reflexivity. exfalso. apply P. auto.
Qed.
Lemma d_and_exact c z x y : valid c z -> valid c x -> valid c y -> neg z = false -> exact_or_stop c (neg x = false /\ neg y = false) (Z.land (value x) (value y)) (d_and_bit c z x y).
Proof.
  intros Hz Hx Hy Nz. unfold d_and_bit. rewrite max_swap, (proj2 (Nat.leb_le _ _)) by lia. rewrite can_true.
  2:{ destruct (Nat.min_spec (size x) (size y)) as [[_ ->]|[_ ->]]; apply valid_size_room; assumption. }
  split.
  - intros [N1 N2]. rewrite N1, N2. cbn [negb andb check bind]. eexists. split; [reflexivity|]. pose proof (magnitude_range c x Hx). pose proof (magnitude_range c y Hy).
    apply (and_claim c z x y Hz Hx Hy); [rewrite value_sgn, N1; cbn [sgn]; lia|rewrite value_sgn, N2; cbn [sgn]; lia|exact Nz].
  - intros P. destruct (neg x), (neg y); try reflexivity. exfalso. apply P. auto.
Qed.
Lemma d_bits_word c z x w : valid c z -> valid c x -> 0 <= w < 2 ^ 32 ->
  exact_or_stop c (neg x = false) (Z.lor (value x) w) (d_or_bitu1 x w) /\ exact_or_stop c (neg x = false) (Z.land (value x) w) (d_and_bitu1 c z x w).
Proof.
  intros Hz Hx Hw. unfold d_or_bitu1, d_and_bitu1. rewrite (can_true c 1 (valid_room1 c x Hx)). pose proof (magnitude_range c x Hx).
  split; split; intros N; try (destruct (neg x); [reflexivity|elim N; reflexivity]); assert (Px : 0 <= value x) by (rewrite value_sgn, N; cbn [sgn]; lia); rewrite N; cbn [negb check bind]; eexists; (split; [reflexivity|]).
  - destruct (or1_claim c x w Hx Px Hw) as (V & E). split; [exact V|exact (E N)].
  - destruct (and1_claim c z x w Hz Hx Px Hw) as ((V & _) & E). split; assumption.
Qed.
Lemma d_set_bit_exact c x i v : valid c x -> 0 <= i ->
  (i < 32 * Z.of_nat (size x) -> exists r, d_set_bit c x i v = Ok r /\ valid c r /\
    (forall j, 0 <= j -> Z.testbit (Z.abs (value r)) j = if j =? i then v else Z.testbit (Z.abs (value x)) j) /\ (value r <> 0 -> neg r = neg x)) /\
  (32 * Z.of_nat (size x) <= i -> ~ room c (Z.to_nat (i / 32) + 1) -> d_set_bit c x i v = Abort) /\
  (32 * Z.of_nat (size x) <= i -> room c (Z.to_nat (i / 32) + 1) -> d_set_bit c x i v = set_bit c x i v).
Proof.
  intros Hx Hi. pose proof (Z.div_mod i 32 ltac:(lia)) as D. pose proof (Z.mod_pos_bound i 32 ltac:(lia)) as M.
  assert (Q : 0 <= i / 32) by (apply Z.div_pos; lia).
  unfold d_set_bit. rewrite (d_bit_length_eq c x Hx). split; [|split].
  - intros L. rewrite (proj2 (Nat.leb_le _ _)) by lia. cbn [orb check bind]. apply set_bit_claim; [exact Hx|lia].
  - intros L R. rewrite (proj2 (Nat.leb_gt _ _)) by lia. cbn [orb]. rewrite can_false; [reflexivity|]. intros R'. apply R. eapply room_le; [exact R'|lia].
  - intros L R. rewrite can_true by (eapply room_le; [exact R|lia]). rewrite orb_true_r. reflexivity.
Qed.
