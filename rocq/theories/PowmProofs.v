(** Proofs about c/powm.h: the constant-time helpers and the i32 arithmetic. *)
From Coq Require Import List ZArith Bool Lia.
From Verif Require Import Outcome UtilsModel UtilsSpec UtilsProofs RsaModel RsaSpec RsaProofs ShaModel ShaProofs BitLemmas WordsModel WordsSpec WordsProofs PowmModel.
Import ListNotations.
Open Scope Z_scope.

Definition w32 (x : Z) : Prop := 0 <= x < B.
Definition bit (b : bool) : Z := Z.b2z b.
Lemma bit_w b : w32 (bit b).
Proof. destruct b; unfold w32; rewrite B_val; cbn; lia. Qed.
Lemma B32 : B = 2 ^ 32. Proof. reflexivity. Qed.

(** ** Constant-time helpers *)
Lemma top31 v : w32 v -> Z.shiftr v 31 = bit (2 ^ 31 <=? v).
Proof.
  intros H. red in H. rewrite B_val in H. rewrite Z.shiftr_div_pow2 by lia. change (2 ^ 31) with 2147483648. destruct (Z.leb_spec 2147483648 v); cbn [bit Z.b2z].
  - symmetry. apply (Z.div_unique v 2147483648 1 (v - 2147483648)); lia.
  - apply Z.div_small. lia.
Qed.
Lemma shiftr31_bit v : w32 v -> Z.shiftr v 31 = bit (Z.testbit v 31).
Proof.
  intros H. rewrite top31 by exact H. f_equal. rewrite Z.testbit_eqb by lia. red in H. rewrite B_val in H. change (2 ^ 31) with 2147483648.
  destruct (Z.leb_spec 2147483648 v).
  - replace (v / 2147483648) with 1 by (apply (Z.div_unique v 2147483648 1 (v - 2147483648)); lia). reflexivity.
  - rewrite (Z.div_small v) by lia. reflexivity.
Qed.
Lemma bit31 v : w32 v -> Z.testbit v 31 = (2 ^ 31 <=? v).
Proof. intros H. pose proof (top31 v H) as A. rewrite (shiftr31_bit v H) in A. destruct (Z.testbit v 31), (2 ^ 31 <=? v); try reflexivity; discriminate A. Qed.
Lemma lxor_w a b : w32 a -> w32 b -> w32 (Z.lxor a b).
Proof. intros Ha Hb. apply (lxor_range a b 32); [lia|exact Ha|exact Hb]. Qed.
Lemma lor_w a b : w32 a -> w32 b -> w32 (Z.lor a b).
Proof. intros Ha Hb. apply (lor_range a b 32); [lia|exact Ha|exact Hb]. Qed.
Lemma land_w a b : w32 a -> w32 b -> w32 (Z.land a b).
Proof. intros Ha Hb. apply (land_range a b 32); [lia|exact Ha|apply Hb]. Qed.
Lemma mod_w a : w32 (a mod B).
Proof. apply Z.mod_pos_bound. rewrite B_val. lia. Qed.
Lemma shr_w a n : w32 a -> 0 <= n -> w32 (Z.shiftr a n).
Proof.
  intros [H1 H2] Hn. rewrite Z.shiftr_div_pow2 by exact Hn. split; [apply Z.div_pos; [exact H1|apply Z.pow_pos_nonneg; lia]|].
  apply Z.le_lt_trans with a; [|exact H2]. apply Z.div_le_upper_bound; [apply Z.pow_pos_nonneg; lia|]. assert (1 <= 2 ^ n) by (pose proof (Z.pow_pos_nonneg 2 n); lia). nia.
Qed.
Lemma NOT_spec b : NOT (bit b) = bit (negb b).
Proof. destruct b; reflexivity. Qed.
Lemma MUX_spec b x y : w32 x -> w32 y -> MUX (bit b) x y = if b then x else y.
Proof.
  intros Hx Hy. unfold MUX. destruct b; cbn [bit Z.b2z].
  - change ((- (1)) mod B) with (Z.ones 32). rewrite Z.land_comm, Z.land_ones by lia.
    rewrite Z.mod_small by (apply lxor_w; assumption). rewrite (Z.lxor_comm x y), <- Z.lxor_assoc, Z.lxor_nilpotent. apply Z.lxor_0_l.
  - replace ((- 0) mod B) with 0 by reflexivity. rewrite Z.land_0_l. apply Z.lxor_0_r.
Qed.
Lemma MUX_w b x y : w32 x -> w32 y -> w32 (MUX (bit b) x y).
Proof. intros Hx Hy. rewrite MUX_spec by assumption. destruct b; assumption. Qed.
Lemma NEQ_spec x y : w32 x -> w32 y -> NEQ x y = bit (negb (x =? y)).
Proof.
  intros Hx Hy. unfold NEQ. cbv zeta. pose proof (lxor_w x y Hx Hy) as Hq.
  rewrite shiftr31_bit by (apply lor_w; [exact Hq|apply mod_w]). f_equal. rewrite Z.lor_spec, !bit31 by (try exact Hq; apply mod_w).
  destruct (Z.eqb_spec x y) as [->|N].
  - rewrite Z.lxor_nilpotent. reflexivity.
  - assert (NZ : Z.lxor x y <> 0) by (intros E; apply Z.lxor_eq in E; contradiction). set (q := Z.lxor x y) in *. red in Hq.
    replace ((- q) mod B) with (B - q) by (apply (Z.mod_unique _ _ (-1)); lia). rewrite B_val in *. change (2 ^ 31) with 2147483648.
    destruct (Z.leb_spec 2147483648 q); [reflexivity|]. cbn [orb negb]. apply Z.leb_le. lia.
Qed.
Lemma EQ_spec x y : w32 x -> w32 y -> EQ x y = bit (x =? y).
Proof. intros Hx Hy. change (EQ x y) with (NOT (NEQ x y)). rewrite NEQ_spec by assumption. rewrite NOT_spec, negb_involutive. reflexivity. Qed.
Lemma GT_spec x y : w32 x -> w32 y -> GT x y = bit (y <? x).
Proof.
  intros Hx Hy. unfold GT. cbv zeta. set (z := (y - x) mod B). assert (Hz : w32 z) by apply mod_w.
  rewrite shiftr31_bit by (apply lxor_w; [exact Hz|]; apply land_w; apply lxor_w; assumption). f_equal.
  rewrite Z.lxor_spec, Z.land_spec, !Z.lxor_spec, !bit31 by assumption. red in Hx, Hy, Hz. 
  assert (Ez : z = y - x \/ z = y - x + B).
  { unfold z. destruct (Z.le_gt_cases x y); [left; apply Z.mod_small; lia|right; symmetry; apply (Z.mod_unique _ _ (-1)); lia]. }
  clearbody z. rewrite B_val in *. change (2 ^ 31) with 2147483648.
  destruct (Z.leb_spec 2147483648 x), (Z.leb_spec 2147483648 y), (Z.leb_spec 2147483648 z), (Z.ltb_spec y x); cbn; try reflexivity; lia.
Qed.
Lemma LT_spec x y : w32 x -> w32 y -> LT x y = bit (x <? y).
Proof. intros Hx Hy. apply GT_spec; assumption. Qed.
Lemma GE_spec x y : w32 x -> w32 y -> GE x y = bit (y <=? x).
Proof. intros Hx Hy. unfold GE. rewrite GT_spec by assumption. rewrite NOT_spec. f_equal. rewrite Z.leb_antisym. reflexivity. Qed.

(** ** The inverse modulo 2^32 *)
Lemma newton_w x y : w32 (newton x y). Proof. apply mod_w. Qed.
Lemma newton_step x y k : 0 <= k -> 2 * k <= 32 -> (2 ^ k | x * y - 1) -> (2 ^ (2 * k) | x * newton x y - 1).
Proof.
  intros Hk H32 [c Hc].
  assert (E : exists e, newton x y = y * (2 - y * x) + 2 ^ 32 * e).
  { unfold newton. rewrite B32. pose proof (Z.div_mod (y * ((2 - (y * x) mod 2 ^ 32) mod 2 ^ 32)) (2 ^ 32) ltac:(lia)) as D1.
    pose proof (Z.div_mod (2 - (y * x) mod 2 ^ 32) (2 ^ 32) ltac:(lia)) as D2. pose proof (Z.div_mod (y * x) (2 ^ 32) ltac:(lia)) as D3.
    set (q1 := y * ((2 - (y * x) mod 2 ^ 32) mod 2 ^ 32) / 2 ^ 32) in *. set (q2 := (2 - (y * x) mod 2 ^ 32) / 2 ^ 32) in *. set (q3 := y * x / 2 ^ 32) in *.
    exists (y * (q3 - q2) - q1). nia. }
  destruct E as [e E]. rewrite E. replace (x * (y * (2 - y * x) + 2 ^ 32 * e) - 1) with (- ((x * y - 1) * (x * y - 1)) + 2 ^ 32 * (x * e)) by ring.
  apply Z.divide_add_r.
  - apply Z.divide_opp_r. rewrite Hc. replace (2 * k) with (k + k) by lia. rewrite Z.pow_add_r by lia. exists (c * c). ring.
  - apply Z.divide_mul_l. exists (2 ^ (32 - 2 * k)). rewrite <- Z.pow_add_r by lia. f_equal. lia.
Qed.
Lemma ninv32_spec x : w32 x -> Z.odd x = true -> w32 (br_i32_ninv32 x) /\ (x * br_i32_ninv32 x + 1) mod B = 0.
Proof.
  intros Hx Ho. unfold br_i32_ninv32. cbv zeta. set (y0 := (2 - x) mod B).
  assert (D0 : (2 ^ 2 | x * y0 - 1)).
  { apply Z.odd_spec in Ho. destruct Ho as [h Hh]. pose proof (Z.div_mod (2 - x) B ltac:(rewrite B_val; lia)) as D. fold y0 in D. set (q := (2 - x) / B) in *.
    exists (- (h * h) - x * (2 ^ 30 * q)). replace y0 with (2 - x - B * q) by lia. rewrite B_val. change (2 ^ 2) with 4. change (2 ^ 30) with 1073741824. rewrite Hh. ring. }
  pose proof (newton_step x _ 2 ltac:(lia) ltac:(lia) D0) as D1. pose proof (newton_step x _ (2 * 2) ltac:(lia) ltac:(lia) D1) as D2.
  pose proof (newton_step x _ (2 * (2 * 2)) ltac:(lia) ltac:(lia) D2) as D3. pose proof (newton_step x _ (2 * (2 * (2 * 2))) ltac:(lia) ltac:(lia) D3) as D4.
  clear D0 D1 D2 D3. set (y := newton x (newton x (newton x (newton x y0)))) in *. clearbody y.
  replace (Z.land x 1) with (bit true).
  2:{ change 1 with (Z.ones 1) at 1. rewrite Z.land_ones by lia. change (2 ^ 1) with 2. rewrite Zmod_odd, Ho. reflexivity. }
  rewrite MUX_spec by (try apply mod_w; unfold w32; rewrite B_val; lia). split; [apply mod_w|].
  destruct D4 as [c Hc]. change (2 ^ (2 * (2 * (2 * (2 * 2))))) with B in Hc. rewrite <- Z.add_mod_idemp_l by (rewrite B_val; lia). rewrite Z.mul_mod_idemp_r by (rewrite B_val; lia).
  rewrite Z.add_mod_idemp_l by (rewrite B_val; lia). replace (x * - y + 1) with ((- c) * B) by lia. apply Z.mod_mul. rewrite B_val. lia.
Qed.
Lemma ninv32_even x : w32 x -> Z.odd x = false -> br_i32_ninv32 x = 0.
Proof.
  intros Hx Ho. unfold br_i32_ninv32. cbv zeta. replace (Z.land x 1) with (bit false).
  2:{ change 1 with (Z.ones 1). rewrite Z.land_ones by lia. change (2 ^ 1) with 2. rewrite Zmod_odd, Ho. reflexivity. }
  apply MUX_spec; [apply mod_w|unfold w32; rewrite B_val; lia].
Qed.

(** ** Bit lengths *)
Definition bits (x : Z) : Z := if x =? 0 then 0 else Z.log2 x + 1.
Lemma bits_range x : 0 < x -> 2 ^ (bits x - 1) <= x < 2 ^ bits x.
Proof. intros H. unfold bits. rewrite (proj2 (Z.eqb_neq x 0)) by lia. pose proof (Z.log2_spec x H). rewrite Z.add_simpl_r. lia. Qed.
Lemma bits_unique x n : 0 < n -> 2 ^ (n - 1) <= x < 2 ^ n -> bits x = n.
Proof.
  intros Hn H. assert (0 < x) by (pose proof (Z.pow_pos_nonneg 2 (n - 1)); lia). unfold bits. rewrite (proj2 (Z.eqb_neq x 0)) by lia.
  rewrite (Z.log2_unique x (n - 1)); [lia|lia|]. replace (Z.succ (n - 1)) with n by lia. exact H.
Qed.
Lemma bits_nonneg x : 0 <= bits x.
Proof. unfold bits. destruct (x =? 0); [lia|]. pose proof (Z.log2_nonneg x). lia. Qed.
Lemma bits_shift x n : 0 < x -> 0 <= n -> bits (x * 2 ^ n) = bits x + n.
Proof. intros H Hn. unfold bits. pose proof (Z.pow_pos_nonneg 2 n ltac:(lia) Hn). rewrite !(proj2 (Z.eqb_neq _ 0)) by nia. rewrite Z.log2_mul_pow2 by lia. lia. Qed.
Lemma bits_div x n : 0 <= n -> 2 ^ n <= x -> bits x = bits (Z.shiftr x n) + n.
Proof.
  intros Hn H. pose proof (Z.pow_pos_nonneg 2 n ltac:(lia) Hn) as P. rewrite Z.shiftr_div_pow2 by exact Hn.
  assert (1 <= x / 2 ^ n) by (apply Z.div_le_lower_bound; lia). unfold bits. rewrite !(proj2 (Z.eqb_neq _ 0)) by lia.
  rewrite <- Z.shiftr_div_pow2 by exact Hn. rewrite Z.log2_shiftr by lia. assert (n <= Z.log2 x) by (apply Z.log2_le_pow2; lia). lia.
Qed.
Lemma bl_step x k n m : w32 x -> 0 <= n <= 16 -> m = 2 ^ n - 1 -> 0 <= k <= 31 ->
  x < 2 ^ (2 * n) -> 
  let c := GT x m in
  let x' := MUX c (Z.shiftr x n) x in
  w32 x' /\ x' < 2 ^ n /\ exists c', c = bit c' /\ (x =? 0) = (x' =? 0) /\ bits x = bits x' + n * bit c'.
Proof.
  intros Hx Hn -> Hk Hb c x'. pose proof (Z.pow_pos_nonneg 2 n ltac:(lia) ltac:(lia)) as P. assert (Pm : 2 ^ n <= 2 ^ 16) by (apply Z.pow_le_mono_r; lia). change (2 ^ 16) with 65536 in Pm.
  assert (C : c = bit (2 ^ n - 1 <? x)) by (apply GT_spec; [exact Hx|unfold w32; rewrite B_val; lia]).
  unfold x'. rewrite C. rewrite MUX_spec by (try apply shr_w; try exact Hx; lia). destruct (Z.ltb_spec (2 ^ n - 1) x) as [G|L].
  - assert (S1 : 1 <= Z.shiftr x n) by (rewrite Z.shiftr_div_pow2 by lia; apply Z.div_le_lower_bound; lia).
    split; [apply shr_w; [exact Hx|lia]|]. split.
    + rewrite Z.shiftr_div_pow2 by lia. apply Z.div_lt_upper_bound; [lia|]. rewrite <- Z.pow_add_r by lia. replace (n + n) with (2 * n) by lia. exact Hb.
    + exists true. split; [reflexivity|]. split; [rewrite !(proj2 (Z.eqb_neq _ 0)) by lia; reflexivity|]. cbn [bit Z.b2z]. rewrite (bits_div x n) by lia. lia.
  - split; [exact Hx|]. split; [lia|]. exists false. split; [reflexivity|]. split; [reflexivity|]. cbn. lia.
Qed.
Lemma shl_bit b n : 0 <= n <= 4 -> Z.shiftl (bit b) n mod B = bit b * 2 ^ n.
Proof. intros H. rewrite Z.shiftl_mul_pow2 by lia. apply Z.mod_small. assert (2 ^ n <= 2 ^ 4) by (apply Z.pow_le_mono_r; lia). pose proof (Z.pow_pos_nonneg 2 n). rewrite B_val. destruct b; cbn [bit Z.b2z]; lia. Qed.
Lemma BIT_LENGTH_spec x : w32 x -> BIT_LENGTH x = bits x.
Proof.
  intros Hx. unfold BIT_LENGTH. cbv zeta.
  assert (NZ : NEQ x 0 = bit (negb (x =? 0))) by (apply NEQ_spec; [exact Hx|unfold w32; rewrite B_val; lia]). rewrite NZ. clear NZ.
  destruct (bl_step x 1 16 0xFFFF Hx ltac:(lia) eq_refl ltac:(lia) ltac:(apply Hx)) as (H1 & B1 & c1 & C1 & Z1 & E1). rewrite C1 in *. set (x1 := MUX (bit c1) (Z.shiftr x 16) x) in *. clearbody x1.
  destruct (bl_step x1 1 8 0x00FF H1 ltac:(lia) eq_refl ltac:(lia) ltac:(exact B1)) as (H2 & B2 & c2 & C2 & Z2 & E2). rewrite C2 in *. set (x2 := MUX (bit c2) (Z.shiftr x1 8) x1) in *. clearbody x2.
  destruct (bl_step x2 1 4 0x000F H2 ltac:(lia) eq_refl ltac:(lia) ltac:(exact B2)) as (H3 & B3 & c3 & C3 & Z3 & E3). rewrite C3 in *. set (x3 := MUX (bit c3) (Z.shiftr x2 4) x2) in *. clearbody x3.
  destruct (bl_step x3 1 2 0x0003 H3 ltac:(lia) eq_refl ltac:(lia) ltac:(exact B3)) as (H4 & B4 & c4 & C4 & Z4 & E4). rewrite C4 in *. set (x4 := MUX (bit c4) (Z.shiftr x3 2) x3) in *. clearbody x4.
  rewrite !shl_bit by lia. rewrite GT_spec by (try exact H4; unfold w32; rewrite B_val; lia).
  rewrite Z1, Z2, Z3, Z4, E1, E2, E3, E4. clear - H4 B4. red in H4. change (2 ^ 2) with 4 in B4. change (2 ^ 4) with 16. change (2 ^ 3) with 8. change (2 ^ 2) with 4. change (2 ^ 1) with 2.
  assert (X : x4 = 0 \/ x4 = 1 \/ x4 = 2 \/ x4 = 3) by lia. rewrite B_val.
  destruct X as [->|[->|[->| ->]]]; destruct c1, c2, c3, c4; reflexivity.
Qed.
