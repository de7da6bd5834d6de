(** Proofs about c/powm.h: word division, the i32 additions and subtractions, [br_i32_muladd_small]
    and [br_i32_reduce]. *)
From Coq Require Import List ZArith Bool Lia.
From Verif Require Import Outcome UtilsModel UtilsSpec UtilsProofs RsaModel RsaSpec RsaProofs ShaModel ShaProofs BitLemmas WordsModel WordsSpec WordsProofs PowmModel PowmProofs.
Import ListNotations.
Open Scope Z_scope.

Lemma bit_lor a b : Z.lor (bit a) (bit b) = bit (a || b).
Proof. destruct a, b; reflexivity. Qed.
Lemma bit_land a b : Z.land (bit a) (bit b) = bit (a && b).
Proof. destruct a, b; reflexivity. Qed.
Lemma not32_land a b : Z.land (not32 (bit a)) (bit b) = bit (negb a && b).
Proof. destruct a, b; reflexivity. Qed.

(** ** [br_divrem] *)
Lemma shr_V hi lo k : 0 <= k <= 32 -> 0 <= hi -> 0 <= lo < B -> (hi * B + lo) / 2 ^ k = hi * 2 ^ (32 - k) + lo / 2 ^ k.
Proof.
  intros Hk Hh Hl. replace (hi * B) with (hi * 2 ^ (32 - k) * 2 ^ k).
  - rewrite Z.div_add_l by (pose proof (Z.pow_pos_nonneg 2 k); lia). reflexivity.
  - rewrite B32, <- Z.mul_assoc, <- Z.pow_add_r by lia. repeat f_equal. lia.
Qed.
Lemma div_ge V P d : 0 < P -> d <= V / P -> d * P <= V.
Proof. intros HP H. pose proof (Z.mul_div_le V P HP). nia. Qed.
Lemma div_lt V P d : 0 < P -> V / P < d -> V < d * P.
Proof. intros HP H. pose proof (Z.mul_succ_div_gt V P HP). nia. Qed.
Lemma divrem_step_spec d hi lo q k : 0 < d < B -> w32 hi -> w32 lo -> 1 <= k <= 31 -> 0 <= q < B -> (2 ^ (k + 1) | q) ->
  hi * B + lo < d * 2 ^ (k + 1) ->
  let '(hi', lo', q') := divrem_step d (hi, lo, q) k in
  w32 hi' /\ w32 lo' /\ 0 <= q' < B /\ (2 ^ k | q') /\ hi' * B + lo' < d * 2 ^ k /\ hi' * B + lo' + d * q' = hi * B + lo + d * q.
Proof.
  intros Hd Hhi Hlo Hk Hq Dq HV. unfold divrem_step. cbv zeta.
  assert (P : 2 ^ k * 2 ^ (32 - k) = B) by (rewrite <- Z.pow_add_r, B32 by lia; f_equal; lia).
  pose proof (Z.pow_pos_nonneg 2 k ltac:(lia) ltac:(lia)) as Pk. pose proof (Z.pow_pos_nonneg 2 (32 - k) ltac:(lia) ltac:(lia)) as Pj.
  rewrite Z.pow_add_r in HV, Dq by lia. change (2 ^ 1) with 2 in HV, Dq.
  set (V := hi * B + lo) in *. set (T := V / 2 ^ k). red in Hhi, Hlo.
  assert (ET : T = hi * 2 ^ (32 - k) + lo / 2 ^ k) by (apply shr_V; lia).
  assert (HT : 0 <= T < 2 * d) by (split; [apply Z.div_pos; nia|apply Z.div_lt_upper_bound; nia]).
  assert (Hlk : 0 <= lo / 2 ^ k < 2 ^ (32 - k)) by (split; [apply Z.div_pos; lia|apply Z.div_lt_upper_bound; nia]).
  assert (Ew : Z.lor (Z.shiftl hi (32 - k) mod B) (Z.shiftr lo k) = T mod B).
  { rewrite Z.shiftl_mul_pow2, Z.shiftr_div_pow2 by lia. replace (hi * 2 ^ (32 - k) mod B) with ((hi mod 2 ^ k) * 2 ^ (32 - k)).
    2:{ rewrite <- P. rewrite Z.mul_mod_distr_r by lia. reflexivity. }
    rewrite lor_mul_add by lia. rewrite ET. pose proof (Z.div_mod hi (2 ^ k) ltac:(lia)) as Dh. pose proof (Z.mod_pos_bound hi (2 ^ k) ltac:(lia)) as Mh.
    apply (Z.mod_unique _ _ (hi / 2 ^ k)); [left; nia|]. rewrite Dh at 1. rewrite <- P. ring. }
  rewrite Ew. clear Ew. set (w := T mod B). assert (Hw : w32 w) by apply mod_w.
  rewrite GE_spec by (try exact Hw; split; lia).
  assert (Ehk : Z.shiftr hi k = T / B).
  { rewrite Z.shiftr_div_pow2 by lia. unfold T. rewrite Z.div_div by lia. replace (2 ^ k * B) with (B * 2 ^ k) by ring. rewrite <- Z.div_div by lia. f_equal.
    apply (Z.div_unique V B hi lo); [left; lia|unfold V; ring]. }
  assert (Cs : (T < B /\ w = T /\ Z.shiftr hi k = bit false) \/ (B <= T /\ w = T - B /\ Z.shiftr hi k = bit true)).
  { rewrite Ehk. unfold w. destruct (Z.lt_ge_cases T B).
    - left. rewrite Z.mod_small, Z.div_small by lia. auto.
    - right. split; [lia|]. split; [symmetry; apply (Z.mod_unique _ _ 1); lia|symmetry; apply (Z.div_unique _ _ 1 (T - B)); lia]. }
  assert (Ec : Z.lor (bit (d <=? w)) (Z.shiftr hi k) = bit (d <=? T)).
  { destruct Cs as [(C1 & C2 & C3)|(C1 & C2 & C3)]; rewrite C3, bit_lor; f_equal.
    - rewrite C2. apply orb_false_r.
    - rewrite orb_true_r. symmetry. apply Z.leb_le. lia. }
  rewrite Ec. clear Ec.
  assert (Mw : (w - d) mod B = (T - d) mod B) by (unfold w; apply Zminus_mod_idemp_l).
  rewrite !MUX_spec by (try (apply shr_w; [apply mod_w|lia]); try apply mod_w; assumption).
  assert (El : (lo - Z.shiftl d k mod B) mod B = (V - d * 2 ^ k) mod B).
  { rewrite Zminus_mod_idemp_r, Z.shiftl_mul_pow2 by lia. unfold V. rewrite <- (Z_mod_plus_full (lo - d * 2 ^ k) hi B). f_equal. ring. }
  assert (EV : V = hi * B + lo) by reflexivity. assert (TV : T = V / 2 ^ k) by reflexivity. clear Cs Ehk ET Hlk Hw. clearbody w.
  rewrite El, Mw. clear El Mw. clearbody T. clearbody V. rewrite (Z.shiftl_mul_pow2 _ k) by lia. destruct (Z.leb_spec d T) as [G|L]; cbn [bit Z.b2z].
  - assert (GV : d * 2 ^ k <= V). { apply div_ge; [exact Pk|rewrite <- TV; exact G]. }
    rewrite (Z.mod_small (T - d)) by lia.
    assert (Eh : Z.shiftr (T - d) (32 - k) = (V - d * 2 ^ k) / B).
    { rewrite Z.shiftr_div_pow2 by lia. rewrite <- P. rewrite <- Z.div_div by lia. f_equal. replace (V - d * 2 ^ k) with (V + (- d) * 2 ^ k) by ring. rewrite Z.div_add by lia. rewrite TV. lia. }
    rewrite Eh. pose proof (Z.div_mod (V - d * 2 ^ k) B ltac:(lia)) as D. pose proof (Z.mod_pos_bound (V - d * 2 ^ k) B ltac:(lia)) as M.
    assert (q < B - 2 ^ k).
    { destruct Dq as [c ->]. rewrite <- P in *. assert (Pj2 : 2 ^ (32 - k) = 2 * 2 ^ (31 - k)) by (rewrite <- (Z.pow_succ_r 2 (31 - k)) by lia; f_equal; lia). rewrite Pj2 in *.
      pose proof (Z.pow_pos_nonneg 2 (31 - k) ltac:(lia) ltac:(lia)). assert (c < 2 ^ (31 - k)) by nia. nia. }
    assert (Eq : Z.lor q (1 * 2 ^ k mod B) = q + 2 ^ k).
    { rewrite Z.mod_small by nia. destruct Dq as [c ->]. replace (c * (2 ^ k * 2)) with (c * 2 ^ (k + 1)) by (rewrite Z.pow_add_r by lia; ring).
      rewrite lor_mul_add; [ring|lia|]. rewrite Z.pow_add_r by lia. change (2 ^ 1) with 2. lia. }
    rewrite Eq. split; [split; [apply Z.div_pos; lia|apply Z.div_lt_upper_bound; [lia|]]|]. { assert (d * 2 ^ k < B * 2 ^ k) by nia. assert (2 ^ k <= B) by nia. nia. }
    split; [exact M|]. split; [lia|]. split; [destruct Dq as [c ->]; exists (c * 2 + 1); ring|]. split; [nia|nia].
  - assert (LV : V < d * 2 ^ k). { apply div_lt; [exact Pk|rewrite <- TV; exact L]. }
    rewrite Z.mul_0_l, Zmod_0_l, Z.lor_0_r. split; [exact Hhi|]. split; [exact Hlo|]. split; [exact Hq|]. split; [destruct Dq as [c ->]; exists (c * 2); ring|]. split; [rewrite <- EV; exact LV|rewrite EV; reflexivity].
Qed.
Lemma divrem_fold d n : (n <= 31)%nat -> 0 < d < B -> forall hi lo q, w32 hi -> w32 lo -> 0 <= q < B -> (2 ^ (Z.of_nat n + 1) | q) ->
  hi * B + lo < d * 2 ^ (Z.of_nat n + 1) ->
  let '(hi', lo', q') := fold_left (divrem_step d) (map Z.of_nat (rev (seq 1 n))) (hi, lo, q) in
  w32 hi' /\ w32 lo' /\ 0 <= q' < B /\ (2 | q') /\ hi' * B + lo' < d * 2 /\ hi' * B + lo' + d * q' = hi * B + lo + d * q.
Proof.
  intros Hn Hd. induction n as [|n IH]; intros hi lo q Hhi Hlo Hq Dq HV.
  - cbn [seq rev map fold_left]. auto 8.
  - rewrite seq_S, rev_app_distr. cbn [rev app map fold_left]. replace (Z.of_nat (1 + n)) with (Z.of_nat (S n)) by lia.
    pose proof (divrem_step_spec d hi lo q (Z.of_nat (S n)) Hd Hhi Hlo ltac:(lia) Hq Dq HV) as S1.
    destruct (divrem_step d (hi, lo, q) (Z.of_nat (S n))) as [[hi' lo'] q']. destruct S1 as (S1 & S2 & S3 & S4 & S5 & S6).
    replace (Z.of_nat (S n)) with (Z.of_nat n + 1) in S4, S5 by lia.
    specialize (IH ltac:(lia) hi' lo' q' S1 S2 S3 S4 S5).
    destruct (fold_left (divrem_step d) (map Z.of_nat (rev (seq 1 n))) (hi', lo', q')) as [[hi2 lo2] q2]. destruct IH as (I1 & I2 & I3 & I4 & I5 & I6). repeat (split; [assumption|]). lia.
Qed.
Lemma br_divrem_w hi lo d : 0 < d < B -> w32 lo -> 0 <= hi <= d ->
  br_divrem hi lo d = let h := if hi =? d then 0 else hi in ((h * B + lo) / d, (h * B + lo) mod d).
Proof.
  intros Hd Hlo Hhi. unfold br_divrem. cbv zeta. rewrite EQ_spec by (split; lia). rewrite MUX_spec by (split; lia).
  set (h := if hi =? d then 0 else hi). assert (Hh : 0 <= h < d) by (unfold h; destruct (Z.eqb_spec hi d); lia).
  pose proof (divrem_fold d 31 ltac:(lia) Hd h lo 0 ltac:(split; lia) Hlo ltac:(lia) ltac:(exists 0; reflexivity)) as F. change (Z.of_nat 31 + 1) with 32 in F. rewrite <- B32 in F.
  specialize (F ltac:(red in Hlo; nia)). destruct (fold_left (divrem_step d) (map Z.of_nat (rev (seq 1 31))) (h, lo, 0)) as [[hi' lo'] q'].
  destruct F as (F1 & F2 & F3 & F4 & F5 & F6). rewrite GE_spec by (try exact F2; split; lia). red in F1, F2.
  assert (H01 : hi' = 0 \/ hi' = 1) by nia.
  assert (E : Z.lor (bit (d <=? lo')) hi' = bit (d <=? hi' * B + lo')).
  { destruct H01 as [-> | ->].
    - rewrite Z.lor_0_r. reflexivity.
    - change 1 with (bit true). rewrite bit_lor, orb_true_r. f_equal. symmetry. apply Z.leb_le. cbn [bit Z.b2z]. lia. }
  rewrite E. rewrite MUX_spec by (try apply mod_w; split; lia). destruct F4 as [c ->].
  assert (R : forall q r, 0 <= r < d -> h * B + lo = d * q + r -> (q, r) = ((h * B + lo) / d, (h * B + lo) mod d)).
  { intros q r Hr Er. f_equal; [apply (Z.div_unique _ _ _ r); [left; exact Hr|exact Er]|apply (Z.mod_unique _ _ q); [left; exact Hr|exact Er]]. }
  assert (Eq : forall b, Z.lor (c * 2) (bit b) = c * 2 + bit b) by (intros b; apply (lor_mul_add c (bit b) 1); [lia|destruct b; cbn; lia]).
  rewrite Eq. apply R; destruct (Z.leb_spec d (hi' * B + lo')); cbn [bit Z.b2z].
  - rewrite <- (Z_mod_plus_full _ hi'). rewrite Z.mod_small by lia. lia.
  - assert (hi' = 0) by nia. subst hi'. lia.
  - rewrite <- (Z_mod_plus_full (lo' - d) hi'). rewrite Z.mod_small by lia. lia.
  - assert (hi' = 0) by nia. subst hi'. lia.
Qed.
Lemma br_divrem_spec hi lo d : 0 < d < B -> w32 lo -> 0 <= hi < d -> br_divrem hi lo d = ((hi * B + lo) / d, (hi * B + lo) mod d).
Proof. intros Hd Hlo Hhi. rewrite br_divrem_w by (try assumption; lia). cbv zeta. rewrite (proj2 (Z.eqb_neq hi d)) by lia. reflexivity. Qed.

(** ** Conditional addition and subtraction *)
Lemma add_ctl_spec a : forall b ctl cc, all_words a -> all_words b -> length a = length b ->
  let '(r, c) := add_ctl a b (bit ctl) (bit cc) in
  all_words r /\ length r = length a /\ exists c', c = bit c' /\
  eval r = if ctl then eval a + eval b + bit cc - bit c' * Bn (length a) else eval a.
Proof.
  induction a as [|aw a IH]; intros [|bw b] ctl cc Ha Hb HL; try discriminate HL; cbn [add_ctl length].
  - split; [constructor|]. split; [reflexivity|]. exists cc. split; [reflexivity|]. rewrite eval_nil, Bn_0. destruct ctl; lia.
  - apply words_cons in Ha as [Ha1 Ha]. apply words_cons in Hb as [Hb1 Hb]. cbn [length] in HL.
    set (naw := (aw + bw + bit cc) mod B). assert (Hn : w32 naw) by apply mod_w.
    rewrite EQ_spec, LT_spec by assumption. rewrite bit_land, bit_lor. set (cc' := (cc && (naw =? aw) || (naw <? aw))%bool).
    assert (E : naw = aw + bw + bit cc - bit cc' * B).
    { unfold cc', naw. assert (BC : 0 <= bit cc <= 1) by (destruct cc; cbn; lia). destruct (Z.lt_ge_cases (aw + bw + bit cc) B).
      - rewrite Z.mod_small by lia. destruct cc; cbn [bit Z.b2z andb orb] in *.
        + rewrite (proj2 (Z.eqb_neq _ _)) by lia. rewrite (proj2 (Z.ltb_ge _ _)) by lia. cbn [orb bit Z.b2z]. lia.
        + rewrite (proj2 (Z.ltb_ge _ _)) by lia. cbn [orb bit Z.b2z]. lia.
      - replace ((aw + bw + bit cc) mod B) with (aw + bw + bit cc - B) by (apply (Z.mod_unique _ _ 1); lia).
        destruct cc; cbn [bit Z.b2z andb orb] in *.
        + destruct (Z.eqb_spec (aw + bw + 1 - B) aw); cbn [orb bit Z.b2z]; [lia|]. rewrite (proj2 (Z.ltb_lt _ _)) by lia. cbn [orb bit Z.b2z]. lia.
        + rewrite (proj2 (Z.ltb_lt _ _)) by lia. cbn [orb bit Z.b2z]. lia. }
    specialize (IH b ctl cc' Ha Hb ltac:(lia)). destruct (add_ctl a b (bit ctl) (bit cc')) as [r c]. destruct IH as (I1 & I2 & c' & I3 & I4).
    split; [apply words_cons; split; [apply MUX_w; assumption|exact I1]|]. split; [cbn; lia|]. exists c'. split; [exact I3|].
    rewrite MUX_spec by assumption. rewrite !eval_cons, I4, Bn_S. destruct ctl; [rewrite E; ring|reflexivity].
Qed.
Lemma sub_ctl_spec a : forall b ctl cc, all_words a -> all_words b -> length a = length b ->
  let '(r, c) := sub_ctl a b (bit ctl) (bit cc) in
  all_words r /\ length r = length a /\ exists c', c = bit c' /\
  eval r = if ctl then eval a - eval b - bit cc + bit c' * Bn (length a) else eval a.
Proof.
  induction a as [|aw a IH]; intros [|bw b] ctl cc Ha Hb HL; try discriminate HL; cbn [sub_ctl length].
  - split; [constructor|]. split; [reflexivity|]. exists cc. split; [reflexivity|]. rewrite eval_nil, Bn_0. destruct ctl; lia.
  - apply words_cons in Ha as [Ha1 Ha]. apply words_cons in Hb as [Hb1 Hb]. cbn [length] in HL.
    set (naw := (aw - bw - bit cc) mod B). assert (Hn : w32 naw) by apply mod_w.
    rewrite EQ_spec, GT_spec by assumption. rewrite bit_land, bit_lor. set (cc' := (cc && (naw =? aw) || (aw <? naw))%bool).
    assert (E : naw = aw - bw - bit cc + bit cc' * B).
    { unfold cc', naw. assert (BC : 0 <= bit cc <= 1) by (destruct cc; cbn; lia). destruct (Z.le_gt_cases 0 (aw - bw - bit cc)).
      - rewrite Z.mod_small by lia. destruct cc; cbn [bit Z.b2z andb orb] in *.
        + rewrite (proj2 (Z.eqb_neq _ _)) by lia. rewrite (proj2 (Z.ltb_ge _ _)) by lia. cbn [orb bit Z.b2z]. lia.
        + rewrite (proj2 (Z.ltb_ge _ _)) by lia. cbn [orb bit Z.b2z]. lia.
      - replace ((aw - bw - bit cc) mod B) with (aw - bw - bit cc + B) by (apply (Z.mod_unique _ _ (-1)); lia).
        destruct cc; cbn [bit Z.b2z andb orb] in *.
        + destruct (Z.eqb_spec (aw - bw - 1 + B) aw); cbn [orb bit Z.b2z]; [lia|]. rewrite (proj2 (Z.ltb_lt _ _)) by lia. cbn [orb bit Z.b2z]. lia.
        + rewrite (proj2 (Z.ltb_lt _ _)) by lia. cbn [orb bit Z.b2z]. lia. }
    specialize (IH b ctl cc' Ha Hb ltac:(lia)). destruct (sub_ctl a b (bit ctl) (bit cc')) as [r c]. destruct IH as (I1 & I2 & c' & I3 & I4).
    split; [apply words_cons; split; [apply MUX_w; assumption|exact I1]|]. split; [cbn; lia|]. exists c'. split; [exact I3|].
    rewrite MUX_spec by assumption. rewrite !eval_cons, I4, Bn_S. destruct ctl; [rewrite E; ring|reflexivity].
Qed.
Lemma word_count_spec h : 0 <= h -> h + 63 < B -> word_count h = Z.to_nat ((h + 31) / 32).
Proof.
  intros H1 H2. unfold word_count. rewrite Z.mod_small, Z.shiftr_div_pow2 by lia. change (2 ^ 5) with 32. replace (h + 63) with (h + 31 + 1 * 32) by ring.
  rewrite Z.div_add by lia. assert (0 <= (h + 31) / 32) by (apply Z.div_pos; lia). lia.
Qed.
Lemma take_app n (l r : list Z) : length l = n -> take n (l ++ r) = Ok l.
Proof.
  intros <-. unfold take. rewrite (proj2 (Nat.leb_le _ _)) by (rewrite app_length; lia). rewrite firstn_app, firstn_all, Nat.sub_diag. cbn [firstn]. rewrite app_nil_r. reflexivity.
Qed.
Lemma take_all n (l : list Z) : length l = n -> take n l = Ok l.
Proof. intros <-. unfold take. rewrite Nat.leb_refl, firstn_all. reflexivity. Qed.
Lemma skipn_app_len {A} n (l r : list A) : length l = n -> skipn n (l ++ r) = r.
Proof. intros <-. rewrite skipn_app, skipn_all, Nat.sub_diag. reflexivity. Qed.
(** the two functions, on an array [xw ++ rest] holding a number of the same announced length as [mw] *)
Lemma br_i32_add_spec h xw rest m mw ctl : 0 <= h -> h + 63 < B -> length xw = Z.to_nat ((h + 31) / 32) -> length mw = length xw -> snd m = mw -> all_words xw -> all_words mw ->
  exists r c, br_i32_add (h, xw ++ rest) m (bit ctl) = Ok ((h, r ++ rest), bit c) /\ all_words r /\ length r = length xw /\
    eval r = if ctl then eval xw + eval mw - bit c * Bn (length xw) else eval xw.
Proof.
  intros H1 H2 L1 L2 Em Hx Hm. unfold br_i32_add. cbn [fst snd]. rewrite word_count_spec, <- L1 by assumption.
  rewrite take_app by reflexivity. rewrite Em. rewrite (take_all (length xw) mw L2). cbn [bind].
  pose proof (add_ctl_spec xw mw ctl false Hx Hm (eq_sym L2)) as S. change (bit false) with 0 in S. destruct (add_ctl xw mw (bit ctl) 0) as [r c]. destruct S as (S1 & S2 & c' & -> & S4).
  exists r, c'. rewrite skipn_app_len by reflexivity. split; [reflexivity|]. split; [exact S1|]. split; [exact S2|]. rewrite S4. destruct ctl; [ring|reflexivity].
Qed.
Lemma br_i32_sub_spec h xw rest m mw ctl : 0 <= h -> h + 63 < B -> length xw = Z.to_nat ((h + 31) / 32) -> length mw = length xw -> snd m = mw -> all_words xw -> all_words mw ->
  exists r c, br_i32_sub (h, xw ++ rest) m (bit ctl) = Ok ((h, r ++ rest), bit c) /\ all_words r /\ length r = length xw /\
    eval r = if ctl then eval xw - eval mw + bit c * Bn (length xw) else eval xw.
Proof.
  intros H1 H2 L1 L2 Em Hx Hm. unfold br_i32_sub. cbn [fst snd]. rewrite word_count_spec, <- L1 by assumption.
  rewrite take_app by reflexivity. rewrite Em. rewrite (take_all (length xw) mw L2). cbn [bind].
  pose proof (sub_ctl_spec xw mw ctl false Hx Hm (eq_sym L2)) as S. change (bit false) with 0 in S. destruct (sub_ctl xw mw (bit ctl) 0) as [r c]. destruct S as (S1 & S2 & c' & -> & S4).
  exists r, c'. rewrite skipn_app_len by reflexivity. split; [reflexivity|]. split; [exact S1|]. split; [exact S2|]. rewrite S4. destruct ctl; [ring|reflexivity].
Qed.

(** ** Subtracting a multiple *)
Lemma mul_sub_spec x : forall m q cc tb, all_words x -> all_words m -> length x = length m -> w32 q -> 0 <= cc <= B ->
  let '(r, c, t) := mul_sub x m q cc (bit tb) in
  all_words r /\ length r = length x /\ 0 <= c <= B /\ eval r = eval x - q * eval m - cc + c * Bn (length x) /\
  t = bit (if eval r =? eval m then tb else eval m <? eval r).
Proof.
  induction x as [|xw x IH]; intros [|mw m] q cc tb Hx Hm HL Hq Hc; try discriminate HL; cbn [mul_sub length].
  - split; [constructor|]. split; [reflexivity|]. split; [exact Hc|]. rewrite eval_nil, Bn_0. split; [lia|reflexivity].
  - apply words_cons in Hx as [Hx1 Hx]. apply words_cons in Hm as [Hm1 Hm]. cbn [length] in HL. red in Hq. pose proof B_pos as BP.
    rewrite (Z.mod_small (mw * q + cc) W64) by (rewrite W64_val; nia). set (zl := mw * q + cc).
    rewrite Z.shiftr_div_pow2 by lia. rewrite <- B32.
    assert (Hz : 0 <= zl / B < B) by (split; [apply Z.div_pos; unfold zl; nia|apply Z.div_lt_upper_bound; unfold zl; nia]).
    rewrite (Z.mod_small (zl / B)) by exact Hz. pose proof (Z.div_mod zl B ltac:(lia)) as D. pose proof (Z.mod_pos_bound zl B ltac:(lia)) as M.
    set (zh := zl / B) in *. set (zw := zl mod B) in *. set (nxw := (xw - zw) mod B). assert (Hn : w32 nxw) by apply mod_w.
    rewrite EQ_spec, !GT_spec by (assumption || (split; lia)). rewrite MUX_spec by apply bit_w.
    assert (E : nxw = xw - zw + bit (xw <? nxw) * B).
    { unfold nxw. destruct (Z.le_gt_cases zw xw).
      - rewrite Z.mod_small by lia. rewrite (proj2 (Z.ltb_ge _ _)) by lia. cbn [orb bit Z.b2z]. lia.
      - replace ((xw - zw) mod B) with (xw - zw + B) by (apply (Z.mod_unique _ _ (-1)); lia). rewrite (proj2 (Z.ltb_lt _ _)) by lia. cbn [orb bit Z.b2z]. lia. }
    assert (B01 : 0 <= bit (xw <? nxw) <= 1) by (destruct (xw <? nxw); cbn; lia).
    rewrite (Z.mod_small (zh + _) W64) by (rewrite W64_val; nia). set (c1 := zh + bit (xw <? nxw)) in *.
    replace (if nxw =? mw then bit tb else bit (mw <? nxw)) with (bit (if nxw =? mw then tb else mw <? nxw)) by (destruct (nxw =? mw); reflexivity).
    set (tb' := if nxw =? mw then tb else mw <? nxw).
    specialize (IH m q c1 tb' Hx Hm ltac:(lia) Hq ltac:(unfold c1; lia)). destruct (mul_sub x m q c1 (bit tb')) as [[r c] t]. destruct IH as (I1 & I2 & I3 & I4 & I5).
    split; [apply words_cons; split; [exact Hn|exact I1]|]. split; [cbn; lia|]. split; [exact I3|]. split.
    + rewrite !eval_cons, I4, Bn_S. unfold c1. unfold zl in D. nia.
    + rewrite I5. f_equal. rewrite !eval_cons. red in Hn. unfold tb'.
      destruct (Z.eqb_spec (eval r) (eval m)) as [->|N].
      * destruct (Z.eqb_spec nxw mw) as [->|N2]; [rewrite Z.eqb_refl; reflexivity|]. rewrite (proj2 (Z.eqb_neq (_ + _) _)) by lia.
        destruct (Z.ltb_spec mw nxw); symmetry; [apply Z.ltb_lt; lia|apply Z.ltb_ge; lia].
      * rewrite (proj2 (Z.eqb_neq (_ + _) _)) by nia. destruct (Z.ltb_spec (eval m) (eval r)); symmetry; [apply Z.ltb_lt; nia|apply Z.ltb_ge; nia].
Qed.
