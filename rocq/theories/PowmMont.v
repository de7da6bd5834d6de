(** Proofs about c/powm.h: Montgomery multiplication, the exponentiation loop and the whole computation. *)
From Coq Require Import List ZArith Znumtheory Bool Lia.
From Verif Require Import Outcome UtilsModel UtilsSpec UtilsProofs RsaModel RsaSpec RsaProofs ShaModel ShaProofs BitLemmas WordsModel WordsSpec WordsProofs PowmModel PowmProofs PowmArith PowmReduce PowmConv.
Import ListNotations.
Open Scope Z_scope.

(** ** Congruences *)
Definition cong (n a b : Z) : Prop := exists k, a = b + k * n.
Lemma cong_refl n a : cong n a a. Proof. exists 0. ring. Qed.
Lemma cong_sym n a b : cong n a b -> cong n b a. Proof. intros [k ->]. exists (- k). ring. Qed.
Lemma cong_trans n a b c : cong n a b -> cong n b c -> cong n a c.
Proof. intros [k ->] [j ->]. exists (k + j). ring. Qed.
Lemma cong_mul n a b c d : cong n a b -> cong n c d -> cong n (a * c) (b * d).
Proof. intros [k ->] [j ->]. exists (b * j + k * d + k * j * n). ring. Qed.
Lemma cong_add n a b c d : cong n a b -> cong n c d -> cong n (a + c) (b + d).
Proof. intros [k ->] [j ->]. exists (k + j). ring. Qed.
Lemma cong_cancel n r a b : rel_prime n r -> cong n (r * a) (r * b) -> cong n a b.
Proof.
  intros H [k E]. assert (D : (n | r * (a - b))) by (exists k; lia). apply Gauss in D; [|exact H]. destruct D as [j Ej]. exists j. lia.
Qed.
Lemma cong_mod n a b : 0 < n -> cong n a b -> a mod n = b mod n.
Proof. intros Hn [k ->]. apply Z_mod_plus_full. Qed.
Lemma mod_cong n a : 0 < n -> cong n (a mod n) a.
Proof. intros Hn. exists (- (a / n)). pose proof (Z.div_mod a n ltac:(lia)). lia. Qed.

(** ** Subtraction and comparison *)
Lemma s64_small x : - 2 ^ 63 <= x < 2 ^ 63 -> s64 x = x.
Proof.
  intros H. unfold s64. cbv zeta. rewrite W64_val, B_val. change (2 ^ 63) with 9223372036854775808 in *. destruct (Z.le_gt_cases 0 x).
  - rewrite Z.mod_small by lia. rewrite (proj2 (Z.ltb_lt _ _)) by lia. reflexivity.
  - replace (x mod (4294967296 * 4294967296)) with (x + 4294967296 * 4294967296) by (apply (Z.mod_unique_pos _ _ (-1)); lia). rewrite (proj2 (Z.ltb_ge _ _)) by lia. lia.
Qed.
Lemma s64_mod x y : s64 (x + y mod W64) = s64 (x + y).
Proof. unfold s64. rewrite Z.add_mod_idemp_r by (rewrite W64_val, B_val; lia). reflexivity. Qed.
Lemma sub_modulus_spec num : forall n acc, all_words num -> all_words n -> length num = length n -> -1 <= acc <= 0 ->
  all_words (sub_modulus num n acc) /\ length (sub_modulus num n acc) = length num /\
  exists c, eval (sub_modulus num n acc) = eval num - eval n + acc + c * Bn (length num).
Proof.
  induction num as [|a num IH]; intros [|m n] acc Hx Hn HL Hc; try discriminate HL; cbn [sub_modulus length].
  - split; [apply words_nil|]. split; [reflexivity|]. exists (- acc). rewrite eval_nil, Bn_0. lia.
  - apply words_cons in Hx as [Ha Hx]. apply words_cons in Hn as [Hm Hn]. cbn [length] in HL. pose proof B_pos.
    rewrite s64_mod. rewrite s64_small by (change (2 ^ 63) with 9223372036854775808; rewrite B_val in *; lia). set (v := acc + (a - m)).
    rewrite Z.shiftr_div_pow2 by lia. rewrite <- B32. pose proof (Z.div_mod v B ltac:(lia)) as D. pose proof (Z.mod_pos_bound v B ltac:(lia)) as M.
    assert (Hv : -1 <= v / B <= 0) by (unfold v in *; split; nia).
    destruct (IH n (v / B) Hx Hn ltac:(lia) Hv) as (I1 & I2 & c & I3). split; [apply words_cons; split; [exact M|exact I1]|]. split; [lia|]. exists c.
    rewrite !eval_cons, I3, Bn_S. unfold v in *. lia.
Qed.
Lemma ge_top_spec a : forall b, length a = length b -> ge_top a b = cmp_ge_top a b.
Proof.
  induction a as [|x a IH]; intros [|y b] HL; try discriminate HL; [reflexivity|]. cbn [ge_top cmp_ge_top]. cbn [length] in HL. rewrite IH by lia.
  rewrite Z.gtb_ltb. destruct (Z.ltb_spec x y), (Z.ltb_spec y x); try reflexivity; lia.
Qed.

Lemma greater_equal_modulus_spec n num : all_words n -> all_words num -> length num = length n -> greater_equal_modulus n num = (eval n <=? eval num).
Proof.
  intros Hn Hx HL. unfold greater_equal_modulus. rewrite ge_top_spec by (rewrite !rev_length; exact HL). change (cmp_ge_top (rev num) (rev n)) with (cmp_ge_n num n).
  rewrite cmp_ge_n_spec by assumption. rewrite Z.geb_leb. reflexivity.
Qed.

(** ** One Montgomery step *)
Lemma mont_loop_spec b : forall res n a d0 acc_a acc_b, all_words b -> all_words res -> all_words n -> length res = length b -> length n = length b ->
  w32 a -> w32 d0 -> 0 <= acc_a < W64 -> 0 <= acc_b < W64 ->
  let '(r, acc_a', acc_b') := mont_loop b res n a d0 acc_a acc_b in
  all_words r /\ length r = length b /\ 0 <= acc_a' < W64 /\ 0 <= acc_b' < W64 /\
  eval r + Bn (length b) * (acc_a' / B + acc_b' / B) = acc_a / B + acc_b / B + a * eval b + eval res + d0 * eval n.
Proof.
  induction b as [|bi b IH]; intros [|ri res] [|ni n] a d0 acc_a acc_b Hb Hr Hn L1 L2 Ha Hd Ba Bb; try discriminate L1; try discriminate L2; cbn [mont_loop length].
  - split; [apply words_nil|]. split; [reflexivity|]. split; [exact Ba|]. split; [exact Bb|]. rewrite !eval_nil, Bn_0. ring.
  - apply words_cons in Hb as [Hb1 Hb]. apply words_cons in Hr as [Hr1 Hr]. apply words_cons in Hn as [Hn1 Hn]. cbn [length] in L1, L2. pose proof B_pos as BP. red in Ha, Hd.
    rewrite !Z.shiftr_div_pow2 by lia. rewrite <- B32.
    assert (Ca : 0 <= acc_a / B < B) by (rewrite W64_val in Ba; split; [apply Z.div_pos; lia|apply Z.div_lt_upper_bound; lia]).
    assert (Cb : 0 <= acc_b / B < B) by (rewrite W64_val in Bb; split; [apply Z.div_pos; lia|apply Z.div_lt_upper_bound; lia]).
    set (ca := acc_a / B) in *. set (cb := acc_b / B) in *. clearbody ca cb.
    rewrite (Z.mod_small (ca + a * bi + ri) W64) by (rewrite W64_val; nia). set (va := ca + a * bi + ri). assert (Hva : 0 <= va < W64) by (unfold va; rewrite W64_val; nia).
    pose proof (Z.mod_pos_bound va B ltac:(lia)) as Ma. pose proof (Z.div_mod va B ltac:(lia)) as Da.
    rewrite (Z.mod_small (cb + d0 * ni + va mod B) W64) by (rewrite W64_val; nia). set (vb := cb + d0 * ni + va mod B). assert (Hvb : 0 <= vb < W64) by (unfold vb; rewrite W64_val; nia).
    pose proof (Z.mod_pos_bound vb B ltac:(lia)) as Mb. pose proof (Z.div_mod vb B ltac:(lia)) as Db.
    specialize (IH res n a d0 va vb Hb Hr Hn ltac:(lia) ltac:(lia) Ha Hd Hva Hvb). destruct (mont_loop b res n a d0 va vb) as [[r a'] b']. destruct IH as (I1 & I2 & I3 & I4 & I5).
    split; [apply words_cons; split; [exact Mb|exact I1]|]. split; [cbn; lia|]. split; [exact I3|]. split; [exact I4|].
    rewrite !eval_cons, Bn_S. replace (vb mod B + B * eval r + B * Bn (length b) * (a' / B + b' / B)) with (vb mod B + B * (eval r + Bn (length b) * (a' / B + b' / B))) by ring. rewrite I5.
    assert (Eva : va = ca + a * bi + ri) by reflexivity. assert (Evb : vb = cb + d0 * ni + va mod B) by reflexivity. clear -Eva Evb Da Db.
    replace (a * (bi + B * eval b)) with (a * bi + B * (a * eval b)) by ring. replace (d0 * (ni + B * eval n)) with (d0 * ni + B * (d0 * eval n)) by ring. lia.
Qed.
Lemma mont_bound T r a b n Q : B * T <= r + a * b + (B - 1) * n -> 0 <= r < Q -> 0 <= b < Q -> 0 <= a < B -> 0 < n -> T < Q + n.
Proof.
  intros H Hr Hb Ha Hn. assert (A : a * b <= (B - 1) * b) by (apply Z.mul_le_mono_nonneg_r; lia). assert (A2 : (B - 1) * b <= (B - 1) * (Q - 1)) by (apply Z.mul_le_mono_nonneg_l; lia).
  pose proof B_pos. assert (B * T < B * (Q + n)) by lia. nia.
Qed.
Section Montgomery.
Variables (nw : list Z) (n0inv : Z).
Hypothesis Wn : all_words nw.
Hypothesis Hinv : w32 n0inv /\ (nth 0 nw 0 * n0inv + 1) mod B = 0.
Hypothesis Hpos : 0 < eval nw.
Let L := length nw.
Let n := eval nw.
Let R := Bn L.
Lemma mont_step_spec res a b : all_words res -> length res = L -> w32 a -> all_words b -> length b = L ->
  exists r, mont_step nw n0inv res a b = Ok r /\ all_words r /\ length r = L /\ cong n (B * eval r) (eval res + a * eval b) /\
    B * eval r <= eval res + a * eval b + (B - 1) * n.
Proof.
  intros Hr Lr Ha Hb Lb. unfold L, n, R in *. clear L n R. destruct nw as [|n0 nt]; [rewrite eval_nil in Hpos; lia|]. destruct b as [|b0 bt]; [discriminate Lb|]. destruct res as [|r0 rt]; [discriminate Lr|].
  cbn [length] in Lb, Lr. cbn [nth] in Hinv. destruct Hinv as [Wi Ei]. apply words_cons in Wn as [Hn0 Hnt]. pose proof Hb as Hb'. pose proof Hr as Hr'. apply words_cons in Hb as [Hb0 Hbt]. apply words_cons in Hr as [Hr0 Hrt].
  cbn [mont_step]. pose proof B_pos as BP. red in Ha, Wi. rewrite (Z.mod_small (a * b0 + r0) W64) by (rewrite W64_val; nia). set (va := a * b0 + r0). assert (Hva : 0 <= va < W64) by (unfold va; rewrite W64_val; nia).
  pose proof (Z.mod_pos_bound va B ltac:(lia)) as Ma. pose proof (Z.div_mod va B ltac:(lia)) as Da.
  set (d0 := (va mod B * n0inv) mod B). assert (Hd : w32 d0) by apply mod_w. pose proof Hd as Hd'. red in Hd'.
  rewrite (Z.mod_small (d0 * n0 + va mod B) W64) by (rewrite W64_val; nia). set (vb := d0 * n0 + va mod B). assert (Hvb : 0 <= vb < W64) by (unfold vb; rewrite W64_val; nia).
  assert (V0 : vb mod B = 0).
  { unfold vb, d0. rewrite <- Z.add_mod_idemp_l, Z.mul_mod_idemp_l, Z.add_mod_idemp_l by lia. replace (va mod B * n0inv * n0 + va mod B) with (va mod B * (n0 * n0inv + 1)) by ring.
    rewrite Z.mul_mod, Ei, Z.mul_0_r by lia. reflexivity. }
  pose proof (Z.div_mod vb B ltac:(lia)) as Db. rewrite V0 in Db.
  assert (E0 : B * (va / B + vb / B) = a * b0 + r0 + d0 * n0) by (assert (vb = d0 * n0 + va mod B) by reflexivity; assert (va = a * b0 + r0) by reflexivity; clear -Da Db H H0; lia).
  assert (EL : length nt = length bt) by (clear -Lb; cbn [length] in Lb; lia). assert (ELr : length rt = length bt) by (clear -Lr Lb; cbn [length] in *; lia). clear Lb Lr.
  clear V0 Da Db Ma Ei Wi. clearbody vb. clearbody d0. clearbody va.
  pose proof (mont_loop_spec bt rt nt a d0 va vb Hbt Hrt Hnt ELr EL Ha Hd Hva Hvb) as ML. destruct (mont_loop bt rt nt a d0 va vb) as [[r a'] b'].
  destruct ML as (I1 & I2 & I3 & I4 & I5).
  rewrite !Z.shiftr_div_pow2 by lia. rewrite <- B32.
  assert (Ca : 0 <= a' / B < B) by (rewrite W64_val in I3; split; [apply Z.div_pos; lia|apply Z.div_lt_upper_bound; lia]).
  assert (Cb : 0 <= b' / B < B) by (rewrite W64_val in I4; split; [apply Z.div_pos; lia|apply Z.div_lt_upper_bound; lia]).
  set (t := a' / B + b' / B) in *. assert (Ht : 0 <= t < 2 * B) by (unfold t; clear -Ca Cb; lia). clearbody t. rewrite (Z.mod_small t W64) by (rewrite W64_val; clear -Ht; rewrite B_val in *; lia).
  pose proof (Z.mod_pos_bound t B ltac:(lia)) as Mt. pose proof (Z.div_mod t B ltac:(lia)) as Dt.
  assert (Ct : t / B = 0 \/ t / B = 1) by (clear -Mt Dt Ht BP; nia).
  clear I3 I4 Hva Hvb Ca Cb. set (k := length bt) in *.
  set (w := r ++ [t mod B]). assert (Ww : all_words w) by (apply words_app; split; [exact I1|apply words_cons; split; [exact Mt|apply words_nil]]).
  assert (Lw : length w = S k) by (unfold w; rewrite app_length, I2; cbn [length]; lia).
  assert (Ew : eval w + Bn (S k) * (t / B) = eval r + Bn k * t) by (unfold w; rewrite eval_snoc, I2, Bn_S; fold k; rewrite Dt at 3; ring).
  (* the exact total *)
  set (T := eval r + Bn k * t) in *.
  assert (ET : B * T = eval (r0 :: rt) + a * eval (b0 :: bt) + d0 * eval (n0 :: nt)) by (rewrite I5, !eval_cons; clear -E0; lia).
  pose proof (eval_range _ Ww) as RW. rewrite Lw in RW. pose proof (eval_range _ Hr') as RR. pose proof (eval_range _ Hb') as RB. cbn [length] in RR, RB. rewrite ELr in RR. fold k in RR, RB.
  set (nn := eval (n0 :: nt)) in *. set (bb := eval (b0 :: bt)) in *. set (rr := eval (r0 :: rt)) in *. set (Q := Bn (S k)) in *.
  assert (CT : cong nn (B * T) (rr + a * bb)) by (exists d0; exact ET).
  assert (BT : B * T <= rr + a * bb + (B - 1) * nn) by (rewrite ET; clear -Hd' Hpos; fold nn in Hpos; nia).
  cbn [length]. rewrite EL.
  destruct Ct as [C0|C1].
  - rewrite C0, Z.eqb_refl. exists w. split; [reflexivity|]. split; [exact Ww|]. split; [exact Lw|]. rewrite C0, Z.mul_0_r, Z.add_0_r in Ew. rewrite Ew. split; [exact CT|exact BT].
  - rewrite C1. change (1 =? 0) with false. cbn [negb]. cbv iota. unfold subtract_modulus.
    assert (Wnn : all_words (n0 :: nt)) by (apply words_cons; split; assumption).
    destruct (sub_modulus_spec w (n0 :: nt) 0 Ww Wnn ltac:(rewrite Lw; cbn [length]; lia) ltac:(lia)) as (S1 & S2 & c & S3). fold nn in S3.
    pose proof (eval_range _ S1) as RS. rewrite S2, Lw in RS. rewrite Lw in S3. fold Q in RS, S3. set (s := eval (sub_modulus w (n0 :: nt) 0)) in *.
    assert (TQ : T = eval w + Q) by lia.
    assert (NQ : nn < Q) by (pose proof (eval_range _ Wnn) as X; cbn [length] in X; rewrite EL in X; fold nn Q in X; lia).
    assert (TU : T < Q + nn) by (apply (mont_bound T rr a bb nn Q); [exact BT|exact RR|exact RB|exact Ha|exact Hpos]).
    assert (Es : s = T - nn) by (apply (congr_eq s (T - nn) (c - 1) Q); [exact RS|clear -TQ NQ TU RW; lia|rewrite S3, TQ; ring]).
    exists (sub_modulus w (n0 :: nt) 0). split; [reflexivity|]. split; [exact S1|]. split; [rewrite S2; exact Lw|]. fold s. rewrite Es. split.
    + apply cong_trans with (B * T); [exists (- B); ring|exact CT].
    + assert (0 <= B * nn) by (apply Z.mul_nonneg_nonneg; [lia|fold nn in Hpos; lia]). replace (B * (T - nn)) with (B * T - B * nn) by ring. clear -BT H. lia.
Qed.
Lemma mont_rows_spec a : forall res b, all_words res -> length res = L -> all_words a -> all_words b -> length b = L ->
  exists r, mont_rows nw n0inv res a b = Ok r /\ all_words r /\ length r = L /\ cong n (Bn (length a) * eval r) (eval res + eval a * eval b) /\
    (eval b < n -> eval res < eval b + n -> eval r < eval b + n).
Proof.
  induction a as [|a1 a IH]; intros res b Hr Lr Ha Hb Lb; cbn [mont_rows length].
  - exists res. split; [reflexivity|]. split; [exact Hr|]. split; [exact Lr|]. split; [exists 0; rewrite Bn_0, eval_nil; ring|]. intros _ H. exact H.
  - apply words_cons in Ha as [Ha1 Ha]. destruct (mont_step_spec res a1 b Hr Lr Ha1 Hb Lb) as (r & S1 & S2 & S3 & S4 & S5). rewrite S1. cbn [bind].
    destruct (IH r b S2 S3 Ha Hb Lb) as (r' & I1 & I2 & I3 & I4 & I5). exists r'. split; [exact I1|]. split; [exact I2|]. split; [exact I3|]. split.
    + rewrite Bn_S, eval_cons. replace (B * Bn (length a) * eval r') with (B * (Bn (length a) * eval r')) by ring.
      apply cong_trans with (B * (eval r + eval a * eval b)); [apply cong_mul; [apply cong_refl|exact I4]|].
      replace (B * (eval r + eval a * eval b)) with (B * eval r + B * eval a * eval b) by ring. replace (eval res + (a1 + B * eval a) * eval b) with (eval res + a1 * eval b + B * eval a * eval b) by ring.
      apply cong_add; [exact S4|apply cong_refl].
    + intros H1 H2. apply I5; [exact H1|]. pose proof B_pos. pose proof (eval_range b Hb). assert (a1 * eval b <= (B - 1) * eval b) by (apply Z.mul_le_mono_nonneg_r; lia). nia.
Qed.
End Montgomery.
