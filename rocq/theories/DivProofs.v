From Coq Require Import List ZArith Bool Lia PeanoNat.
From Coq Require Import ZifyBool ZifyNat ZifyN.
From Verif Require Import Outcome LoopModel LoopProofs BitLemmas WordsModel WordsSpec WordsProofs.
Import ListNotations.
Open Scope Z_scope.

Lemma mul_le_cancel a b m : 0 < m -> a * m < b * m -> a < b.
Proof. intros. nia. Qed.

Lemma snoc_bounds l a : all_words (l ++ [a]) ->
  all_words l /\ 0 <= a < B /\ a * Bn (length l) <= eval (l ++ [a]) < (a + 1) * Bn (length l).
Proof.
  intros H. apply words_app in H as [Hl Ha]. apply words_cons in Ha as [Ha _].
  pose proof (eval_range l Hl). rewrite eval_snoc. repeat split; try assumption; try lia.
Qed.

Lemma last_bounds x : all_words x -> x <> [] ->
  0 <= last x 0 < B /\ last x 0 * Bn (length x - 1) <= eval x < (last x 0 + 1) * Bn (length x - 1).
Proof.
  intros Hx Hn. destruct (exists_snoc x Hn) as (l & a & ->). rewrite last_snoc, app_length.
  cbn [length]. replace (length l + 1 - 1)%nat with (length l) by lia.
  destruct (snoc_bounds l a Hx) as (_ & ? & ?). split; assumption.
Qed.

Lemma removelast_0 x : all_words x -> x <> [] -> last x 0 = 0 ->
  all_words (removelast x) /\ length (removelast x) = (length x - 1)%nat /\ eval (removelast x) = eval x.
Proof.
  intros Hx Hn Hl. destruct (exists_snoc x Hn) as (l & a & ->). rewrite last_snoc in Hl. subst a.
  rewrite removelast_snoc, app_length. apply words_app in Hx as [Hx _]. cbn [length].
  repeat split; [assumption|lia|]. rewrite eval_snoc. lia.
Qed.

Lemma digit_nonneg m P k : 0 <= m < P -> 0 <= m + P * k -> 0 <= k.
Proof. intros. destruct (Z_lt_le_dec k 0); [|assumption]. assert (P * k <= P * -1) by (apply Z.mul_le_mono_nonneg_l; lia). lia. Qed.

(** *** div_small *)
Lemma q_of_spec qn v : (1 <= qn)%nat -> 0 <= v < B ->
  all_words (q_of qn v) /\ length (q_of qn v) = qn /\ eval (q_of qn v) = v.
Proof.
  intros. unfold q_of. repeat split.
  - apply words_cons; split; [assumption|apply words_repeat0].
  - cbn [length]. rewrite repeat_length. lia.
  - rewrite eval_cons, eval_repeat0. lia.
Qed.

Lemma real_size_le x n : all_words x -> x <> [] -> (1 <= n)%nat -> eval x < Bn n -> (get_real_size x <= n)%nat.
Proof.
  intros W N Hn Hlt. destruct (get_real_size_spec x N) as (Hr & Ex & Ht & Er).
  destruct (Nat.le_gt_cases (get_real_size x) n) as [|Hgt]; [assumption|exfalso].
  specialize (Ht ltac:(lia)). set (k := get_real_size x) in *.
  assert (Wf : all_words (firstn k x)) by (apply words_firstn; assumption).
  assert (Lf : length (firstn k x) = k) by (apply firstn_length_le; lia).
  assert (Nf : firstn k x <> []) by (intros C; rewrite C in Lf; cbn in Lf; lia).
  destruct (last_bounds _ Wf Nf) as (R0 & R1). rewrite Lf in R1.
  assert (El : last (firstn k x) 0 = nth (k - 1) x 0).
  { destruct (exists_snoc _ Nf) as (l & a & E). rewrite E, last_snoc.
    assert (Ll : k = S (length l)) by (rewrite <- Lf, E, app_length; cbn; lia).
    rewrite Ex. rewrite E, <- app_assoc, app_nth2 by lia. replace (k - 1 - length l)%nat with 0%nat by lia. reflexivity. }
  rewrite El in *. pose proof (Bn_pos (k - 1)). pose proof (Bn_mono n (k - 1) ltac:(lia)). nia.
Qed.

Definition div_ok (qn xn yn : nat) (X Y : Z) (r : list Z * list Z * nat) : Prop :=
  let '(q, x, rn) := r in
  all_words q /\ length q = qn /\ all_words x /\ (1 <= rn <= length x)%nat /\
  eval q * Y + eval (firstn rn x) = X /\ 0 <= eval (firstn rn x) < Y /\ (length x <= xn)%nat /\ (rn <= yn)%nat.

Lemma div_small_spec qn x y : all_words x -> all_words y -> x <> [] -> y <> [] -> last y 0 <> 0 -> (1 <= qn)%nat ->
  exists o, div_small qn x y = Ok o /\
  match o with
  | None => True
  | Some r => div_ok qn (length x) (length y) (eval x) (eval y) r
  end.
Proof.
  intros Hx Hy Nx Ny Hl Hqn. unfold div_small.
  pose proof B_pos as HB.
  pose proof (eval_range x Hx) as Rx. pose proof (eval_range y Hy) as Ry.
  destruct (last_bounds y Hy Ny) as (Ry0 & Ry1).
  destruct (last_bounds x Hx Nx) as (Rx0 & Rx1).
  assert (Hyp : Bn (length y - 1) <= eval y) by (pose proof (Bn_pos (length y - 1)); nia).
  assert (Lx : (0 < length x)%nat) by (destruct x; [congruence|cbn; lia]).
  assert (Ly : (0 < length y)%nat) by (destruct y; [congruence|cbn; lia]).
  assert (Hdone : forall x' qv, all_words x' -> length x' = length x -> 0 <= qv < B -> qv * eval y + eval x' = eval x -> eval x' < eval y ->
     div_ok qn (length x) (length y) (eval x) (eval y) (q_of qn qv, x', get_real_size x')).
  { intros x' qv W L Hqv E Hlt. unfold div_ok.
    destruct (q_of_spec qn qv Hqn Hqv) as (Wq & Lq & Eq).
    assert (Nx' : x' <> []) by (intros ->; cbn in L; lia).
    destruct (get_real_size_spec x' Nx') as (Hr & _ & _ & Er). rewrite <- Er, Eq.
    pose proof (eval_range x' W). pose proof (real_size_le x' (length y) W Nx' ltac:(lia) ltac:(lia)). repeat split; try assumption; try lia. }
  destruct (Nat.ltb_spec (length y) (length x)) as [H1|H1]; [eexists; split; [reflexivity|exact I]|].
  set (ret := if Nat.ltb (length x) (length y) then -1 else cmp_n x y).
  assert (Hret : (ret < 0 /\ eval x < eval y) \/ (length x = length y /\ ret = 0 /\ eval x = eval y) \/
                 (length x = length y /\ ret = 1 /\ eval y < eval x)).
  { unfold ret. destruct (Nat.ltb_spec (length x) (length y)) as [H2|H2].
    - left. split; [lia|]. apply Z.lt_le_trans with (Bn (length x)); [lia|].
      apply Z.le_trans with (Bn (length y - 1)); [apply Bn_mono; lia|assumption].
    - rewrite cmp_n_spec by (try assumption; lia).
      destruct (Z.compare_spec (eval x) (eval y)); [right; left|left|right; right]; repeat split; lia. }
  destruct Hret as [(Hr & Hc)|[(HL & Hr & Hc)|(HL & Hr & Hc)]].
  - replace (ret <? 0) with true by lia. eexists; split; [reflexivity|]. cbv beta iota.
    apply Hdone; try assumption; try lia; reflexivity.
  - rewrite Hr. cbn [Z.ltb Z.eqb]. change (0 <? 0) with false. cbv iota.
    eexists; split; [reflexivity|]. cbv beta iota.
    apply Hdone; [apply words_repeat0|apply repeat_length| |rewrite eval_repeat0; lia|rewrite eval_repeat0].
    + lia.
    + pose proof (Bn_pos (length y - 1)). lia.
  - rewrite Hr. change (1 <? 0) with false. change (1 =? 0) with false. cbv iota.
    destruct (Z.geb_spec (last y 0) (2 ^ 16)) as [Hbig|Hbig]; [|eexists; split; [reflexivity|exact I]].
    (* initial estimate *)
    assert (Hinit : exists x1 qv,
      (if last y 0 =? B - 1 then (fst (sub_n x y), 1)
       else let qv := last x 0 / ((last y 0 + 1) mod B) in
            let t := fst (mul_word_n y qv) in (fst (sub_n x t), qv)) = (x1, qv) /\
      all_words x1 /\ length x1 = length x /\ 0 <= qv /\ eval x1 + qv * eval y = eval x).
    { destruct (Z.eqb_spec (last y 0) (B - 1)) as [E1|E1].
      - pose proof (sub_n_ge x y Hx Hy HL ltac:(lia)) as H2. destruct (sub_n x y) as [z c]. cbn [fst].
        destruct H2 as (W & L & _ & E). exists z, 1. repeat split; try assumption; lia.
      - rewrite (Z.mod_small (last y 0 + 1)) by lia. cbv zeta.
        set (qv := last x 0 / (last y 0 + 1)).
        assert (Hq : 0 <= qv <= last x 0).
        { unfold qv. split; [apply Z.div_pos; lia|]. apply Z.div_le_upper_bound; nia. }
        assert (Hqy : qv * (last y 0 + 1) <= last x 0).
        { unfold qv. rewrite Z.mul_comm. apply Z.mul_div_le. lia. }
        assert (Hle : qv * eval y <= eval x).
        { rewrite HL in Rx1. pose proof (Bn_pos (length y - 1)) as Hb.
          apply Z.le_trans with (qv * ((last y 0 + 1) * Bn (length y - 1))); [apply Z.mul_le_mono_nonneg_l; lia|].
          apply Z.le_trans with (last x 0 * Bn (length y - 1)); [|lia].
          rewrite Z.mul_assoc. apply Z.mul_le_mono_nonneg_r; lia. }
        pose proof (mul_word_n_spec y qv Hy ltac:(lia)) as H2. destruct (mul_word_n y qv) as [t h]. cbn [fst].
        destruct H2 as (Wt & Lt & Hh & Et).
        pose proof (eval_range t Wt) as Rt.
        assert (h = 0). { rewrite Lt in Rt. rewrite HL in Rx. pose proof (Bn_pos (length y)). nia. }
        subst h.
        pose proof (sub_n_ge x t Hx Wt ltac:(lia) ltac:(lia)) as H3. destruct (sub_n x t) as [z c]. cbn [fst].
        destruct H3 as (W & L & _ & E). exists z, qv. repeat split; try assumption; try lia. }
    destruct Hinit as (x1 & qv & Ei & W1 & L1 & Hqv & E1). cbv zeta in Ei. cbv zeta. rewrite Ei. clear Ei.
    assert (Hrun : exists x2 qv2, run_loop (32 * length x + 1) (div_small_step y) (x1, qv) = Ok (x2, qv2) /\
       all_words x2 /\ length x2 = length x /\ 0 <= qv2 /\ eval x2 + qv2 * eval y = eval x /\ eval x2 < eval y).
    { apply (run_loop_ind (div_small_step y)
        (fun s => all_words (fst s) /\ length (fst s) = length x /\ 0 <= snd s /\ eval (fst s) + snd s * eval y = eval x)
        (fun o => exists x2 qv2, o = Ok (x2, qv2) /\
          all_words x2 /\ length x2 = length x /\ 0 <= qv2 /\ eval x2 + qv2 * eval y = eval x /\ eval x2 < eval y)
        (fun s => eval (fst s))).
      - intros [a b] (Wa & _). cbn [fst] in *. pose proof (eval_range a Wa). lia.
      - intros [a b] (Wa & La & Hb & Ea). cbn [fst snd] in *. unfold div_small_step.
        rewrite cmp_ge_n_spec by (try assumption; lia).
        destruct (Z.geb_spec (eval a) (eval y)) as [Hge|Hge].
        + pose proof (sub_n_ge a y Wa Hy ltac:(lia) ltac:(lia)) as H3. destruct (sub_n a y) as [z c]. cbn [fst snd].
          destruct H3 as (W & L & _ & E).
          assert (b + 1 < B).
          { apply mul_le_cancel with (eval y); [pose proof (Bn_pos (length y - 1)); lia|].
            apply Z.le_lt_trans with (eval x); [nia|].
            apply Z.lt_le_trans with (Bn (length y)); [rewrite <- HL; lia|].
            replace (length y) with (S (length y - 1)) at 1 by lia. rewrite Bn_S.
            apply Z.mul_le_mono_nonneg_l; lia. }
          rewrite Z.mod_small by lia. pose proof (Bn_pos (length y - 1)). repeat split; try assumption; lia.
        + exists a, b. repeat split; try assumption.
      - cbn [fst snd]. repeat split; assumption.
      - cbn [fst]. pose proof (eval_range x1 W1) as R1. rewrite L1, Bn_pow2 in R1.
        apply Z.lt_le_trans with (2 ^ (32 * Z.of_nat (length x))); [lia|]. apply Z.pow_le_mono_r; lia. }
    destruct Hrun as (x2 & qv2 & -> & W2 & L2 & Hq2 & E2 & Hlt). cbn [bind].
    eexists; split; [reflexivity|]. cbv beta iota. apply Hdone; try assumption; try lia.
    split; [assumption|].
    apply mul_le_cancel with (eval y); [lia|].
    pose proof (eval_range x2 W2).
    apply Z.le_lt_trans with (eval x); [lia|].
    apply Z.lt_le_trans with (Bn (length y)); [rewrite <- HL; lia|].
    replace (length y) with (S (length y - 1)) at 1 by lia. rewrite Bn_S.
    apply Z.mul_le_mono_nonneg_l; lia.
Qed.

(** *** div_full_bit *)
Lemma add_at_spec q d v : all_words q -> 1 <= v < B -> eval q + v * Bn d < Bn (length q) ->
  all_words (add_at q d v) /\ length (add_at q d v) = length q /\ eval (add_at q d v) = eval q + v * Bn d.
Proof.
  intros Hq Hv Hlt. pose proof (eval_range q Hq) as Rq.
  assert (Hd : (d < length q)%nat).
  { destruct (Nat.lt_ge_cases d (length q)) as [|Hge]; [assumption|]. exfalso.
    pose proof (Bn_mono _ _ Hge). pose proof (Bn_pos d). nia. }
  unfold add_at.
  pose proof (add_word_spec (skipn d q) v (words_skipn d q Hq) ltac:(lia)) as H.
  destruct (add_word (skipn d q) v) as [z c]. cbn [fst].
  destruct H as (Wz & Lz & Hc & Ez).
  { intros C. apply (f_equal (@length Z)) in C. rewrite skipn_length in C. cbn in C. lia. }
  rewrite skipn_length in *.
  rewrite (eval_split d q) in Hlt, Rq |- * by lia.
  pose proof (eval_range (firstn d q) (words_firstn d q Hq)) as Rf.
  rewrite firstn_length_le in Rf by lia.
  assert (c = 0).
  { replace (length q) with (d + (length q - d))%nat in Hlt at 1 by lia. rewrite Bn_add in Hlt.
    pose proof (eval_range z Wz). pose proof (Bn_pos d). pose proof (Bn_pos (length q - d)).
    assert (eval (skipn d q) + v < Bn (length q - d)) by nia. nia. }
  subst c. repeat split.
  - apply words_app; split; [apply words_firstn; assumption|assumption].
  - rewrite app_length, firstn_length_le by lia. lia.
  - rewrite eval_app, firstn_length_le by lia. nia.
Qed.

Section FULL.
  Variables (y : list Z) (qn : nat) (X : Z).
  Hypothesis (Hy : all_words y) (Ny : y <> []) (Htop : 2 ^ 31 <= last y 0).
  Hypothesis HX : X < eval y * Bn qn.
  Let rev_ := if last y 0 =? B - 1 then 0 else fst (div_word1 (2 ^ 31) 0 (last y 0 + 1)).

  Let inv (s : list Z * list Z) : Prop :=
    let '(q, x) := s in
    all_words q /\ length q = qn /\ all_words x /\ (length y - 1 <= length x)%nat /\ eval q * eval y + eval x = X.

  Lemma quot_estimate xt : 0 < xt <= last y 0 ->
    exists v,
      full_guess (last y 0) rev_ xt = v /\ 1 <= v < B /\ v * eval y <= xt * Bn (length y).
  Proof.
    intros Hxt. destruct (last_bounds y Hy Ny) as (R0 & R1).
    assert (Ly : (0 < length y)%nat) by (destruct y; [congruence|cbn; lia]).
    pose proof (eval_range y Hy) as R. pose proof B_pos as HB. pose proof B_val as BV.
    assert (E31 : 2 * 2 ^ 31 = B) by (rewrite <- B_eq; reflexivity).
    unfold rev_, full_guess. destruct (Z.eqb_spec (last y 0) (B - 1)) as [E|E].
    - exists xt. split; [reflexivity|]. split; [lia|]. nia.
    - pose proof (div_word1_spec (2 ^ 31) 0 (last y 0 + 1) ltac:(lia) ltac:(lia) ltac:(lia)) as H.
      destruct (div_word1 (2 ^ 31) 0 (last y 0 + 1)) as [rv rm]. cbn [fst].
      destruct H as (Hq & Hr & Er). unfold mul_word1.
      set (P := xt * rv). assert (HP : 0 <= P < 2 ^ 31 * B) by (unfold P; nia).
      rewrite (Z.mod_small P) by (rewrite W64_val; nia).
      assert (Hh : 0 <= P / B < 2 ^ 31) by (split; [apply Z.div_pos; lia|apply Z.div_lt_upper_bound; lia]).
      assert (HL : 0 <= P mod B < B) by (apply Z.mod_pos_bound; lia).
      rewrite Z.shiftl_mul_pow2, Z.shiftr_div_pow2 by lia. change (2 ^ 1) with 2.
      rewrite (Z.mod_small (P / B * 2)) by lia.
      assert (Hlb : 0 <= P mod B / 2 ^ 31 < 2).
      { split; [apply Z.div_pos; lia|apply Z.div_lt_upper_bound; lia]. }
      assert (Ev : Z.lor (P / B * 2) (P mod B / 2 ^ 31) = P / 2 ^ 31).
      { change 2 with (2 ^ 1) at 1. rewrite lor_mul_add by (change (2 ^ 1) with 2; lia).
        change (2 ^ 1) with 2.
        pose proof (Z.div_mod P B ltac:(lia)) as D1.
        pose proof (Z.div_mod (P mod B) (2 ^ 31) ltac:(lia)) as D2.
        pose proof (Z.mod_pos_bound (P mod B) (2 ^ 31) ltac:(lia)) as D3.
        apply Z.div_unique with (r := (P mod B) mod 2 ^ 31); [left; lia|]. nia. }
      cbv zeta. rewrite Ev.
      assert (Hv : 0 <= P / 2 ^ 31 < B) by (split; [apply Z.div_pos; lia|apply Z.div_lt_upper_bound; lia]).
      assert (Hm : P / 2 ^ 31 * (last y 0 + 1) <= xt * B).
      { pose proof (Z.mul_div_le P (2 ^ 31) ltac:(lia)) as M. unfold P in M |- *.
        assert (rv * (last y 0 + 1) <= 2 ^ 31 * B) by nia.
        set (w := xt * rv / 2 ^ 31) in *.
        assert (2 ^ 31 * (w * (last y 0 + 1)) <= 2 ^ 31 * (xt * B)); [|lia].
        apply Z.le_trans with ((xt * rv) * (last y 0 + 1)); [nia|]. nia. }
      assert (EBn : Bn (length y) = B * Bn (length y - 1)) by (rewrite <- Bn_S; f_equal; lia).
      pose proof (Bn_pos (length y - 1)) as Hbp.
      destruct (Z.eqb_spec (P / 2 ^ 31) 0) as [E0|E0].
      + exists 1. split; [reflexivity|]. split; [lia|]. nia.
      + exists (P / 2 ^ 31). split; [reflexivity|]. split; [lia|].
        set (w := P / 2 ^ 31) in *. rewrite EBn.
        apply Z.le_trans with (w * ((last y 0 + 1) * Bn (length y - 1))); [apply Z.mul_le_mono_nonneg_l; lia|].
        rewrite !Z.mul_assoc. apply Z.mul_le_mono_nonneg_r; lia.
  Qed.

  Lemma full_step s : inv s ->
    match div_full_step y rev_ s with
    | Next s' => inv s' /\ eval (snd s') + Z.of_nat (length (snd s')) < eval (snd s) + Z.of_nat (length (snd s))
                 /\ (length (snd s') <= length (snd s))%nat
    | Done r => exists q x, r = Ok (q, x) /\ inv (q, x) /\ eval x < eval y /\ (length x <= length (snd s))%nat
    end.
  Proof.
    destruct s as [q x]. cbn [snd]. intros (Wq & Lq & Wx & Lx & E). unfold div_full_step. 
    destruct (last_bounds y Hy Ny) as (R0 & R1).
    assert (Ly : (0 < length y)%nat) by (destruct y; [congruence|cbn; lia]).
    pose proof (eval_range y Hy) as Ry. pose proof (eval_range x Wx) as Rx. pose proof (eval_range q Wq) as Rq.
    pose proof B_pos as HB. pose proof B_val as BV.
    assert (E31 : 2 * 2 ^ 31 = B) by (rewrite <- B_eq; reflexivity).
    assert (EBn : Bn (length y) = B * Bn (length y - 1)) by (rewrite <- Bn_S; f_equal; lia).
    pose proof (Bn_pos (length y - 1)) as Hbp.
    assert (Hyhalf : Bn (length y) <= 2 * eval y) by nia.
    assert (Hq_room : forall v d, v * Bn d * eval y <= eval x -> eval q + v * Bn d < Bn (length q)).
    { intros v d Hv. rewrite Lq. apply mul_le_cancel with (eval y); [lia|]. lia. }
    destruct (Nat.ltb_spec (length x) (length y)) as [H1|H1].
    { exists q, x. repeat split; try assumption; try lia.
      apply Z.lt_le_trans with (Bn (length x)); [lia|].
      apply Z.le_trans with (Bn (length y - 1)); [apply Bn_mono; lia|]. nia. }
    assert (Nx : x <> []) by (intros ->; cbn in H1; lia).
    destruct (last_bounds x Wx Nx) as (Rx0 & Rx1).
    destruct (Z.eqb_spec (last x 0) 0) as [E0|E0].
    { destruct (removelast_0 x Wx Nx E0) as (W' & L' & V'). cbn [snd].
      unfold inv. rewrite V', L'. repeat split; try assumption; lia. }
    set (d := (length x - length y)%nat).
    assert (Ld : length (skipn d x) = length y) by (rewrite skipn_length; unfold d; lia).
    pose proof (words_skipn d x Wx) as Ws. pose proof (words_firstn d x Wx) as Wf.
    assert (Lf : length (firstn d x) = d) by (apply firstn_length_le; unfold d; lia).
    pose proof (eval_split d x ltac:(unfold d; lia)) as Esp.
    pose proof (eval_range _ Wf) as Rf. rewrite Lf in Rf.
    pose proof (eval_range _ Ws) as Rs. rewrite Ld in Rs.
    pose proof (Bn_pos d) as Hbd.
    rewrite cmp_ge_n_spec by assumption.
    destruct (Z.geb_spec (eval (skipn d x)) (eval y)) as [Hge|Hlt].
    - pose proof (sub_n_ge (skipn d x) y Ws Hy Ld Hge) as H2. destruct (sub_n (skipn d x) y) as [z c]. cbn [fst].
      destruct H2 as (Wz & Lz & _ & Ez).
      assert (Ez' : eval (firstn d x ++ z) = eval x - eval y * Bn d) by (rewrite eval_app, Lf, Ez; nia).
      destruct (add_at_spec q d 1 Wq ltac:(lia)) as (Wq' & Lq' & Eq').
      { apply Hq_room. nia. }
      assert (Hinv : inv (add_at q d 1, firstn d x ++ z)).
      { unfold inv. rewrite Eq', Ez', app_length, Lz, Ld. repeat split; try assumption; try lia.
        - apply words_app; split; assumption. }
      assert (Hlen : length (firstn d x ++ z) = length x) by (rewrite app_length, Lz, Lf, skipn_length; unfold d; lia).
      destruct (Nat.eqb_spec d 0) as [D0|D0].
      + eexists; eexists; split; [reflexivity|]. split; [assumption|]. rewrite Hlen. split; [|lia].
        rewrite Ez', D0, Bn_0. rewrite D0 in Esp. cbn [firstn skipn] in Esp. rewrite Bn_0, eval_nil in Esp.
        rewrite D0 in Rs. cbn [skipn] in Rs. lia.
      + cbn [snd]. split; [assumption|]. rewrite Hlen, Ez'. split; [nia|lia].
    - destruct (Nat.eqb_spec d 0) as [D0|D0].
      + exists q, x. repeat split; try assumption; try lia. rewrite D0 in Hlt. exact Hlt.
      + assert (Hxt : 0 < last x 0 <= last y 0).
        { split; [lia|]. 
          assert (Es : last (skipn d x) 0 = last x 0).
          { destruct (exists_snoc x Nx) as (l & a & El).
            assert (Ll : length x = S (length l)) by (rewrite El, app_length; cbn [length]; lia).
            rewrite El. rewrite skipn_app. replace (d - length l)%nat with 0%nat by (unfold d; lia).
            cbn [skipn]. rewrite !last_snoc. reflexivity. }
          destruct (last_bounds (skipn d x) Ws) as (_ & R2).
          { intros C; rewrite C in Ld; cbn in Ld; lia. }
          rewrite Ld, Es in R2. assert (last x 0 < last y 0 + 1); [|lia]. nia. }
        destruct (quot_estimate (last x 0) Hxt) as (v & -> & Hv & Hvy).
        pose proof (mul_word_n_spec y v Hy ltac:(lia)) as H2. destruct (mul_word_n y v) as [t c1].
        destruct H2 as (Wt & Lt & Hc1 & Et).
        set (mid := firstn (length y) (skipn (d - 1) x)).
        assert (Lm : length mid = length y) by (unfold mid; rewrite firstn_length_le; [reflexivity|rewrite skipn_length; unfold d; lia]).
        assert (Wm : all_words mid) by (apply words_firstn, words_skipn; assumption).
        pose proof (sub_n_spec mid t Wm Wt ltac:(lia)) as H3. destruct (sub_n mid t) as [m c2].
        destruct H3 as (Wmm & Lmm & Hc2 & Em). rewrite Lm in *.
        (* decompose x *)
        assert (Ex : x = firstn (d - 1) x ++ mid ++ [last x 0]).
        { rewrite <- (firstn_skipn (d - 1) x) at 1. f_equal.
          unfold mid. rewrite <- (firstn_skipn (length y) (skipn (d - 1) x)) at 1. f_equal.
          destruct (exists_snoc x Nx) as (l & a & El).
          assert (Ll : length x = S (length l)) by (rewrite El, app_length; cbn [length]; lia).
          rewrite El at 1. rewrite skipn_app, skipn_app.
          rewrite (skipn_all2 (skipn (d - 1) l)) by (rewrite skipn_length; unfold d; lia).
          rewrite El, last_snoc. cbn [app]. rewrite skipn_length.
          replace (d - 1 - length l)%nat with 0%nat by (unfold d; lia).
          replace (length y - (length l - (d - 1)))%nat with 0%nat by (unfold d; lia). reflexivity. }
        set (lo := firstn (d - 1) x) in *.
        assert (Llo : length lo = (d - 1)%nat) by (unfold lo; apply firstn_length_le; unfold d; lia).
        assert (Wlo : all_words lo) by (apply words_firstn; assumption).
        pose proof (eval_range lo Wlo) as Rlo. rewrite Llo in Rlo.
        assert (Exv : eval x = eval lo + Bn (d - 1) * (eval mid + Bn (length y) * last x 0)).
        { rewrite Ex at 1. rewrite eval_app, eval_snoc, Llo, Lm. reflexivity. }
        pose proof (eval_range m Wmm) as Rm. rewrite Lmm, ?Lm in Rm.
        pose proof (eval_range mid Wm) as Rmid. rewrite Lm in Rmid.
        assert (Hk : 0 <= last x 0 - (c1 + c2)).
        { apply digit_nonneg with (eval m) (Bn (length y)); [assumption|].
          rewrite Z.mul_sub_distr_l, Z.mul_add_distr_l. lia. }
        rewrite (Z.mod_small (c1 + c2)) by lia.
        rewrite (Z.mod_small (last x 0 - (c1 + c2))) by lia.
        set (x' := lo ++ m ++ [last x 0 - (c1 + c2)]).
        pose proof (Bn_pos (d - 1)) as Hbd1.
        assert (Ex' : eval x' = eval x - v * Bn (d - 1) * eval y).
        { unfold x'. rewrite eval_app, eval_snoc, Llo, Lmm, Exv. nia. }
        assert (Lx' : length x' = length x).
        { unfold x'. rewrite Ex at 2. rewrite !app_length. cbn [length]. lia. }
        assert (Wx' : all_words x').
        { unfold x'. apply words_app; split; [assumption|]. apply words_app; split; [assumption|].
          apply words_cons; split; [lia|constructor]. }
        pose proof (eval_range x' Wx') as Rx'.
        destruct (add_at_spec q (d - 1) v Wq ltac:(lia)) as (Wq' & Lq' & Eq').
        { apply Hq_room. lia. }
        cbn [snd]. split; [|split; [|lia]].
        * unfold inv. rewrite Eq', Ex', Lx'. repeat split; try assumption; try lia; nia.
        * rewrite Ex', Lx'. assert (0 < v * Bn (d - 1) * eval y); [|lia].
          apply Z.mul_pos_pos; [apply Z.mul_pos_pos; lia|lia].
  Qed.

  Lemma div_full_bit_spec x : all_words x -> x <> [] -> (length y - 1 <= length x)%nat -> eval x = X -> (2 <= length y)%nat ->
    exists r, div_full_bit qn x y = Ok r /\ div_ok qn (length x) (length y) X (eval y) r.
  Proof.
    intros Wx Nx Lx EX Ly. unfold div_full_bit. fold rev_.
    assert (H : exists q x', run_loop (33 * length x + 1) (div_full_step y rev_) (repeat 0 qn, x) = Ok (q, x') /\ inv (q, x') /\ eval x' < eval y /\ (length x' <= length x)%nat).
    { apply (run_loop_ind (div_full_step y rev_) (fun s => inv s /\ (length (snd s) <= length x)%nat)
        (fun o => exists q x', o = Ok (q, x') /\ inv (q, x') /\ eval x' < eval y /\ (length x' <= length x)%nat)
        (fun s => eval (snd s) + Z.of_nat (length (snd s)))).
      - intros [q x'] [(_ & _ & W & _) _]. cbn [snd]. pose proof (eval_range x' W). lia.
      - intros s [Hi HL]. pose proof (full_step s Hi) as H. destruct (div_full_step y rev_ s) as [s'|r].
        + destruct H as (? & ? & ?). split; [split; [assumption|lia]|lia].
        + destruct H as (q & x' & -> & ? & ? & ?). exists q, x'. split; [reflexivity|]. split; [assumption|]. lia.
      - cbn [snd]. split; [|lia]. unfold inv. rewrite eval_repeat0. repeat split; try assumption; try lia.
        + apply words_repeat0.
        + apply repeat_length.
      - cbn [snd]. pose proof (eval_range x Wx) as R. rewrite Bn_pow2 in R.
        pose proof (Z.pow_gt_lin_r 2 (Z.of_nat (length x)) ltac:(lia) ltac:(lia)) as Hlin.
        apply Z.lt_le_trans with (2 ^ (32 * Z.of_nat (length x)) + 2 ^ Z.of_nat (length x)); [lia|].
        assert (2 ^ (32 * Z.of_nat (length x)) <= 2 ^ (33 * Z.of_nat (length x))) by (apply Z.pow_le_mono_r; lia).
        assert (2 ^ (Z.of_nat (length x)) <= 2 ^ (33 * Z.of_nat (length x))) by (apply Z.pow_le_mono_r; lia).
        replace (Z.of_nat (33 * length x + 1)) with (Z.succ (33 * Z.of_nat (length x))) by lia.
        rewrite Z.pow_succ_r by lia. lia. }
    destruct H as (q & x' & -> & (Wq & Lq & Wx' & Lx' & E) & Hlt & HL). cbn [bind].
    eexists; split; [reflexivity|]. unfold div_ok.
    assert (Nx' : x' <> []) by (intros ->; cbn in Lx'; lia).
    destruct (get_real_size_spec x' Nx') as (Hr & _ & _ & Er). rewrite <- Er.
    pose proof (eval_range x' Wx'). pose proof (eval_range y Hy). pose proof (real_size_le x' (length y) Wx' Nx' ltac:(lia) ltac:(lia)).
    repeat split; try assumption; lia.
  Qed.
End FULL.

Lemma bsr_shift y : 0 < y < B -> 0 <= 31 - bsr32 y < 32 /\ 2 ^ 31 <= y * 2 ^ (31 - bsr32 y) < B.
Proof.
  intros Hy. unfold bsr32. replace (y =? 0) with false by lia.
  pose proof (Z.log2_spec y ltac:(lia)) as [H1 H2].
  assert (Hl : Z.log2 y < 32) by (apply Z.log2_lt_pow2; [lia|rewrite B_eq; lia]).
  pose proof (Z.log2_nonneg y). split; [lia|].
  assert (E : 2 ^ 31 = 2 ^ Z.log2 y * 2 ^ (31 - Z.log2 y)) by (rewrite <- Z.pow_add_r by lia; f_equal; lia).
  assert (0 < 2 ^ (31 - Z.log2 y)) by (apply Z.pow_pos_nonneg; lia).
  split; [rewrite E; nia|].
  rewrite Z.pow_succ_r in H2 by lia. assert (B = 2 * 2 ^ 31) by (rewrite <- B_eq; reflexivity). nia.
Qed.

Lemma firstn_real_size_last x : x <> [] -> eval x <> 0 -> last (firstn (get_real_size x) x) 0 <> 0.
Proof.
  intros Nx Hv. destruct (get_real_size_spec x Nx) as (Hr & Ex & Hn & Er).
  set (n := get_real_size x) in *.
  assert (Nf : firstn n x <> []) by (intros C; apply (f_equal (@length Z)) in C; rewrite firstn_length_le in C by lia; cbn in C; lia).
  destruct (exists_snoc _ Nf) as (l & a & El).
  assert (Ll : n = S (length l)) by (apply (f_equal (@length Z)) in El; rewrite firstn_length_le, app_length in El by lia; cbn in El; lia).
  rewrite El, last_snoc.
  destruct (Nat.eq_dec n 1) as [E1|E1].
  - assert (l = []) by (destruct l; [reflexivity|cbn in Ll; lia]). subst l. cbn [app] in El.
    rewrite Er, El, eval_single in Hv. exact Hv.
  - specialize (Hn ltac:(lia)). rewrite Ex in Hn. rewrite app_nth1 in Hn by (rewrite firstn_length_le; lia).
    rewrite El in Hn. rewrite app_nth2 in Hn by lia. replace (n - 1 - length l)%nat with 0%nat in Hn by lia. exact Hn.
Qed.

Lemma div_spec qn x y : all_words x -> all_words y -> x <> [] -> y <> [] -> last y 0 <> 0 ->
  (1 <= qn)%nat -> (length x - length y + 1 <= qn)%nat ->
  exists r, div qn x y = Ok r /\ div_ok qn (length x + 1) (length y) (eval x) (eval y) r.
Proof.
  intros Wx Wy Nx Ny Hl Hq1 Hq. unfold div. pose proof B_pos as HB.
  assert (Lx : (0 < length x)%nat) by (destruct x; [congruence|cbn; lia]).
  destruct (get_real_size_spec x Nx) as (Hr & Ex & Hn & Er).
  destruct (last_bounds y Wy Ny) as (Ry0 & Ry1).
  destruct (Nat.eqb_spec (length y) 1) as [L1|L1].
  - destruct y as [|y0 [|? ?]]; cbn [length] in *; try lia; try congruence. cbn [last] in *. cbn [hd].
    unfold div1. destruct (div_word_spec (firstn (get_real_size x) x) y0) as (q & r & -> & Wq & Lq & Hr' & E).
    + apply words_firstn; assumption.
    + lia.
    + cbn [bind]. eexists; split; [reflexivity|]. unfold div_ok. rewrite firstn_length_le in Lq by lia.
      rewrite eval_single. cbn [firstn]. rewrite eval_single. rewrite eval_app, eval_repeat0.
      cbn [length]. rewrite app_length, !repeat_length.
      repeat split; try lia.
      * apply words_app; split; [assumption|apply words_repeat0].
      * apply words_cons; split; [lia|apply words_repeat0].
  - assert (Ly : (2 <= length y)%nat) by (destruct y as [|? [|? ?]]; cbn [length] in *; try lia; congruence).
    set (x0 := firstn (get_real_size x) x) in *.
    assert (L0 : length x0 = get_real_size x) by (apply firstn_length_le; lia).
    assert (W0 : all_words x0) by (apply words_firstn; assumption).
    assert (N0 : x0 <> []) by (intros C; rewrite C in L0; cbn in L0; lia).
    rewrite Er.
    destruct (div_small_spec qn x0 y W0 Wy N0 Ny Hl Hq1) as (o & Hds & Ho). rewrite Hds. cbn [bind].
    destruct o as [r|].
    { exists r. split; [reflexivity|]. destruct r as [[q x'] rn]. unfold div_ok in *.
      destruct Ho as (?&?&?&?&?&?&?&?). repeat split; try assumption; try lia. }
    (* not handled by div_small: x0 has at least as many words as y *)
    assert (Lge : (length y <= length x0)%nat).
    { unfold div_small in Hds. destruct (Nat.ltb_spec (length y) (length x0)); [lia|].
      destruct (Nat.ltb_spec (length x0) (length y)); [discriminate Hds|lia]. }
    pose proof (eval_range x0 W0) as R0.
    pose proof (Bn_pos (length y - 1)) as Hbp.
    assert (Hyp : Bn (length y - 1) <= eval y) by nia.
    assert (HX : eval x0 < eval y * Bn qn).
    { apply Z.lt_le_trans with (Bn (length x0)); [lia|].
      apply Z.le_trans with (Bn (length y - 1) * Bn qn).
      - rewrite <- Bn_add. apply Bn_mono. lia.
      - apply Z.mul_le_mono_nonneg_r; [pose proof (Bn_pos qn); lia|assumption]. }
    destruct (bsr_shift (last y 0) ltac:(lia)) as (Hs & Hs2).
    set (s := 31 - bsr32 (last y 0)) in *.
    destruct (Z.eqb_spec s 0) as [S0|S0]; cbn [negb].
    + rewrite S0 in Hs2. change (2 ^ 0) with 1 in Hs2.
      destruct (div_full_bit_spec y qn (eval x0) Wy Ny ltac:(lia) HX x0 W0 N0 ltac:(lia) eq_refl Ly) as (r & Er' & Hok).
      exists r. split; [assumption|]. destruct r as [[q x'] rn]. unfold div_ok in *.
      destruct Hok as (?&?&?&?&?&?&?&?). repeat split; try assumption; try lia.
    + pose proof (shl_n_spec y s Wy Ny ltac:(lia)) as Hsy. destruct (shl_n y s) as [ys topy] eqn:Esy. cbn [fst].
      destruct Hsy as (Wys & Lys & Hty & Eys).
      assert (H2s : 0 < 2 ^ s) by (apply Z.pow_pos_nonneg; lia).
      (* no bits are lost from y *)
      assert (Hfit : eval y * 2 ^ s < Bn (length y)).
      { replace (length y) with (S (length y - 1)) at 1 by lia. rewrite Bn_S.
        assert (Em : exists k, B = k * 2 ^ s).
        { exists (2 ^ (32 - s)). rewrite <- Z.pow_add_r by lia. rewrite <- B_eq. f_equal; lia. }
        destruct Em as (k & Ek).
        assert (last y 0 < k) by nia. nia. }
      assert (topy = 0) by (pose proof (eval_range ys Wys) as Rs; rewrite Lys in Rs; nia). subst topy.
      rewrite Z.mul_0_r, Z.add_0_r in Eys.
      assert (Nys : ys <> []) by (intros C; rewrite C in Lys; cbn in Lys; lia).
      assert (Hlast : 2 ^ 31 <= last ys 0).
      { destruct (last_bounds ys Wys Nys) as (Q0 & Q1). rewrite Lys, Eys in Q1. 
        assert (last y 0 * 2 ^ s < last ys 0 + 1); [|lia].
        apply mul_le_cancel with (Bn (length y - 1)); [assumption|]. nia. }
      pose proof (shl_n_spec x0 s W0 N0 ltac:(lia)) as Hsx. destruct (shl_n x0 s) as [xx v].
      destruct Hsx as (Wxx & Lxx & Hv & Exx).
      set (x1 := if v =? 0 then xx else xx ++ [v]).
      assert (H1 : all_words x1 /\ (length x0 <= length x1 <= length x0 + 1)%nat /\ eval x1 = eval x0 * 2 ^ s).
      { unfold x1. destruct (Z.eqb_spec v 0) as [V0|V0].
        - subst v. repeat split; [assumption|lia|lia|lia].
        - repeat split.
          + apply words_app; split; [assumption|]. apply words_cons; split; [|constructor].
            assert (2 ^ s <= B) by (rewrite <- B_eq; apply Z.pow_le_mono_r; lia). lia.
          + rewrite app_length; cbn [length]; lia.
          + rewrite app_length; cbn [length]; lia.
          + rewrite eval_snoc, Lxx. lia. }
      destruct H1 as (W1 & Lx1 & E1).
      assert (N1 : x1 <> []) by (intros C; rewrite C in Lx1; cbn in Lx1; lia).
      destruct (div_full_bit_spec ys qn (eval x1) Wys Nys Hlast ltac:(rewrite Eys, E1; nia) x1 W1 N1 ltac:(lia) eq_refl ltac:(lia)) as (r & Er' & Hok).
      rewrite Er'. cbn [bind]. destruct r as [[q x'] rn]. unfold div_ok in Hok.
      destruct Hok as (Wq & Lq & Wx' & Hrn & Eq & Rr & Lx' & Hrny).
      eexists; split; [reflexivity|]. unfold div_ok.
      assert (Lfn : length (firstn rn x') = rn) by (apply firstn_length_le; lia).
      assert (Nfn : firstn rn x' <> []) by (intros C; rewrite C in Lfn; cbn in Lfn; lia).
      destruct (shr_n_spec (firstn rn x') s (words_firstn rn x' Wx') Nfn ltac:(lia)) as (Wr & Lr & Vr).
      assert (Hfa : firstn rn (shr_n (firstn rn x') s) = shr_n (firstn rn x') s) by (apply firstn_all2; lia).
      rewrite Hfa, Vr, Lr, Lfn.
      rewrite Eys, E1 in Eq. rewrite Eys in Rr.
      assert (Ediv : eval (firstn rn x') / 2 ^ s = eval x0 - eval q * eval y).
      { symmetry. apply Z.div_unique with (r := 0); [left; lia|]. nia. }
      rewrite Ediv. 
      assert (0 <= eval x0 - eval q * eval y < eval y) by nia.
      repeat split; try assumption; try lia.
Qed.
