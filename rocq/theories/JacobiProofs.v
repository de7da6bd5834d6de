(** The function [jacobi] of bigint.hpp computes the Jacobi symbol. *)
From Coq Require Import List ZArith Znumtheory Bool Lia.
From Verif Require Import Outcome LoopModel LoopProofs WordsModel WordsSpec BigintModel BigintSpec BigintProofs BigintBytes BigintClaims NumModel NumProofs JacobiSpec Residues Legendre.
Import ListNotations.
Open Scope Z_scope.

Lemma ctz_spec c x : valid c x -> 0 < value x ->
  exists x' s, count_trailing_zero x = Ok (x', s) /\ valid c x' /\ 0 <= s /\ value x = 2 ^ s * value x' /\ Z.odd (value x') = true /\ 0 < value x'.
Proof.
  intros Hx Px. unfold count_trailing_zero.
  apply (run_loop_ind ctz_step
    (fun st => valid c (fst st) /\ 0 <= snd st /\ 0 < value (fst st) /\ value x = 2 ^ snd st * value (fst st))
    (fun o => exists x' s, o = Ok (x', s) /\ valid c x' /\ 0 <= s /\ value x = 2 ^ s * value x' /\ Z.odd (value x') = true /\ 0 < value x')
    (fun st => value (fst st))).
  - intros st H. lia.
  - intros [y s] (Hy & Hs & Py & E). cbn [fst snd ctz_step] in *.
    assert (Ev : is_even y = Z.even (value y)). { unfold is_even. rewrite (is_odd_spec c y Hy). rewrite <- Z.negb_even. apply negb_involutive. }
    rewrite Ev. destruct (Z.even (value y)) eqn:V.
    + destruct (shr1_val c y Hy) as (Hv & Es & _). apply Z.even_spec in V. destruct V as [k Hk]. rewrite Hk in Es. rewrite (Z.mul_comm 2), Z.quot_mul in Es by lia. cbn [fst snd].
      split; [|lia]. split; [exact Hv|]. split; [lia|]. split; [lia|]. rewrite E, Es, Hk, Z.pow_add_r by lia. ring.
    + exists y, s. split; [reflexivity|]. split; [exact Hy|]. split; [exact Hs|]. split; [exact E|]. split; [|exact Py]. rewrite <- Z.negb_even, V. reflexivity.
  - cbn [fst snd]. split; [exact Hx|]. split; [lia|]. split; [exact Px|]. change (2 ^ 0) with 1. lia.
  - cbn [fst snd]. pose proof (fuel_bound c x Hx). lia.
Qed.
Lemma low_mod c x k : valid c x -> 0 <= value x -> 0 < k -> (k | B) -> get_low32bit x mod k = value x mod k.
Proof.
  intros Hx Px Pk Dk. unfold get_low32bit. rewrite (word0_mod c x Hx), (abs_magnitude c x Hx), Z.abs_eq by lia. symmetry. apply Zmod_div_mod; [exact Pk|reflexivity|exact Dk].
Qed.
Lemma rel_prime_2 n : odd_pos n -> rel_prime 2 n.
Proof.
  intros [P O]. apply Zgcd_1_rel_prime. assert (G : Z.gcd 2 n = 1 \/ Z.gcd 2 n = 2).
  { pose proof (Z.gcd_nonneg 2 n). pose proof (Z.gcd_divide_l 2 n) as D. apply Z.divide_pos_le in D; [|lia]. assert (Z.gcd 2 n <> 0) by (rewrite Z.gcd_eq_0; lia). lia. }
  destruct G as [G|G]; [exact G|]. pose proof (Z.gcd_divide_r 2 n) as D. rewrite G in D. destruct D as [k ->]. rewrite Z.odd_mul in O. rewrite andb_false_r in O. discriminate.
Qed.
Lemma rel_prime_1l n : rel_prime 1 n. Proof. apply rel_prime_1. Qed.
Lemma rel_prime_pow a n s : rel_prime a n -> 0 <= s -> rel_prime (a ^ s) n.
Proof.
  intros R Hs. pattern s. apply natlike_ind; [rewrite Z.pow_0_r; apply rel_prime_1l| |exact Hs]. intros k Hk IH. rewrite Z.pow_succ_r by exact Hk.
  apply rel_prime_sym. apply rel_prime_mult; apply rel_prime_sym; assumption.
Qed.
Lemma gs_pow a n s : odd_pos n -> rel_prime a n -> 0 <= s -> gs (a ^ s) n = gs a n ^ s.
Proof.
  intros On R Hs. pattern s. apply natlike_ind; [rewrite !Z.pow_0_r; apply gs_1; exact On| |exact Hs]. intros k Hk IH. rewrite !Z.pow_succ_r by exact Hk.
  rewrite gs_mul; [rewrite IH; reflexivity|exact On|exact R|apply rel_prime_pow; assumption].
Qed.
Lemma unit_pow u s : 0 <= s -> (u = 1 \/ u = -1) -> u ^ s = if s mod 2 =? 0 then 1 else u.
Proof.
  intros Hs Hu. pose proof (Z.div_mod s 2 ltac:(lia)) as D. pose proof (Z.mod_pos_bound s 2 ltac:(lia)) as M. pose proof (Z.div_pos s 2 Hs ltac:(lia)).
  rewrite D at 1. rewrite Z.pow_add_r, Z.pow_mul_r by lia. replace (u ^ 2) with 1 by (rewrite Z.pow_2_r; destruct Hu as [->| ->]; reflexivity). rewrite Z.pow_1_l by lia.
  assert (s mod 2 = 0 \/ s mod 2 = 1) as [->| ->] by lia; [reflexivity|]. cbn [Z.eqb]. rewrite Z.pow_1_r. lia.
Qed.
Lemma rel_prime_divisor a b n : (b | a) -> rel_prime a n -> rel_prime b n.
Proof. intros D R. apply rel_prime_div with a; assumption. Qed.

Section STEP.
Variables (c : cap) (m0 n0 : Z).
Definition jinv (st : bigint * bigint * Z * bool) : Prop :=
  let '(m, n, j, start) := st in
  valid c m /\ valid c n /\ 0 < value m /\ odd_pos (value n) /\ rel_prime (value m) (value n) /\ gs m0 n0 = j * gs (value m) (value n) /\
  (start = false -> Z.odd (value m) = true /\ 1 < value m).
Definition jmeas (st : bigint * bigint * Z * bool) : Z := let '(m, _, _, start) := st in 2 * value m + (if start : bool then 1 else 0).

Lemma ctz_part m n j : valid c m -> valid c n -> 0 < value m -> odd_pos (value n) -> rel_prime (value m) (value n) -> gs m0 n0 = j * gs (value m) (value n) ->
  match (match count_trailing_zero m with
      | Ok (m, s) =>
          let nmod8 := get_low32bit n mod 8 in
          let j := if negb (s mod 2 =? 0) && ((nmod8 =? 3) || (nmod8 =? 5)) then - j else j in
          if compares1 m 1 =? 0 then Done (Ok j) else Next (m, n, j, false)
      | Abort => Done Abort | UB => Done UB | NoFuel => Done NoFuel
      end) with
  | Next st => jinv st /\ jmeas st <= 2 * value m
  | Done r => r = Ok (gs m0 n0)
  end.
Proof.
  intros Hm Hn Pm On R E. destruct (ctz_spec c m Hm Pm) as (m' & s & -> & Hm' & Hs & Em & Om & Pm'). cbv zeta.
  rewrite (low_mod c n 8 Hn) by (try (destruct On; lia); exists (2 ^ 29); reflexivity).
  assert (R' : rel_prime (value m') (value n)). { apply rel_prime_divisor with (value m); [exists (2 ^ s); exact Em|exact R]. }
  assert (G : gs (value m) (value n) = (if negb (s mod 2 =? 0) && ((value n mod 8 =? 3) || (value n mod 8 =? 5)) then -1 else 1) * gs (value m') (value n)).
  { rewrite Em, gs_mul; [|exact On|apply rel_prime_pow; [apply rel_prime_2; exact On|exact Hs]|exact R']. f_equal.
    rewrite gs_pow; [|exact On|apply rel_prime_2; exact On|exact Hs]. rewrite unit_pow by (try exact Hs; apply gs_unit). rewrite gs_2 by exact On.
    destruct (s mod 2 =? 0); [reflexivity|]. cbn [negb andb]. reflexivity. }
  set (b := negb (s mod 2 =? 0) && ((value n mod 8 =? 3) || (value n mod 8 =? 5))) in *.
  assert (E' : gs m0 n0 = (if b then - j else j) * gs (value m') (value n)). { rewrite E, G. destruct b; ring. }
  pose proof (compares1_spec c m' 1 Hm' ltac:(unfold int32; lia)) as C.
  destruct (Z.eqb_spec (compares1 m' 1) 0) as [Z0|Z0].
  - assert (V1 : value m' = 1) by (destruct C as [[C1 C2]|[[C1 C2]|[C1 C2]]]; lia). rewrite E', V1, gs_1 by exact On. f_equal. destruct b; lia.
  - assert (V1 : value m' <> 1) by (destruct C as [[C1 C2]|[[C1 C2]|[C1 C2]]]; lia). split.
    + split; [exact Hm'|]. split; [exact Hn|]. split; [exact Pm'|]. split; [exact On|]. split; [exact R'|]. split; [exact E'|]. intros _. split; [exact Om|lia].
    + cbn [jmeas]. assert (1 <= 2 ^ s) by (pose proof (Z.pow_pos_nonneg 2 s); lia). nia.
Qed.
Lemma jacobi_step_spec st : jinv st -> match jacobi_step c st with Next st' => jinv st' /\ jmeas st' < jmeas st | Done r => r = Ok (gs m0 n0) end.
Proof.
  destruct st as [[[m n] j] start]. intros (Hm & Hn & Pm & On & R & E & St). unfold jacobi_step. destruct start.
  - pose proof (ctz_part m n j Hm Hn Pm On R E) as H. 
    destruct (match count_trailing_zero m with Ok (m, s) => _ | Abort => _ | UB => _ | NoFuel => _ end); [|exact H]. split; [apply H|]. cbn [jmeas] in *. destruct H as [_ H]. lia.
  - destruct (St eq_refl) as [Om M1]. assert (Opm : odd_pos (value m)) by (split; assumption).
    destruct (mod_r_spec c (zero c) n m (zero_storage c n Hn) Hn Hm ltac:(lia)) as (r & Er & Hr & Vr). rewrite Er. cbn [bind snd].
    rewrite (low_mod c m 4 Hm) by (try lia; exists (2 ^ 30); reflexivity). rewrite (low_mod c n 4 Hn) by (try (destruct On; lia); exists (2 ^ 30); reflexivity).
    set (b := (value m mod 4 =? 3) && (value n mod 4 =? 3)).
    assert (Vr' : value r = value n mod value m). { rewrite Vr. apply Z.rem_mod_nonneg; destruct On; lia. }
    pose proof (Z.mod_pos_bound (value n) (value m) ltac:(lia)) as Br.
    assert (Rr : rel_prime (value r) (value m)). { rewrite Vr'. apply rel_prime_mod; [lia|]. apply rel_prime_sym. exact R. }
    assert (Nr : value r <> 0). { intros Z0. rewrite Z0 in Rr. destruct Rr as [_ _ G]. specialize (G (value m) (Z.divide_0_r _) (Z.divide_refl _)). destruct G as [k Hk]. assert (k <= 0 \/ 1 <= k) by lia. nia. }
    assert (E' : gs m0 n0 = (if b then - j else j) * gs (value r) (value m)).
    { rewrite E, (reciprocity (value m) (value n)) by assumption. fold b. rewrite (gs_mod (value m) (value n) (value r)).
      - destruct b; ring.
      - rewrite Vr'. exists (value n / value m). pose proof (Z.div_mod (value n) (value m) ltac:(lia)). lia. }
    pose proof (ctz_part r m (if b then - j else j) Hr Hm ltac:(lia) Opm Rr E') as H.
    destruct (match count_trailing_zero r with Ok (m, s) => _ | Abort => _ | UB => _ | NoFuel => _ end); [|exact H]. split; [apply H|]. cbn [jmeas] in *. destruct H as [_ H]. lia.
Qed.
End STEP.

Lemma jacobi_gs_spec c m n : valid c m -> valid c n -> odd_pos (value n) ->
  jacobi c m n = Ok (if rel_prime_dec (value m) (value n) then gs (value m) (value n) else 0).
Proof.
  intros Hm Hn On. unfold jacobi. rewrite (is_one_value c n Hn). destruct (Z.eqb_spec (value n) 1) as [N1|N1].
  { rewrite N1. destruct (rel_prime_dec (value m) 1) as [_|R]; [reflexivity|]. exfalso. apply R. apply rel_prime_sym. apply rel_prime_1. }
  assert (Pn : 1 < value n) by (destruct On; lia).
  pose proof (compares1_spec c m 0 Hm ltac:(unfold int32; lia)) as C1. pose proof (compare_spec c m n Hm Hn) as C2.
  assert (M : exists m', (if (compares1 m 0 <? 0) || (compare m n >? 0) then let* r := quot_rem c None m m n in Ok (snd r) else Ok m) = Ok m' /\ valid c m' /\ 0 <= value m' <= value n /\ (value n | value m - value m')).
  { destruct ((compares1 m 0 <? 0) || (compare m n >? 0)) eqn:Q.
    - destruct (quot_rem_spec c None m m n (valid_storage _ _ Hm) Hm Hn ltac:(lia) I) as (q' & r' & Er & Hr & Vr & _). rewrite Er. cbn [bind snd]. exists r'. split; [reflexivity|]. split; [exact Hr|].
      pose proof (Z.mod_pos_bound (value m) (value n) ltac:(lia)). split; [lia|]. exists (value m / value n). pose proof (Z.div_mod (value m) (value n) ltac:(lia)). lia.
    - exists m. split; [reflexivity|]. split; [exact Hm|]. apply orb_false_iff in Q. destruct Q as [Q1 Q2]. rewrite Z.gtb_ltb in Q2. unfold cmp_result in *. split; [lia|]. rewrite Z.sub_diag. apply Z.divide_0_r. }
  destruct M as (m' & -> & Hm' & Bm & D). cbn [bind].
  assert (RP : rel_prime (value m) (value n) <-> rel_prime (value m') (value n)).
  { destruct D as [k Hk]. split; intros R.
    - replace (value m') with (value m + - k * value n) by lia. apply rel_prime_plus. exact R.
    - replace (value m) with (value m' + k * value n) by lia. apply rel_prime_plus. exact R. }
  rewrite (gs_mod (value n) (value m) (value m') D). rewrite (is_zero_value c m' Hm'), (is_one_value c m' Hm').
  destruct (Z.eqb_spec (value m') 0) as [Z0|Z0].
  { destruct (rel_prime_dec (value m) (value n)) as [R|R]; [|reflexivity]. exfalso. apply RP in R. rewrite Z0 in R. destruct R as [_ _ G]. specialize (G (value n) (Z.divide_0_r _) (Z.divide_refl _)). destruct G as [k Hk]. assert (k <= 0 \/ 1 <= k) by lia. nia. }
  destruct (Z.eqb_spec (value m') 1) as [Z1|Z1].
  { rewrite Z1, gs_1 by exact On. destruct (rel_prime_dec (value m) (value n)) as [R|R]; [reflexivity|]. exfalso. apply R. apply RP. rewrite Z1. apply rel_prime_1l. }
  destruct (gcd_spec c m' n Hm' Hn) as (g & -> & Hg & Eg & Pg). specialize (Pg ltac:(lia) ltac:(lia)). rewrite Z.abs_eq in Eg by exact Pg. cbn [bind].
  pose proof (compares1_spec c g 1 Hg ltac:(unfold int32; lia)) as C3.
  destruct (Z.eqb_spec (compares1 g 1) 0) as [G1|G1]; cbn [negb].
  - assert (V : value g = 1) by (destruct C3 as [[? ?]|[[? ?]|[? ?]]]; lia). assert (R : rel_prime (value m') (value n)) by (apply Zgcd_1_rel_prime; lia).
    destruct (rel_prime_dec (value m) (value n)) as [_|NR]; [|exfalso; apply NR; apply RP; exact R].
    apply (run_loop_ind (jacobi_step c) (jinv c (value m') (value n)) (fun o => o = Ok (gs (value m') (value n))) jmeas).
    + intros [[[a b] j] st] (_ & _ & P & _). cbn [jmeas]. destruct st; lia.
    + apply jacobi_step_spec.
    + split; [exact Hm'|]. split; [exact Hn|]. split; [lia|]. split; [exact On|]. split; [exact R|]. split; [lia|discriminate].
    + cbn [jmeas]. assert (value m' < value n). { assert (value m' <> value n); [|lia]. intros Q. rewrite Q in R. destruct R as [_ _ G]. specialize (G (value n) (Z.divide_refl _) (Z.divide_refl _)). destruct G as [k Hk]. assert (k <= 0 \/ 1 <= k) by lia. nia. }
      pose proof (abs_value_bound c n Hn) as Bn. rewrite Nat2Z.inj_add, Nat2Z.inj_mul, Z.pow_add_r by lia. change (Z.of_nat 32) with 32. change (2 ^ Z.of_nat 1) with 2. lia.
  - assert (V : value g <> 1) by (destruct C3 as [[? ?]|[[? ?]|[? ?]]]; lia).
    destruct (rel_prime_dec (value m) (value n)) as [R|_]; [|reflexivity]. exfalso. apply V. rewrite Eg. apply Zgcd_1_rel_prime. apply RP. exact R.
Qed.

(** claims *)
Lemma jacobi_claim c m n : valid c m -> valid c n -> 0 < value n -> Z.odd (value n) = true ->
  exists j, jacobi c m n = Ok j /\ jacobi_symbol (value m) (value n) j /\ (forall j', jacobi_symbol (value m) (value n) j' -> j' = j).
Proof.
  intros Hm Hn Pn On. assert (O : odd_pos (value n)) by (split; assumption). eexists. split; [apply jacobi_gs_spec; assumption|].
  pose proof (jacobi_symbol_value (value m) (value n) O) as J. split; [exact J|]. intros j' J'. apply (jacobi_symbol_fun (value m) (value n)); assumption.
Qed.
Lemma jacobi_prime_claim c m n : valid c m -> valid c n -> prime (value n) -> value n <> 2 ->
  exists j, jacobi c m n = Ok j /\ (j = 0 <-> (value n | value m)) /\ (j = 1 <-> (~ (value n | value m) /\ square_mod (value m) (value n))) /\
    (j = -1 <-> ~ square_mod (value m) (value n)).
Proof.
  intros Hm Hn Pn N2. pose proof (prime_ge_2 _ Pn) as G2.
  assert (On : Z.odd (value n) = true). { destruct (Z.odd (value n)) eqn:O; [reflexivity|]. exfalso. assert (Ev : Z.even (value n) = true) by (rewrite <- Z.negb_odd, O; reflexivity). apply Z.even_spec in Ev. destruct Ev as [k Hk].
    destruct Pn as [_ Q]. specialize (Q 2 ltac:(lia)). destruct Q as [_ _ Q]. specialize (Q 2 (Z.divide_refl _)). destruct Q as [q Hq]; [exists k; lia|]. lia. }
  destruct (jacobi_claim c m n Hm Hn ltac:(lia) On) as (j & E & J & U). exists j. split; [exact E|].
  destruct (legendre_total (value m) (value n) Pn On) as (l & L).
  assert (JL : jacobi_symbol (value m) (value n * 1) (l * 1)) by (constructor; [exact Pn|exact L|constructor]). rewrite !Z.mul_1_r in JL. apply U in JL. subst l.
  assert (S0 : (value n | value m) -> square_mod (value m) (value n)). { intros D. exists 0. rewrite Z.mul_0_l, Z.mod_0_l by lia. symmetry. apply Z.mod_divide; [lia|exact D]. }
  destruct L as [D|D S|D S]; (split; [split; intros H; try discriminate; try tauto|split; split; intros H; try discriminate; try tauto]).
Qed.
