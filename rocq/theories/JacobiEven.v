(** [jacobi] of bigint.hpp with an even second argument, where assertions are compiled out. *)
From Coq Require Import List ZArith Znumtheory Bool Lia.
From Verif Require Import Outcome LoopModel LoopProofs WordsModel WordsSpec BigintModel BigintSpec BigintProofs BigintBytes BigintClaims NumModel NumProofs JacobiSpec Residues Legendre JacobiProofs.
Import ListNotations.
Open Scope Z_scope.

Lemma ctz_odd c x : valid c x -> 0 < value x -> Z.odd (value x) = true -> exists x', count_trailing_zero x = Ok (x', 0) /\ valid c x' /\ value x' = value x.
Proof.
  intros Hx Px Ox. destruct (ctz_spec c x Hx Px) as (x' & s & E & V & Hs & Ev & O' & P').
  assert (S0 : s = 0). { destruct (Z.eq_dec s 0) as [|N]; [assumption|]. exfalso. rewrite Ev, Z.odd_mul in Ox. replace s with (1 + (s - 1)) in Ox by lia. rewrite Z.pow_add_r, Z.odd_mul in Ox by lia. discriminate Ox. }
  subst s. exists x'. split; [exact E|]. split; [exact V|]. lia.
Qed.

Definition jeven (c : cap) (m n : bigint) (st : bigint * bigint * Z * bool) : Prop :=
  st = (m, n, 1, true) \/ (exists m', valid c m' /\ value m' = value m /\ st = (m', n, 1, false)) \/ (jinv c (value n) (value m) st /\ jmeas st < 2 * value m).
Definition jeven_meas (m : bigint) (st : bigint * bigint * Z * bool) : Z := jmeas st.

Lemma jeven_step c m n st : valid c m -> valid c n -> 1 < value m -> Z.odd (value m) = true -> rel_prime (value m) (value n) -> 0 < value n -> Z.even (value n) = true ->
  jeven c m n st -> match jacobi_step c st with Next st' => jeven c m n st' /\ jmeas st' < jmeas st | Done r => r = Ok (gs (value n) (value m)) end.
Proof.
  intros Hm Hn M1 Om R Pn En [->|[(m1 & H1 & V1 & ->)|[J JM]]].
  - unfold jacobi_step. destruct (ctz_odd c m Hm ltac:(lia) Om) as (m' & -> & Vm' & Em'). cbn [Z.modulo Z.eqb negb andb]. cbv zeta. change (negb (0 mod 2 =? 0)) with false. cbn [andb].
    pose proof (compares1_spec c m' 1 Vm' ltac:(unfold int32; lia)) as C. destruct (Z.eqb_spec (compares1 m' 1) 0) as [Z0|Z0]; [exfalso; destruct C as [[C1 C2]|[[C1 C2]|[C1 C2]]]; lia|].
    split; [right; left; exists m'; auto|]. cbn [jmeas]. lia.
  - unfold jacobi_step. destruct (mod_r_spec c (zero c) n m1 (zero_storage c n Hn) Hn H1 ltac:(lia)) as (r & Er & Hr & Vr). rewrite Er. cbn [bind snd].
    rewrite (low_mod c n 4 Hn) by (try lia; exists (2 ^ 30); reflexivity).
    assert (N4 : (value n mod 4 =? 3) = false). { apply Z.eqb_neq. intros Q. apply Z.even_spec in En. destruct En as [k Hk]. rewrite Hk in Q. pose proof (Z.div_mod (2 * k) 4 ltac:(lia)). lia. }
    rewrite N4, andb_false_r.
    assert (Vr' : value r = value n mod value m). { rewrite Vr, V1. apply Z.rem_mod_nonneg; lia. }
    pose proof (Z.mod_pos_bound (value n) (value m) ltac:(lia)) as Br.
    assert (Rr : rel_prime (value r) (value m)). { rewrite Vr'. apply rel_prime_mod; [lia|]. apply rel_prime_sym. exact R. }
    assert (Nr : value r <> 0). { intros Z0. rewrite Z0 in Rr. destruct Rr as [_ _ G]. specialize (G (value m) (Z.divide_0_r _) (Z.divide_refl _)). destruct G as [k Hk]. assert (k <= 0 \/ 1 <= k) by lia. nia. }
    assert (E' : gs (value n) (value m) = 1 * gs (value r) (value m1)).
    { rewrite V1, Z.mul_1_l. apply gs_mod. rewrite Vr'. exists (value n / value m). pose proof (Z.div_mod (value n) (value m) ltac:(lia)). lia. }
    assert (Opm : odd_pos (value m1)) by (rewrite V1; split; [lia|assumption]).
    pose proof (ctz_part c (value n) (value m) r m1 1 Hr H1 ltac:(lia) Opm ltac:(rewrite V1; exact Rr) E') as H.
    destruct (match count_trailing_zero r with Ok (m, s) => _ | Abort => _ | UB => _ | NoFuel => _ end); [|exact H]. destruct H as [H1' H2']. split; [right; right; split; [exact H1'|lia]|]. cbn [jmeas]. lia.
  - pose proof (jacobi_step_spec c (value n) (value m) st J) as H. destruct (jacobi_step c st); [|exact H]. destruct H as [H1 H2]. split; [right; right; split; [exact H1|lia]|exact H2].
Qed.

Lemma jacobi_even_claim c m n : valid c m -> valid c n -> 0 < value n -> Z.even (value n) = true ->
  exists j, jacobi c m n = Ok j /\
  (Z.gcd (value m) (value n) <> 1 -> j = 0) /\ (Z.gcd (value m) (value n) = 1 -> jacobi_symbol (value n) (value m mod value n) j).
Proof.
  intros Hm Hn Pn En. unfold jacobi. rewrite (is_one_value c n Hn). assert (N1 : value n <> 1) by (intros Q; rewrite Q in En; discriminate En). rewrite (proj2 (Z.eqb_neq _ _) N1).
  assert (N2 : 1 < value n) by lia.
  pose proof (compares1_spec c m 0 Hm ltac:(unfold int32; lia)) as C1. pose proof (compare_spec c m n Hm Hn) as C2.
  assert (M : exists m', (if (compares1 m 0 <? 0) || (compare m n >? 0) then let* r := quot_rem c None m m n in Ok (snd r) else Ok m) = Ok m' /\ valid c m' /\ 0 <= value m' <= value n /\ (value n | value m - value m') /\ (value m' = value n \/ value m' = value m mod value n)).
  { destruct ((compares1 m 0 <? 0) || (compare m n >? 0)) eqn:Q.
    - destruct (quot_rem_spec c None m m n (valid_storage _ _ Hm) Hm Hn ltac:(lia) I) as (q' & r' & Er & Hr & Vr & _). rewrite Er. cbn [bind snd]. exists r'. split; [reflexivity|]. split; [exact Hr|].
      pose proof (Z.mod_pos_bound (value m) (value n) ltac:(lia)). split; [lia|]. split; [|right; lia]. exists (value m / value n). pose proof (Z.div_mod (value m) (value n) ltac:(lia)). lia.
    - exists m. split; [reflexivity|]. split; [exact Hm|]. apply orb_false_iff in Q. destruct Q as [Q1 Q2]. rewrite Z.gtb_ltb in Q2. unfold cmp_result in *. split; [lia|]. split; [rewrite Z.sub_diag; apply Z.divide_0_r|].
      destruct (Z.eq_dec (value m) (value n)) as [|Q]; [left; assumption|right]. symmetry. apply Z.mod_small. lia. }
  destruct M as (m' & -> & Hm' & Bm & D & Em). cbn [bind].
  assert (G : Z.gcd (value m) (value n) = Z.gcd (value m') (value n)). { destruct D as [k Hk]. replace (value m) with (value m' + k * value n) by lia. rewrite Z.gcd_comm, Z.gcd_add_mult_diag_r, Z.gcd_comm. reflexivity. }
  rewrite (is_zero_value c m' Hm'), (is_one_value c m' Hm'). rewrite G.
  destruct (Z.eqb_spec (value m') 0) as [Z0|Z0].
  { exists 0. split; [reflexivity|]. rewrite Z0, Z.gcd_0_l, Z.abs_eq by lia. split; [reflexivity|lia]. }
  destruct (Z.eqb_spec (value m') 1) as [Z1|Z1].
  { exists 1. split; [reflexivity|]. rewrite Z1, Z.gcd_1_l. split; [congruence|]. intros _. destruct Em as [Em|Em]; [lia|]. rewrite <- Em, Z1. constructor. }
  destruct (gcd_spec c m' n Hm' Hn) as (g & -> & Hg & Eg & Pg). specialize (Pg ltac:(lia) ltac:(lia)). rewrite Z.abs_eq in Eg by exact Pg. cbn [bind].
  pose proof (compares1_spec c g 1 Hg ltac:(unfold int32; lia)) as C3.
  destruct (Z.eqb_spec (compares1 g 1) 0) as [G1|G1]; cbn [negb].
  - assert (V : Z.gcd (value m') (value n) = 1) by (destruct C3 as [[? ?]|[[? ?]|[? ?]]]; lia). assert (R : rel_prime (value m') (value n)) by (apply Zgcd_1_rel_prime; exact V).
    assert (Om : Z.odd (value m') = true).
    { destruct (Z.odd (value m')) eqn:O; [reflexivity|]. exfalso. assert (Ev : Z.even (value m') = true) by (rewrite <- Z.negb_odd, O; reflexivity). apply Z.even_spec in Ev, En. destruct Ev as [k Hk], En as [l Hl].
      assert (T : (2 | Z.gcd (value m') (value n))) by (apply Z.gcd_greatest; [exists k; lia|exists l; lia]). rewrite V in T. apply Z.divide_1_r in T. lia. }
    assert (Lt : value m' < value n). { assert (value m' <> value n); [|lia]. intros Q. rewrite Q, Z.gcd_diag, Z.abs_eq in V by lia. lia. }
    destruct Em as [Em|Em]; [lia|]. exists (gs (value n) (value m')). split.
    + apply (run_loop_ind (jacobi_step c) (jeven c m' n) (fun o => o = Ok (gs (value n) (value m'))) jmeas).
      * intros [[[a b] j] st] [Q|[(m1 & _ & V1 & Q)|[(_ & _ & P & _) _]]]; [injection Q as -> _ _ ->; cbn [jmeas]; lia|injection Q as -> _ _ ->; cbn [jmeas]; lia|cbn [jmeas]; destruct st; lia].
      * intros st. apply jeven_step; try assumption; lia.
      * left. reflexivity.
      * cbn [jmeas]. pose proof (abs_value_bound c n Hn) as Bn. rewrite Nat2Z.inj_add, Nat2Z.inj_mul, Z.pow_add_r by lia. change (Z.of_nat 32) with 32. change (2 ^ Z.of_nat 1) with 2. lia.
    + split; [congruence|]. intros _. rewrite <- Em. pose proof (jacobi_symbol_value (value n) (value m') ltac:(split; [lia|exact Om])) as J.
      destruct (rel_prime_dec (value n) (value m')) as [_|NR]; [exact J|]. exfalso. apply NR. apply rel_prime_sym. exact R.
  - exists 0. split; [reflexivity|]. split; [reflexivity|]. intros Q. exfalso. destruct C3 as [[? ?]|[[? ?]|[? ?]]]; lia.
Qed.
