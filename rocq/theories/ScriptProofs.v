(** The arithmetic and the point functions of scripts/ec.py (ScriptModel.v). *)
From Coq Require Import List ZArith Znumtheory Bool Lia Field.
From Verif Require Import EcGroup EcGroupProofs EcSpec EcScalar ZpField EcdsaSpec ScriptModel ScriptSpec.
Import ListNotations.
Open Scope Z_scope.

Lemma pymod_ok x p : p <> 0 -> pymod x p = Ret (x mod p).
Proof. intros H. unfold pymod. rewrite (proj2 (Z.eqb_neq _ _) H). reflexivity. Qed.

Lemma loop_ok p k n : forall o r os s ot t, 0 <= r < o -> o * r < 2 ^ Z.of_nat n -> (p | o - os * k) -> (p | r - s * k) ->
  exists x y, inverse_loop n o r os s ot t = Ret (Z.gcd o r, x, y) /\ (p | Z.gcd o r - x * k).
Proof.
  induction n as [|n IH]; intros o r os s ot t R B D0 D1.
  - cbn in B. assert (r = 0) as -> by nia. exists os, ot. rewrite Z.gcd_0_r, Z.abs_eq by lia. split; [reflexivity|exact D0].
  - cbn [inverse_loop]. destruct (Z.eqb_spec r 0) as [->|N].
    + exists os, ot. rewrite Z.gcd_0_r, Z.abs_eq by lia. split; [reflexivity|exact D0].
    + cbn zeta. replace (o - o / r * r) with (o mod r) by (rewrite Z.mod_eq by lia; lia).
      pose proof (Z.mod_pos_bound o r ltac:(lia)) as M. pose proof (Z.div_mod o r N) as DM.
      assert (Q : 1 <= o / r) by (apply Z.div_le_lower_bound; lia).
      destruct (IH r (o mod r) s (os - o / r * s) t (ot - o / r * t)) as (x & y & E & D).
      * lia.
      * rewrite Nat2Z.inj_succ, Z.pow_succ_r in B by lia. nia.
      * exact D1.
      * replace (o mod r - (os - o / r * s) * k) with ((o - os * k) - o / r * (r - s * k)) by lia.
        apply Z.divide_sub_r; [exact D0|]. apply Z.divide_mul_r. exact D1.
      * exists x, y. rewrite E. assert (G : Z.gcd r (o mod r) = Z.gcd o r) by (rewrite Z.gcd_comm, Z.gcd_mod, Z.gcd_comm by lia; reflexivity). rewrite G in *. split; [reflexivity|exact D].
Qed.
Lemma loop_neg n : forall o r os s ot t,
  inverse_loop n (- o) (- r) os s ot t = (let! (g, x, y) := inverse_loop n o r os s ot t in Ret (- g, x, y)).
Proof.
  induction n as [|n IH]; intros; cbn [inverse_loop].
  - destruct (Z.eqb_spec r 0) as [->|N]; [reflexivity|]. rewrite (proj2 (Z.eqb_neq (- r) 0) ltac:(lia)). reflexivity.
  - destruct (Z.eqb_spec r 0) as [->|N]; [reflexivity|]. rewrite (proj2 (Z.eqb_neq (- r) 0) ltac:(lia)). cbn zeta.
    rewrite Z.div_opp_opp by exact N. replace (- o - o / r * - r) with (- (o - o / r * r)) by lia. apply IH.
Qed.
Lemma fuel_bound p : 0 < p -> p * p < 2 ^ (2 * Z.log2 p + 2).
Proof. intros H. pose proof (Z.log2_spec p H) as (_ & L). replace (2 * Z.log2 p + 2) with (Z.succ (Z.log2 p) + Z.succ (Z.log2 p)) by lia. pose proof (Z.log2_nonneg p). rewrite Z.pow_add_r by lia. nia. Qed.
Lemma fuel_succ p : exists n, Z.to_nat (2 * Z.log2 p + 3) = S n /\ Z.of_nat n = 2 * Z.log2 p + 2.
Proof. pose proof (Z.log2_nonneg p). exists (Z.to_nat (2 * Z.log2 p + 2)). split; lia. Qed.
Lemma first_step n k p : p <> 0 -> inverse_loop (S n) k p 1 0 0 1 = inverse_loop n p (k mod p) 0 1 1 (- (k / p)).
Proof.
  intros H. cbn [inverse_loop]. rewrite (proj2 (Z.eqb_neq _ _) H). cbn zeta. replace (k - k / p * p) with (k mod p) by (rewrite Z.mod_eq by lia; lia).
  replace (1 - k / p * 0) with 1 by lia. replace (0 - k / p * 1) with (- (k / p)) by lia. reflexivity.
Qed.
Lemma inverse_pos_ok k p : 0 < k -> 0 < p ->
  if (1 <? p) && (Z.gcd k p =? 1) then exists x, inverse_pos k p = Ret x /\ 0 < x < p /\ (k * x) mod p = 1 else inverse_pos k p = Raise AssertionError.
Proof.
  intros Hk Hp. unfold inverse_pos. rewrite Z.abs_eq by lia. destruct (fuel_succ p) as (n & -> & En). rewrite first_step by lia.
  pose proof (Z.mod_pos_bound k p Hp) as M. pose proof (fuel_bound p Hp) as FB.
  destruct (loop_ok p k n p (k mod p) 0 1 1 (- (k / p))) as (x & y & E & D).
  - lia.
  - rewrite En. nia.
  - exists 1. lia.
  - exists (- (k / p)). pose proof (Z.div_mod k p ltac:(lia)). lia.
  - rewrite E. cbn [pbind]. assert (G : Z.gcd p (k mod p) = Z.gcd k p) by (rewrite Z.gcd_comm, Z.gcd_mod, Z.gcd_comm by lia; reflexivity). rewrite G in *. clear E G.
    destruct (Z.eqb_spec (Z.gcd k p) 1) as [Eg|Ng]; [|rewrite andb_false_r; reflexivity]. rewrite andb_true_r. cbn [pyassert pbind].
    rewrite !pymod_ok by lia. cbn [pbind]. rewrite Eg in D. destruct D as (c & D).
    assert (KX : (k * x) mod p = 1 mod p) by (replace (k * x) with (1 + (- c) * p) by lia; apply Z.mod_add; lia).
    destruct (Z.ltb_spec 1 p) as [H1|H1].
    + rewrite KX, Z.mod_1_l by lia. cbn [Z.eqb Pos.eqb pyassert pbind]. exists (x mod p). split; [reflexivity|].
      assert (KX' : (k * (x mod p)) mod p = 1) by (rewrite Zmult_mod_idemp_r, KX, Z.mod_1_l by lia; reflexivity). split; [|exact KX'].
      pose proof (Z.mod_pos_bound x p Hp). assert (x mod p <> 0); [|lia]. intros Z0. rewrite Z0, Z.mul_0_r, Z.mod_0_l in KX' by lia. discriminate.
    + assert (p = 1) as -> by lia. rewrite Z.mod_1_r. reflexivity.
Qed.
Lemma inverse_pos_bad k p : 0 < k -> p <= 0 -> exists e, inverse_pos k p = Raise e.
Proof.
  intros Hk Hp. unfold inverse_pos. destruct (Z.eq_dec p 0) as [->|N].
  - cbn [Z.abs]. destruct (fuel_succ 0) as (n & -> & _). cbn [inverse_loop Z.eqb pbind]. destruct (k =? 1); cbn [pyassert pbind]; [|exists AssertionError; reflexivity]. exists ZeroDivisionError. reflexivity.
  - set (q := - p). replace (Z.abs p) with q by (unfold q; lia). destruct (fuel_succ q) as (n & -> & En). rewrite first_step by lia.
    replace p with (- q) by (unfold q; lia). replace (k mod - q) with (- ((- k) mod q)) by (rewrite <- (Z.mod_opp_opp (- k) q) by (unfold q; lia); f_equal; lia).
    rewrite loop_neg. pose proof (Z.mod_pos_bound (- k) q ltac:(unfold q; lia)) as M. pose proof (fuel_bound q ltac:(unfold q; lia)) as FB.
    destruct (loop_ok 1 0 n q ((- k) mod q) 0 1 1 (- (k / - q))) as (x & y & E & D); [lia|rewrite En; nia|apply Z.divide_1_l|apply Z.divide_1_l|].
    rewrite E. cbn [pbind]. pose proof (Z.gcd_nonneg q (- k mod q)). rewrite (proj2 (Z.eqb_neq _ _)) by lia. exists AssertionError. reflexivity.
Qed.
(** [inverse_mod] returns exactly when there is an inverse, and then the one in (0, p) *)
Lemma inverse_mod_ok k p :
  if (1 <? p) && (Z.gcd k p =? 1) then exists x, inverse_mod k p = Ret x /\ 0 < x < p /\ (k * x) mod p = 1 else exists e, inverse_mod k p = Raise e.
Proof.
  unfold inverse_mod. destruct (Z.eqb_spec k 0) as [->|Nk].
  - rewrite Z.gcd_0_l. destruct (_ && _) eqn:E; [|exists ZeroDivisionError; reflexivity]. apply andb_prop in E as (E1 & E2). apply Z.ltb_lt in E1. apply Z.eqb_eq in E2. lia.
  - destruct (Z.ltb_spec k 0) as [K|K].
    + destruct (Z.leb_spec p 0) as [P0|P0].
      * rewrite (proj2 (Z.ltb_ge _ _)) by lia. cbn [andb]. destruct (inverse_pos_bad (- k) p ltac:(lia) P0) as (e & ->). exists e. reflexivity.
      * pose proof (inverse_pos_ok (- k) p ltac:(lia) P0) as H. rewrite Z.gcd_opp_l in H. destruct (_ && _).
        -- destruct H as (x & -> & R & E). cbn [pbind]. exists (p - x). split; [reflexivity|]. split; [lia|].
           replace (k * (p - x)) with (- k * x + k * p) by lia. rewrite Z.mod_add by lia. exact E.
        -- rewrite H. exists AssertionError. reflexivity.
    + destruct (Z.leb_spec p 0) as [P0|P0].
      * rewrite (proj2 (Z.ltb_ge _ _)) by lia. cbn [andb]. apply inverse_pos_bad; lia.
      * pose proof (inverse_pos_ok k p ltac:(lia) P0) as H. destruct (_ && _); [exact H|]. rewrite H. exists AssertionError. reflexivity.
Qed.
Lemma inverse_mod_prime k p : prime p -> k mod p <> 0 -> exists x, inverse_mod k p = Ret x /\ 0 < x < p /\ (k * x) mod p = 1.
Proof.
  intros Pp N. pose proof (prime_ge_2 _ Pp) as G. pose proof (inverse_mod_ok k p) as H.
  assert (E : Z.gcd k p = 1). { apply Zgcd_1_rel_prime. apply rel_prime_sym. apply prime_rel_prime; [exact Pp|]. intros D. apply N. apply Z.mod_divide; [lia|exact D]. }
  rewrite E, (proj2 (Z.ltb_lt 1 p)) in H by lia. exact H.
Qed.
Lemma inverse_mod_zero p : inverse_mod 0 p = Raise ZeroDivisionError. Proof. reflexivity. Qed.

(** the field *)
Section RING.
Variable p : Z.
Hypothesis Pp : prime p.
Notation mk := (zmk p Pp).
Notation F := (Zp p Pp).
Let P1 : 1 < p. Proof. pose proof (prime_ge_2 _ Pp). lia. Qed.
Lemma mk_add x y : mk (x + y) = @fadd F (mk x) (mk y).
Proof. apply zmk_eq. rewrite !zval_mk, Zplus_mod_idemp_l, Zplus_mod_idemp_r. reflexivity. Qed.
Lemma mk_mul x y : mk (x * y) = @fmul F (mk x) (mk y).
Proof. apply zmk_eq. rewrite !zval_mk, Zmult_mod_idemp_l, Zmult_mod_idemp_r. reflexivity. Qed.
Lemma mk_sub x y : mk (x - y) = @fsub F (mk x) (mk y).
Proof. apply zmk_eq. rewrite !zval_mk, Zminus_mod_idemp_l, Zminus_mod_idemp_r. reflexivity. Qed.
Lemma mk_opp x : mk (- x) = @fopp F (mk x).
Proof. apply zmk_eq. rewrite !zval_mk, <- Z.sub_0_l, <- (Z.sub_0_l (x mod p)), Zminus_mod_idemp_r. reflexivity. Qed.
Lemma mk_0 : mk 0 = @f0 F. Proof. reflexivity. Qed.
Lemma mk_1 : mk 1 = @f1 F. Proof. reflexivity. Qed.
Lemma mk_2 : mk 2 = @fadd F f1 f1. Proof. exact (mk_add 1 1). Qed.
Lemma mk_3 : mk 3 = @fadd F f1 (fadd f1 f1). Proof. change 3 with (1 + (1 + 1)). rewrite !mk_add. reflexivity. Qed.
Lemma mk_mod x : mk (x mod p) = mk x. Proof. apply zmk_eq. apply Z.mod_mod. lia. Qed.
Lemma mk_p : mk p = @f0 F. Proof. rewrite <- mk_0. apply zmk_eq. rewrite Z.mod_same, Z.mod_0_l by lia. reflexivity. Qed.
Lemma mk_zero x : mk x = @f0 F <-> x mod p = 0.
Proof.
  rewrite <- mk_0. split; intros H; [|apply zmk_eq; rewrite H, Z.mod_0_l by lia; reflexivity].
  apply (f_equal zval) in H. rewrite !zval_mk, Z.mod_0_l in H by lia. exact H.
Qed.
Lemma mk_inj x y : 0 <= x < p -> 0 <= y < p -> mk x = mk y -> x = y.
Proof. intros Hx Hy H. apply (f_equal zval) in H. rewrite !zval_mk, !Z.mod_small in H by lia. exact H. Qed.
End RING.
