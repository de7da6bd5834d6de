(** The field of integers modulo a prime, with Leibniz equality: residues are integers in [0, p). *)
From Coq Require Import ZArith Znumtheory Bool Lia Eqdep_dec Field.
From Verif Require Import EcGroup.
Open Scope Z_scope.

Definition in_range (p x : Z) : bool := (0 <=? x) && (x <? p).
Definition zp (p : Z) : Type := { x : Z | in_range p x = true }.
Definition zval {p} (x : zp p) : Z := proj1_sig x.
Lemma mod_in_range p x : 1 < p -> in_range p (x mod p) = true.
Proof. intros H. unfold in_range. pose proof (Z.mod_pos_bound x p ltac:(lia)). lia. Qed.
(** extended Euclid, for the inverse *)
Fixpoint inv_steps (n : nat) (r0 r1 t0 t1 : Z) : Z :=
  match n with
  | O => t0
  | S n => if r1 =? 0 then t0 else inv_steps n r1 (r0 mod r1) t1 (t0 - r0 / r1 * t1)
  end.
Definition zinv (p x : Z) : Z := inv_steps (2 * Pos.size_nat (Z.to_pos p) + 1) p x 0 1.

Lemma inv_steps_ok p x n : forall r0 r1 t0 t1, 0 <= r1 < r0 -> r0 * r1 < 2 ^ Z.of_nat n ->
  (p | r0 - t0 * x) -> (p | r1 - t1 * x) -> Z.gcd r0 r1 = 1 -> (p | 1 - inv_steps n r0 r1 t0 t1 * x).
Proof.
  induction n as [|n IH]; intros r0 r1 t0 t1 R B D0 D1 G.
  - cbn [inv_steps]. cbn in B. assert (r1 = 0) as -> by nia. rewrite Z.gcd_0_r, Z.abs_eq in G by lia. rewrite <- G at 1. exact D0.
  - cbn [inv_steps]. destruct (Z.eqb_spec r1 0) as [->|N].
    + rewrite Z.gcd_0_r, Z.abs_eq in G by lia. rewrite <- G at 1. exact D0.
    + pose proof (Z.mod_pos_bound r0 r1 ltac:(lia)) as M. pose proof (Z.div_mod r0 r1 N) as DM.
      assert (Q : 1 <= r0 / r1) by (apply Z.div_le_lower_bound; lia).
      apply IH.
      * lia.
      * rewrite Nat2Z.inj_succ, Z.pow_succ_r in B by lia. nia.
      * exact D1.
      * replace (r0 mod r1 - (t0 - r0 / r1 * t1) * x) with ((r0 - t0 * x) - r0 / r1 * (r1 - t1 * x)) by lia.
        apply Z.divide_sub_r; [exact D0|]. apply Z.divide_mul_r. exact D1.
      * rewrite Z.gcd_comm, Z.gcd_mod, Z.gcd_comm by lia. exact G.
Qed.
Lemma size_bound q : Zpos q < 2 ^ Z.of_nat (Pos.size_nat q).
Proof.
  induction q as [q IH|q IH|]; cbn [Pos.size_nat]; [| |reflexivity];
    rewrite Nat2Z.inj_succ, Z.pow_succ_r by lia; lia.
Qed.
Lemma zinv_ok p x : 1 < p -> 0 < x < p -> Z.gcd x p = 1 -> (zinv p x * x) mod p = 1.
Proof.
  intros Hp Hx G. unfold zinv. set (n := (2 * Pos.size_nat (Z.to_pos p) + 1)%nat).
  assert (D : (p | 1 - inv_steps n p x 0 1 * x)).
  { apply inv_steps_ok.
    - lia.
    - unfold n. pose proof (size_bound (Z.to_pos p)) as S. rewrite Z2Pos.id in S by lia.
      replace (Z.of_nat (2 * Pos.size_nat (Z.to_pos p) + 1)) with (Z.of_nat (Pos.size_nat (Z.to_pos p)) + Z.of_nat (Pos.size_nat (Z.to_pos p)) + 1) by lia.
      rewrite !Z.pow_add_r by lia. nia.
    - exists 1. lia.
    - exists 0. lia.
    - rewrite Z.gcd_comm. exact G. }
  destruct D as [k D]. replace (inv_steps n p x 0 1 * x) with (1 + (- k) * p) by lia.
  rewrite Z.mod_add by lia. apply Z.mod_small. lia.
Qed.

Section FIELD.
Variable p : Z.
Hypothesis Pp : prime p.
Let P1 : 1 < p. Proof. pose proof (prime_ge_2 _ Pp). lia. Qed.
Definition zmk (x : Z) : zp p := exist _ (x mod p) (mod_in_range p x P1).
Lemma zval_range (x : zp p) : 0 <= zval x < p.
Proof. destruct x as [x H]. cbn. unfold in_range in H. lia. Qed.
Lemma zval_inj (x y : zp p) : zval x = zval y -> x = y.
Proof. destruct x as [x H], y as [y K]. cbn. intros E. subst y. f_equal. apply UIP_dec. decide equality. Qed.
Lemma zval_mk x : zval (zmk x) = x mod p. Proof. reflexivity. Qed.
Lemma zmk_val x : zmk (zval x) = x.
Proof. apply zval_inj. rewrite zval_mk. apply Z.mod_small, zval_range. Qed.
Lemma zmk_eq x y : x mod p = y mod p -> zmk x = zmk y.
Proof. intros H. apply zval_inj. exact H. Qed.
Definition zp_dec (x y : zp p) : {x = y} + {x <> y}.
Proof.
  destruct (Z.eq_dec (zval x) (zval y)) as [e|n]; [left; apply zval_inj, e|right; congruence].
Defined.
Definition zp_theory : field_theory (zmk 0) (zmk 1) (fun x y => zmk (zval x + zval y)) (fun x y => zmk (zval x * zval y))
  (fun x y => zmk (zval x - zval y)) (fun x => zmk (- zval x)) (fun x y => zmk (zval x * zinv p (zval y))) (fun x => zmk (zinv p (zval x))) eq.
Proof.
  split; [split|..].
  - intros x. apply zval_inj. rewrite !zval_mk. rewrite Z.mod_0_l by lia. apply Z.mod_small, zval_range.
  - intros x y. apply zmk_eq. f_equal. lia.
  - intros x y z. apply zmk_eq. rewrite !zval_mk, Zplus_mod_idemp_l, Zplus_mod_idemp_r. f_equal. lia.
  - intros x. apply zval_inj. rewrite !zval_mk. rewrite Z.mod_1_l, Z.mul_1_l by lia. apply Z.mod_small, zval_range.
  - intros x y. apply zmk_eq. f_equal. lia.
  - intros x y z. apply zmk_eq. rewrite !zval_mk, Zmult_mod_idemp_l, Zmult_mod_idemp_r. f_equal. lia.
  - intros x y z. apply zmk_eq. rewrite !zval_mk, Zmult_mod_idemp_l, Zplus_mod_idemp_l, Zplus_mod_idemp_r. f_equal. lia.
  - intros x y. apply zmk_eq. rewrite !zval_mk, Zplus_mod_idemp_r. f_equal.
  - intros x. apply zmk_eq. rewrite !zval_mk, Zplus_mod_idemp_r. f_equal. lia.
  - intros H. apply (f_equal zval) in H. rewrite !zval_mk, Z.mod_1_l, Z.mod_0_l in H by lia. discriminate.
  - intros x y. apply zmk_eq. rewrite !zval_mk, Zmult_mod_idemp_r. reflexivity.
  - intros x N. apply zmk_eq. rewrite !zval_mk, Zmult_mod_idemp_l. rewrite Z.mod_1_l by lia. apply zinv_ok; [lia| |].
    + pose proof (zval_range x). assert (zval x <> 0); [|lia]. intros K. apply N. apply zval_inj. rewrite K, zval_mk, Z.mod_0_l by lia. reflexivity.
    + apply Zgcd_1_rel_prime. apply rel_prime_le_prime; [exact Pp|]. pose proof (zval_range x). assert (zval x <> 0); [|lia]. intros K. apply N. apply zval_inj. rewrite K, zval_mk, Z.mod_0_l by lia. reflexivity.
Qed.
Definition Zp : fieldT := mkfield (zp p) _ _ _ _ _ _ _ _ zp_dec zp_theory.
End FIELD.
