(** Pocklington's criterion: a number n whose predecessor has a factored part above the square root of n is
    prime when powers of a base pass the test for every prime of the factored part. *)
From Coq Require Import List ZArith Znumtheory Zpow_facts Bool Lia.
From Verif Require Import Residues Legendre.
Import ListNotations.
Open Scope Z_scope.

Lemma prime_factor n : 1 < n -> exists r, prime r /\ (r | n).
Proof.
  intros H. assert (K : forall k : nat, forall n, 1 < n -> n < Z.of_nat k -> exists r, prime r /\ (r | n)).
  { induction k as [|k IH]; intros m H1 H2; [lia|]. destruct (prime_dec m) as [P|P]; [exists m; split; [exact P|apply Z.divide_refl]|].
    destruct (not_prime_divide m H1 P) as (d & (D1 & D2) & D). destruct (IH d D1 ltac:(lia)) as (r & R & E). exists r. split; [exact R|]. apply Z.divide_trans with d; assumption. }
  apply (K (S (Z.to_nat n)) n H). lia.
Qed.
(** a number without prime factors up to its square root is prime *)
Lemma prime_by_factors n : 1 < n -> (forall r, prime r -> (r | n) -> n < r * r) -> prime n.
Proof.
  intros H K. destruct (prime_dec n) as [P|P]; [exact P|]. exfalso. destruct (not_prime_divide n H P) as (d & (D1 & D2) & [e E]).
  assert (E1 : 1 < e) by nia. destruct (prime_factor d D1) as (r & R & [u U]). destruct (prime_factor e E1) as (s & S & [v V]).
  pose proof (prime_ge_2 _ R). pose proof (prime_ge_2 _ S).
  assert (B1 : n < r * r) by (apply (K r R); exists (e * u); rewrite E, U; ring).
  assert (B2 : n < s * s) by (apply (K s S); exists (d * v); rewrite E, V; ring).
  assert (u >= 1) by nia. assert (v >= 1) by nia. assert (r <= d) by nia. assert (s <= e) by nia.
  assert (SR : s * r <= n) by (rewrite E; apply Z.mul_le_mono_nonneg; lia). assert (s < r) by (apply Z.mul_lt_mono_pos_r with r; lia). assert (r < s); [|lia]. apply Z.mul_lt_mono_pos_r with s; lia.
Qed.
(** exponents that give 1 are closed under gcd *)
Lemma pow_gcd a m : 1 < m -> forall k x y : nat, (y < k)%nat -> a ^ Z.of_nat x mod m = 1 -> a ^ Z.of_nat y mod m = 1 -> a ^ Z.gcd (Z.of_nat x) (Z.of_nat y) mod m = 1.
Proof.
  intros M. induction k as [|k IH]; intros x y L X Y; [lia|]. destruct y as [|y].
  - rewrite Z.gcd_0_r, Z.abs_eq by lia. exact X.
  - rewrite Z.gcd_comm, <- Z.gcd_mod, Z.gcd_comm by lia. rewrite <- Nat2Z.inj_mod. apply IH.
    + pose proof (Nat.mod_upper_bound x (S y) ltac:(lia)). lia.
    + exact Y.
    + rewrite (Nat.div_mod x (S y)) in X by lia. rewrite Nat2Z.inj_add, Nat2Z.inj_mul, Z.pow_add_r, Z.pow_mul_r in X by lia.
      rewrite Z.mul_mod, (Zpower_mod (a ^ Z.of_nat (S y))), Y, Z.pow_1_l, Z.mod_1_l, Z.mul_1_l, Z.mod_mod in X by lia. exact X.
Qed.
Lemma divide_mod_1 a r n : 1 < r -> (r | n) -> 0 < n -> a mod n = 1 -> a mod r = 1.
Proof. intros R [k ->] N E. pose proof (Z.div_mod a (k * r) ltac:(lia)) as D. rewrite E in D. replace a with (1 + (k * (a / (k * r))) * r) by lia. rewrite Z.mod_add, Z.mod_1_l by lia. reflexivity. Qed.
Lemma pock_factor n r q e a : 1 < n -> prime r -> (r | n) -> prime q -> 0 <= e -> (q ^ e | n - 1) -> (q | n - 1) ->
  a ^ (n - 1) mod n = 1 -> rel_prime (a ^ ((n - 1) / q) - 1) n -> (q ^ e | r - 1).
Proof.
  intros N R D Q E QE Q1 A1 A2. pose proof (prime_ge_2 _ R) as R2. pose proof (prime_ge_2 _ Q) as Q2.
  assert (AR : a ^ (n - 1) mod r = 1) by (apply (divide_mod_1 _ r n); lia || assumption).
  assert (NA : ~ (r | a)).
  { intros K. assert (KD : (r | a ^ (n - 1))) by (apply Z.divide_trans with a; [exact K|]; exists (a ^ (n - 2)); replace (n - 1) with (Z.succ (n - 2)) by lia; rewrite Z.pow_succ_r by lia; ring).
    apply Z.mod_divide in KD; [|lia]. lia. }
  assert (FR : a ^ (r - 1) mod r = 1).
  { destruct (Z.eq_dec r 2) as [->|R3].
    - rewrite Z.pow_1_r. pose proof (Z.mod_pos_bound a 2 ltac:(lia)). destruct (Z.eq_dec (a mod 2) 0) as [Z0|]; [|lia]. apply Z.mod_divide in Z0; [contradiction|lia].
    - apply fermat; [exact R| |exact NA]. destruct (Z.odd r) eqn:O; [reflexivity|]. rewrite <- Z.negb_even in O. apply negb_false_iff, Z.even_spec in O. destruct O as [k K].
      destruct (prime_divisors r R 2 ltac:(exists k; lia)) as [|[|[|]]]; lia. }
  assert (G1 : a ^ Z.gcd (n - 1) (r - 1) mod r = 1).
  { replace (n - 1) with (Z.of_nat (Z.to_nat (n - 1))) by lia. replace (r - 1) with (Z.of_nat (Z.to_nat (r - 1))) by lia.
    apply (pow_gcd a r ltac:(lia) (S (Z.to_nat (r - 1)))); [lia|rewrite Z2Nat.id by lia; assumption..]. }
  set (g := Z.gcd (n - 1) (r - 1)) in *. assert (GP : 0 < g) by (pose proof (Z.gcd_nonneg (n - 1) (r - 1)); assert (g <> 0); [|unfold g in *; lia]; intros K; apply Z.gcd_eq_0_r in K; lia).
  destruct (Z.gcd_divide_l (n - 1) (r - 1)) as [h Hh]. fold g in Hh.
  assert (QH : ~ (q | h)).
  { intros [k K]. assert (X : (n - 1) / q = g * k) by (rewrite Hh, K; replace (k * q * g) with (g * k * q) by ring; apply Z.div_mul; lia).
    rewrite X, Z.pow_mul_r in A2 by nia. assert (Y : (a ^ g) ^ k mod r = 1) by (rewrite Zpower_mod, G1, Z.pow_1_l, Z.mod_1_l by nia; reflexivity).
    assert (Z0 : (r | (a ^ g) ^ k - 1)) by (exists ((a ^ g) ^ k / r); pose proof (Z.div_mod ((a ^ g) ^ k) r ltac:(lia)); lia).
    destruct A2 as [_ _ U]. specialize (U r Z0 D). apply Z.divide_1_r in U. lia. }
  apply Z.divide_trans with g; [|apply Z.gcd_divide_r]. apply Gauss with h.
  - rewrite Hh in QE. exact QE.
  - apply rel_prime_sym. apply rel_prime_Zpower_r; [exact E|]. apply rel_prime_sym. apply prime_rel_prime; assumption.
Qed.

(** the factored part: distinct primes with exponents *)
Definition fpart (l : list (Z * Z)) : Z := fold_right (fun qe x => fst qe ^ snd qe * x) 1 l.
Lemma fpart_divides l m : NoDup (map fst l) -> Forall (fun qe => prime (fst qe) /\ 0 <= snd qe /\ (fst qe ^ snd qe | m)) l -> (fpart l | m).
Proof.
  intros ND H. cut ((fpart l | m) /\ forall q, prime q -> ~ In q (map fst l) -> rel_prime q (fpart l)); [tauto|].
  induction l as [|[q e] l IH]; cbn [fpart fold_right fst snd map] in *.
  - split; [apply Z.divide_1_l|]. intros q _ _. apply rel_prime_sym, rel_prime_1.
  - inversion ND as [|? ? N1 N2]; subst. inversion H as [|? ? (Q & E & D) H2]; subst. cbn [fst snd] in *. destruct (IH N2 H2) as (D2 & R2). fold (fpart l) in *. split.
    + assert (RP : rel_prime (q ^ e) (fpart l)) by (apply rel_prime_sym, rel_prime_Zpower_r; [exact E|apply rel_prime_sym, R2; assumption]).
      destruct D2 as [k K]. rewrite K. apply Z.mul_divide_mono_r. rewrite K in D. rewrite Z.mul_comm in D. apply Gauss with (fpart l); assumption.
    + intros x X NX. apply rel_prime_mult.
      * apply rel_prime_Zpower_r; [exact E|]. apply prime_rel_prime; [exact X|]. intros DV. destruct (prime_divisors q Q x DV) as [K|[K|[K|K]]]; pose proof (prime_ge_2 _ X); pose proof (prime_ge_2 _ Q); try lia. apply NX. left. lia.
      * apply R2; [exact X|]. intros K. apply NX. right. exact K.
Qed.
Lemma pocklington n l : 1 < n -> NoDup (map fst l) -> n < fpart l * fpart l -> 0 < fpart l ->
  Forall (fun qe => prime (fst qe) /\ 0 < snd qe /\ (fst qe ^ snd qe | n - 1) /\ exists a, a ^ (n - 1) mod n = 1 /\ rel_prime (a ^ ((n - 1) / fst qe) - 1) n) l -> prime n.
Proof.
  intros N ND B FP H. apply prime_by_factors; [exact N|]. intros r R D. pose proof (prime_ge_2 _ R) as R2.
  assert (FD : (fpart l | r - 1)).
  { apply fpart_divides; [exact ND|]. eapply Forall_impl; [|exact H]. intros [q e] (Q & E & QE & a & A1 & A2). cbn [fst snd] in *. split; [exact Q|]. split; [lia|].
    apply (pock_factor n r q e a); try assumption; try lia. apply Z.divide_trans with (q ^ e); [|exact QE]. exists (q ^ (e - 1)). replace e with (Z.succ (e - 1)) at 1 by lia. rewrite Z.pow_succ_r by lia. ring. }
  apply Z.divide_pos_le in FD; [|lia]. nia.
Qed.
