(** Euler's criterion from Gauss's lemma and root counting; the sign product is the Jacobi symbol. *)
From Coq Require Import List ZArith Znumtheory Zpow_facts Bool Lia Permutation.
From Verif Require Import JacobiSpec Residues.
Import ListNotations.
Open Scope Z_scope.

(** polynomials as coefficient lists, constant term first *)
Fixpoint peval (P : list Z) (x : Z) : Z := match P with [] => 0 | c :: P => c + x * peval P x end.
Fixpoint padd (P Q : list Z) : list Z := match P, Q with [], _ => Q | _, [] => P | a :: P, b :: Q => (a + b) :: padd P Q end.
Lemma peval_padd P : forall Q x, peval (padd P Q) x = peval P x + peval Q x.
Proof. induction P as [|a P IH]; intros [|b Q] x; cbn [padd peval]; try lia. rewrite IH. ring. Qed.
Lemma peval_scale k P x : peval (map (Z.mul k) P) x = k * peval P x.
Proof. induction P as [|a P IH]; cbn [map peval]; [lia|]. rewrite IH. ring. Qed.
Lemma padd_length P : forall Q, (length Q <= length P)%nat -> length (padd P Q) = length P.
Proof. induction P as [|a P IH]; intros [|b Q] H; cbn [padd length] in *; try lia. rewrite IH; lia. Qed.
Lemma padd_last P : forall Q d, (length Q < length P)%nat -> last (padd P Q) d = last P d.
Proof.
  induction P as [|a P IH]; intros [|b Q] d H; cbn [padd length] in *; try lia.
  assert (HL : (length Q < length P)%nat) by lia. pose proof (padd_length P Q ltac:(lia)) as LL. specialize (IH Q d HL).
  destruct P as [|c P]; [cbn in HL; lia|]. destruct (padd (c :: P) Q) as [|e R] eqn:E; [cbn [length] in LL; lia|].
  cbn [last] in *. exact IH.
Qed.
(** division by x - r *)
Fixpoint pquot (P : list Z) (r : Z) : list Z :=
  match P with [] => [] | _ :: P => match P with [] => [] | _ => padd P (map (Z.mul r) (pquot P r)) end end.
Lemma pquot_length P r : length (pquot P r) = (length P - 1)%nat.
Proof.
  induction P as [|a P IH]; [reflexivity|]. destruct P as [|b P]; [reflexivity|]. change (pquot (a :: b :: P) r) with (padd (b :: P) (map (Z.mul r) (pquot (b :: P) r))).
  rewrite padd_length; [cbn [length]; lia|]. rewrite map_length, IH. cbn [length]. lia.
Qed.
Lemma pquot_eval P r x : peval P x - peval P r = (x - r) * peval (pquot P r) x.
Proof.
  induction P as [|a P IH]; [cbn; lia|]. destruct P as [|b P]; [cbn; lia|].
  change (pquot (a :: b :: P) r) with (padd (b :: P) (map (Z.mul r) (pquot (b :: P) r))). rewrite peval_padd, peval_scale.
  set (P' := b :: P) in *. change (peval (a :: P') x) with (a + x * peval P' x). change (peval (a :: P') r) with (a + r * peval P' r).
  replace (a + x * peval P' x - (a + r * peval P' r)) with ((x - r) * peval P' x + r * (peval P' x - peval P' r)) by ring. rewrite IH. ring.
Qed.
Lemma pquot_last P r d : (2 <= length P)%nat -> last (pquot P r) d = last P d.
Proof.
  destruct P as [|a [|b P]]; cbn [length]; try lia. intros _. change (pquot (a :: b :: P) r) with (padd (b :: P) (map (Z.mul r) (pquot (b :: P) r))).
  rewrite padd_last; [reflexivity|]. rewrite map_length, pquot_length. cbn [length]. lia.
Qed.

Section PRIME.
Variable p : Z.
Hypothesis Hp : prime p.
Let p2 : 1 < p. Proof. apply prime_ge_2 in Hp. lia. Qed.

(** a monic polynomial of degree d has at most d roots *)
Lemma roots_bound d : forall P l, length P = S d -> last P 0 = 1 -> (forall x, In x l -> (p | peval P x)) ->
  (forall x y, In x l -> In y l -> (p | x - y) -> x = y) -> NoDup l -> (length l <= d)%nat.
Proof.
  induction d as [|d IH]; intros P l LP MP RP DP NP.
  - destruct l as [|x l]; [cbn; lia|]. exfalso. destruct P as [|c [|? ?]]; cbn [length] in LP; try lia. cbn [last] in MP. subst c.
    pose proof (RP x (or_introl eq_refl)) as H. cbn [peval] in H. rewrite Z.mul_0_r in H. destruct H as [k Hk]. assert (k <= 0 \/ 1 <= k) by lia. nia.
  - destruct l as [|r l]; [cbn; lia|]. cbn [length]. apply le_n_S. inversion NP as [|? ? N1 N2]; subst.
    apply (IH (pquot P r) l).
    + rewrite pquot_length. lia.
    + rewrite pquot_last by lia. exact MP.
    + intros x Hx. assert (D : (p | (x - r) * peval (pquot P r) x)).
      { rewrite <- pquot_eval. apply Z.divide_sub_r; apply RP; [right; exact Hx|left; reflexivity]. }
      apply prime_mult in D; [|exact Hp]. destruct D as [D|D]; [|exact D]. exfalso. apply N1. rewrite <- (DP x r); [exact Hx|right; exact Hx|left; reflexivity|exact D].
    + intros x y Hx Hy. apply DP; right; assumption.
    + exact N2.
Qed.
(** x^d - 1 *)
Definition xd1 (d : nat) : list Z := match d with O => [] | S d => -1 :: repeat 0 d ++ [1] end.
Lemma peval_mono k x : peval (repeat 0 k ++ [1]) x = x ^ Z.of_nat k.
Proof. induction k as [|k IH]; [cbn [repeat app peval]; change (Z.of_nat 0) with 0; rewrite Z.pow_0_r; ring|]. cbn [repeat app peval]. rewrite IH, Nat2Z.inj_succ, Z.pow_succ_r by lia. lia. Qed.
Lemma xd1_spec d x : (0 < d)%nat -> peval (xd1 d) x = x ^ Z.of_nat d - 1 /\ length (xd1 d) = S d /\ last (xd1 d) 0 = 1.
Proof.
  destruct d as [|d]; [lia|]. intros _. cbn [xd1]. split; [|split].
  - cbn [peval]. rewrite peval_mono, Nat2Z.inj_succ, Z.pow_succ_r by lia. lia.
  - cbn [length]. rewrite app_length, repeat_length. cbn [length]. lia.
  - change (-1 :: repeat 0 d ++ [1]) with ((-1 :: repeat 0 d) ++ [1]). apply last_last.
Qed.
Lemma power_roots d l : 0 < d -> (forall x, In x l -> x ^ d mod p = 1) -> (forall x y, In x l -> In y l -> (p | x - y) -> x = y) -> NoDup l -> Z.of_nat (length l) <= d.
Proof.
  intros Hd HR HD HN. pose proof (xd1_spec (Z.to_nat d) 0 ltac:(lia)) as (_ & L & M).
  assert ((length l <= Z.to_nat d)%nat); [|lia]. apply (roots_bound _ (xd1 (Z.to_nat d)) l L M); [|exact HD|exact HN].
  intros x Hx. destruct (xd1_spec (Z.to_nat d) x ltac:(lia)) as (-> & _). rewrite Z2Nat.id by lia. apply Z.mod_divide; [lia|].
  rewrite Zminus_mod, (HR x Hx). rewrite (Z.mod_small 1) by lia. reflexivity.
Qed.

Hypothesis Ho : Z.odd p = true.
Let Op : odd_pos p. Proof. split; [lia|exact Ho]. Qed.
Let h := half p.
Let Ep : p = 2 * h + 1. Proof. apply half_eq. exact Op. Qed.
Let h1 : 1 <= h. Proof. lia. Qed.

Lemma coprime a : ~ (p | a) -> rel_prime a p.
Proof. intros H. apply rel_prime_sym. apply prime_rel_prime; assumption. Qed.
Lemma cancel a b c : ~ (p | c) -> (a * c) mod p = (b * c) mod p -> a mod p = b mod p.
Proof.
  intros Hc E. assert (D : (p | (a - b) * c)). { apply Z.mod_divide; [lia|]. rewrite Z.mul_sub_distr_r, Zminus_mod, E, Z.sub_diag. reflexivity. }
  apply prime_mult in D; [|exact Hp]. destruct D as [[k D]|D]; [|contradiction]. replace a with (b + k * p) by lia. apply Z_mod_plus_full.
Qed.
Lemma small_prod l : (forall x, In x l -> 1 <= x <= h) -> ~ (p | prod (fun x => x) l).
Proof.
  induction l as [|x l IH]; intros H D.
  - cbn in D. destruct D as [k Hk]. assert (k <= 0 \/ 1 <= k) by lia. nia.
  - cbn [prod fold_right] in D. apply prime_mult in D; [|exact Hp]. destruct D as [D|D].
    + apply (small_div p Op x); [apply H; left; reflexivity|exact D].
    + apply IH; [|exact D]. intros y Hy. apply H. right. exact Hy.
Qed.
(** Gauss's lemma: the sign product is Euler's power *)
Lemma gauss_lemma a : ~ (p | a) -> a ^ h mod p = gs a p mod p.
Proof.
  intros Ha. apply cancel with (prod (fun x => x) (upto h)). { apply small_prod. intros x Hx. apply upto_in. exact Hx. }
  assert (E1 : a ^ h * prod (fun x => x) (upto h) = prod (fun i => a * i) (upto h)).
  { rewrite prod_mul, prod_const, upto_length, Z2Nat.id by lia. reflexivity. }
  rewrite E1. rewrite (prod_cong _ (fun i => sgn p (a * i) * ares p (a * i))).
  - rewrite prod_mul. rewrite <- (prod_map (fun x => x) (fun i => ares p (a * i))). pose proof (prod_perm (fun x => x) _ _ (ares_perm p Op a (coprime a Ha))) as PP. fold h in PP. rewrite PP. reflexivity.
  - intros i _. destruct (sgn_ares p Op (a * i)) as [k Hk]. replace (a * i) with (sgn p (a * i) * ares p (a * i) + k * p) at 1 by lia. apply Z_mod_plus_full.
Qed.
Lemma unit_cong a : gs a p mod p = 1 -> gs a p = 1.
Proof.
  destruct (gs_unit p a) as [->| ->]; [reflexivity|]. intros E. exfalso. assert (-1 mod p = p - 1) by (symmetry; apply Z.mod_unique_pos with (-1); lia). lia.
Qed.
Lemma fermat a : ~ (p | a) -> a ^ (p - 1) mod p = 1.
Proof.
  intros Ha. replace (p - 1) with (h * 2) by lia. rewrite Z.pow_mul_r, Z.pow_2_r, Zmult_mod, gauss_lemma, <- Zmult_mod by (try lia; exact Ha).
  rewrite gs_sq. apply Z.mod_1_l. lia.
Qed.
Lemma square_power x : ~ (p | x) -> (x * x) ^ h mod p = 1.
Proof. intros Hx. rewrite <- Z.pow_2_r, <- Z.pow_mul_r by lia. replace (2 * h) with (p - 1) by lia. apply fermat. exact Hx. Qed.
(** Euler's criterion *)
Lemma euler_square a : ~ (p | a) -> square_mod a p -> gs a p = 1.
Proof.
  intros Ha [x Hx]. apply unit_cong. rewrite <- gauss_lemma by exact Ha. rewrite Zpow_facts.Zpower_mod by lia. rewrite <- Hx, <- Zpow_facts.Zpower_mod by lia. apply square_power.
  intros D. apply Ha. apply Z.mod_divide; [lia|]. rewrite <- Hx. apply Z.mod_divide; [lia|]. apply Z.divide_mul_l. exact D.
Qed.
Lemma euler_root a : ~ (p | a) -> gs a p = 1 -> exists x, 1 <= x <= h /\ (x * x) mod p = a mod p.
Proof.
  intros Ha Hg. destruct (existsb (fun x => (x * x) mod p =? a mod p) (upto h)) eqn:E.
  { apply existsb_exists in E. destruct E as (x & Hx & Ex). exists x. split; [apply upto_in; exact Hx|lia]. }
  exfalso. assert (NE : forall x, 1 <= x <= h -> (x * x) mod p <> a mod p).
  { intros x Hx Ex. assert (T : existsb (fun x => (x * x) mod p =? a mod p) (upto h) = true); [|congruence]. apply existsb_exists. exists x. split; [apply upto_in; exact Hx|]. apply Z.eqb_eq. exact Ex. }
  assert (ND : ~ (p | 0 + 0 + 1)) by (intros [k Hk]; nia). clear ND.
  assert (B : Z.of_nat (length (a mod p :: map (fun x => (x * x) mod p) (upto h))) <= h).
  { assert (R : forall x, 1 <= x <= h -> ~ (p | x)) by (intros x Hx; apply small_div; assumption).
    assert (PM : forall y, (y mod p) ^ h mod p = y ^ h mod p) by (intros y; rewrite <- Zpow_facts.Zpower_mod by lia; reflexivity).
    assert (I : forall x y, 1 <= x <= h -> 1 <= y <= h -> (x * x) mod p = (y * y) mod p -> x = y).
    { intros x y Hx Hy Exy. assert (D : (p | (x - y) * (x + y))). { apply Z.mod_divide; [lia|]. replace ((x - y) * (x + y)) with (x * x - y * y) by ring. rewrite Zminus_mod, Exy, Z.sub_diag. reflexivity. }
      apply prime_mult in D; [|exact Hp]. destruct D as [[k D]|[k D]].
      - assert (k = 0) by nia. lia.
      - assert (0 < k < 1) by nia. lia. }
    apply power_roots; [lia| | |].
    - intros y [<-|Hy].
      + rewrite PM, gauss_lemma, Hg by exact Ha. apply Z.mod_1_l. lia.
      + apply in_map_iff in Hy. destruct Hy as (x & <- & Hx). apply upto_in in Hx. rewrite PM. apply square_power. apply R. exact Hx.
    - assert (RG : forall y, In y (a mod p :: map (fun x => (x * x) mod p) (upto h)) -> 0 <= y < p).
      { intros y [<-|Hy]; [apply Z.mod_pos_bound; lia|]. apply in_map_iff in Hy. destruct Hy as (x & <- & _). apply Z.mod_pos_bound. lia. }
      intros x y Hx Hy [k D]. specialize (RG x Hx) as R1. specialize (RG y Hy) as R2. assert (k = 0) by nia. lia.
    - constructor.
      + rewrite in_map_iff. intros (x & Ex & Hx). apply upto_in in Hx. apply (NE x Hx). exact Ex.
      + apply NoDup_map_in; [|apply upto_nodup]. intros x y Hx Hy. apply upto_in in Hx. apply upto_in in Hy. apply I; assumption. }
  cbn [length] in B. rewrite map_length, upto_length in B. lia.
Qed.
(** there is a non-residue below p *)
Lemma nonresidue : exists z, 2 <= z < p /\ gs z p = -1.
Proof.
  destruct (existsb (fun z => gs z p =? -1) (upto (p - 1))) eqn:E.
  - apply existsb_exists in E. destruct E as (z & Hz & Ez). apply upto_in in Hz. exists z. apply Z.eqb_eq in Ez. split; [|exact Ez].
    assert (z <> 1); [|lia]. intros ->. rewrite gs_1 in Ez by exact Op. discriminate.
  - exfalso. assert (A : forall z, 1 <= z < p -> gs z p = 1).
    { intros z Hz. destruct (gs_unit p z) as [H|H]; [exact H|]. assert (T : existsb (fun z => gs z p =? -1) (upto (p - 1)) = true); [|congruence].
      apply existsb_exists. exists z. split; [apply upto_in; lia|]. rewrite H. reflexivity. }
    assert (Bd : Z.of_nat (length (upto (p - 1))) <= h).
    { assert (SD : forall z, 1 <= z < p -> ~ (p | z)). { intros z Hz [k Hk]. assert (k <= 0 \/ 1 <= k) by lia. nia. }
      apply power_roots; [lia| | |apply upto_nodup].
      - intros z Hz. apply upto_in in Hz. rewrite gauss_lemma by (apply SD; lia). rewrite A by lia. apply Z.mod_1_l. lia.
      - intros x y Hx Hy [k D]. apply upto_in in Hx. apply upto_in in Hy. assert (k = 0) by nia. lia. }
    rewrite upto_length in Bd. lia.
Qed.
Lemma legendre_gs a : ~ (p | a) -> legendre a p (gs a p).
Proof.
  intros Ha. destruct (gs_unit p a) as [E|E]; rewrite E.
  - apply leg_square; [exact Ha|]. destruct (euler_root a Ha E) as (x & _ & Hx). exists x. exact Hx.
  - apply leg_nonsquare; [exact Ha|]. intros S. pose proof (euler_square a Ha S). lia.
Qed.
End PRIME.

Lemma legendre_fun a p l l' : legendre a p l -> legendre a p l' -> l = l'.
Proof. intros [H|H1 H2|H1 H2] [H'|H1' H2'|H1' H2']; try reflexivity; contradiction. Qed.
Lemma legendre_values a p l : legendre a p l -> l = 0 \/ l = 1 \/ l = -1. Proof. intros []; tauto. Qed.
Lemma odd_factor p n : 0 < p -> odd_pos (p * n) -> odd_pos n /\ Z.odd p = true.
Proof. intros Hp [P O]. rewrite Z.odd_mul in O. apply andb_true_iff in O. split; [split; [nia|tauto]|tauto]. Qed.
(** for coprime arguments every Jacobi symbol derivation yields the sign product, otherwise 0 *)
Lemma jacobi_gs a n j : jacobi_symbol a n j -> odd_pos n -> (rel_prime a n -> j = gs a n) /\ (~ rel_prime a n -> j = 0).
Proof.
  induction 1 as [|p n l j Pp Ll Jn IH]; intros On.
  - split; [intros _|intros H; exfalso; apply H; apply rel_prime_sym; apply rel_prime_1]. reflexivity.
  - pose proof (prime_ge_2 p Pp) as P2. destruct (odd_factor p n ltac:(lia) On) as (On' & Op). destruct (IH On') as [I1 I2].
    assert (Opp : odd_pos p) by (split; [lia|exact Op]). split.
    + intros R. assert (Rp : rel_prime a p) by (apply rel_prime_sym; apply rel_prime_div with (p * n); [apply rel_prime_sym; exact R|exists n; ring]).
      assert (Rn : rel_prime a n) by (apply rel_prime_sym; apply rel_prime_div with (p * n); [apply rel_prime_sym; exact R|exists p; ring]).
      rewrite gs_mul_modulus by assumption. rewrite (I1 Rn). f_equal. apply legendre_fun with a p; [exact Ll|]. apply legendre_gs; try assumption.
      intros D. destruct Rp as [_ _ G]. specialize (G p D (Z.divide_refl p)). destruct G as [k Hk]. assert (k <= 0 \/ 1 <= k) by lia. nia.
    + intros R. destruct (rel_prime_dec a n) as [Rn|Rn]; [|rewrite (I2 Rn); ring].
      destruct Ll as [D|ND S|ND S]; [reflexivity| |]; exfalso; apply R; apply rel_prime_mult; try exact Rn; apply coprime; assumption.
Qed.
Lemma jacobi_symbol_fun a n j j' : odd_pos n -> jacobi_symbol a n j -> jacobi_symbol a n j' -> j = j'.
Proof.
  intros On H H'. destruct (jacobi_gs a n j H On) as [A B]. destruct (jacobi_gs a n j' H' On) as [A' B'].
  destruct (rel_prime_dec a n) as [R|R]; [rewrite A, A' by exact R|rewrite B, B' by exact R]; reflexivity.
Qed.
(** every odd positive number has a symbol *)
Lemma prime_factor n : 1 < n -> exists p, prime p /\ (p | n).
Proof.
  intros Hn. assert (G : forall k m, (Z.to_nat m <= k)%nat -> 1 < m -> exists p, prime p /\ (p | m)).
  { induction k as [|k IH]; intros m Hk Hm; [lia|]. destruct (prime_dec m) as [P|P]; [exists m; split; [exact P|apply Z.divide_refl]|].
    apply not_prime_divide in P; [|exact Hm]. destruct P as (d & Hd & D). destruct (IH d) as (p & Pp & Dp); [lia|lia|]. exists p. split; [exact Pp|]. apply Z.divide_trans with d; assumption. }
  apply (G (Z.to_nat n) n); [lia|exact Hn].
Qed.
Lemma legendre_total a p : prime p -> Z.odd p = true -> exists l, legendre a p l.
Proof.
  intros Pp Op. pose proof (prime_ge_2 p Pp). destruct (Zdivide_dec p a) as [D|D]; [exists 0; constructor; exact D|].
  exists (gs a p). apply legendre_gs; assumption.
Qed.
Lemma jacobi_symbol_total a n : odd_pos n -> exists j, jacobi_symbol a n j.
Proof.
  intros On. assert (G : forall k m, (Z.to_nat m <= k)%nat -> odd_pos m -> exists j, jacobi_symbol a m j).
  { induction k as [|k IH]; intros m Hk Om; [destruct Om; lia|]. destruct (Z.eq_dec m 1) as [->|N1]; [exists 1; constructor|].
    destruct (prime_factor m ltac:(destruct Om; lia)) as (p & Pp & q & Eq). pose proof (prime_ge_2 p Pp). rewrite Z.mul_comm in Eq. subst m.
    destruct (odd_factor p q ltac:(lia) Om) as (Oq & Op). destruct (IH q) as (j & Hj); [destruct Oq, Om; nia|exact Oq|].
    destruct (legendre_total a p Pp Op) as (l & Hl). exists (l * j). constructor; assumption. }
  apply (G (Z.to_nat n) n); [lia|exact On].
Qed.
Theorem jacobi_symbol_value a n : odd_pos n -> jacobi_symbol a n (if rel_prime_dec a n then gs a n else 0).
Proof.
  intros On. destruct (jacobi_symbol_total a n On) as (j & Hj). destruct (jacobi_gs a n j Hj On) as [A B].
  destruct (rel_prime_dec a n) as [R|R]; [rewrite <- (A R)|rewrite <- (B R)]; exact Hj.
Qed.
