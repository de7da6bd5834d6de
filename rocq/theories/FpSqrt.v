(** fp_sqrt computes square roots modulo an odd prime (Tonelli-Shanks). *)
From Coq Require Import List ZArith Znumtheory Zpow_facts Bool Lia Setoid Morphisms.
From Verif Require Import Outcome LoopModel LoopProofs WordsModel WordsSpec BigintModel BigintSpec BigintProofs BigintBytes BigintClaims NumModel NumProofs NumClaims JacobiSpec Residues Legendre JacobiProofs FpModel FpSpec FpProofs.
Import ListNotations.
Open Scope Z_scope.

Lemma subs1_pos c x : valid c x -> neg x = false -> 0 < value x -> neg (subs1 c false (zero c) x 1) = false.
Proof.
  intros V N P. unfold subs1, add1_signed. rewrite N. change (cabs32 1) with 1. change (xorb false (negb (1 <? 0))) with true. cbn [negb].
  replace (Nat.ltb 1 (size x) || (word0 x >=? 1)) with true; [reflexivity|]. symmetry. apply orb_true_iff.
  destruct (Nat.ltb_spec 1 (size x)) as [H|H]; [left; reflexivity|right].
  pose proof V as (_ & S & _). rewrite value_sgn, N in P. cbn [BigintProofs.sgn] in P. rewrite (size1 c x V ltac:(lia)) in P. lia.
Qed.
Lemma divs1_pos c q x k y : neg x = false -> neg q = false -> 0 < k -> divs1 c q x k = Ok y -> neg y = false.
Proof.
  intros N Nq K. unfold divs1, div_mods1_q. destruct (can_resize c (size x)).
  - destruct (div_word (words x) (cabs32 k)) as [[ws r]| | |]; try discriminate. cbn [bind fst]. rewrite N. replace (k <? 0) with false by lia. cbn [xorb]. intros E. injection E as <-.
    unfold trim. destruct (length ws); cbn [neg set_neg]; [reflexivity|]. destruct (_ && _); reflexivity.
  - cbn [bind fst]. intros E. injection E as <-. reflexivity.
Qed.

Lemma pow_chain x a j : ((x ^ (2 ^ Z.of_nat a)) ^ 2) ^ (2 ^ Z.of_nat j) = x ^ (2 ^ Z.of_nat (a + 1 + j)).
Proof.
  pose proof (Z.pow_nonneg 2 (Z.of_nat a) ltac:(lia)). pose proof (Z.pow_nonneg 2 (Z.of_nat j) ltac:(lia)).
  rewrite <- Z.pow_mul_r by lia. rewrite <- Z.pow_mul_r by lia. f_equal. rewrite !Nat2Z.inj_add, !Z.pow_add_r by lia. change (2 ^ Z.of_nat 1) with 2. ring.
Qed.

Lemma pow2_last x j : (x ^ (2 ^ Z.of_nat j)) ^ 2 = x ^ (2 ^ Z.of_nat (S j)).
Proof. rewrite <- Z.pow_mul_r by lia. f_equal. rewrite Nat2Z.inj_succ, Z.pow_succ_r by lia. ring. Qed.
Lemma pow_idx x s j : (S j < s)%nat -> x ^ (2 ^ Z.of_nat (s - S j - 1 + 1 + j)) = x ^ (2 ^ Z.of_nat (s - 1)).
Proof. intros H. replace (s - S j - 1 + 1 + j)%nat with (s - 1)%nat by lia. reflexivity. Qed.

Lemma prime_2_or_odd n : prime n -> n = 2 \/ Z.odd n = true.
Proof.
  intros Pn. destruct (Z.odd n) eqn:O; [right; reflexivity|left]. rewrite <- Z.negb_even in O. apply negb_false_iff, Z.even_spec in O. destruct O as [k Hk].
  pose proof (prime_ge_2 _ Pn). destruct (Z.eq_dec n 2) as [|N]; [assumption|]. exfalso. destruct Pn as [_ Q]. specialize (Q 2 ltac:(lia)). destruct Q as [_ _ Q]. specialize (Q 2 (Z.divide_refl _)). destruct Q as [q Hq]; [exists k; lia|]. lia.
Qed.

Lemma zero_red c p : modulus_ok c p -> reduced c p (of_int c 0) /\ value (of_int c 0) = 0.
Proof. intros (Vp & P1 & _). destruct (of_int_value c 0 (valid_room1 c p Vp) ltac:(lia)) as ((V & _) & E). rewrite E. split; [split; [exact V|lia]|reflexivity]. Qed.

Section SQRT.
Variable c : cap.
Variable p : bigint.
Hypothesis Hp : modulus_ok c p.
Hypothesis Pp : prime (value p).
Hypothesis Op : Z.odd (value p) = true.
Let Vp : valid c p. Proof. apply Hp. Qed.
Let P1 : 1 < value p. Proof. apply Hp. Qed.
Notation P := (value p).
Inductive cgr (a b : Z) : Prop := Cgr : a mod P = b mod P -> cgr a b.
Notation "a == b" := (cgr a b) (at level 70).
Lemma cgr_mod a b : a == b <-> a mod P = b mod P. Proof. split; [intros [H]; exact H|apply Cgr]. Qed.
#[local] Instance cgr_equiv : Equivalence cgr.
Proof. split; [intros a; constructor; reflexivity|intros a b [H]; constructor; congruence|intros a b d [H] [H']; constructor; congruence]. Qed.
#[local] Instance pow_cgr : Proper (cgr ==> eq ==> cgr) Z.pow.
Proof. intros a b [E] k k' <-. constructor. rewrite (Zpower_mod a), (Zpower_mod b), E by lia. reflexivity. Qed.
#[local] Instance mul_cgr : Proper (cgr ==> cgr ==> cgr) Z.mul.
Proof. intros a b [E] d e [E']. constructor. rewrite (Zmult_mod a), (Zmult_mod b), E, E'. reflexivity. Qed.
Lemma cgr_eq a b : a = b -> a == b. Proof. intros ->. reflexivity. Qed.
Lemma red_eqm1 x : reduced c p x -> value x == 1 -> value x = 1.
Proof. intros (_ & R) [E]. rewrite !Z.mod_small in E by lia. exact E. Qed.
Lemma rep_eqm x v : represents c p x v -> reduced c p x /\ value x == v.
Proof. intros (R & E). split; [exact R|]. constructor. rewrite E at 1. apply Z.mod_mod. lia. Qed.
Lemma sq_step x : reduced c p x -> exists r, sqr_mod c x p = Ok r /\ reduced c p r /\ value r == value x ^ 2.
Proof.
  intros Hx. destruct (sqr_mod_val c p Hp x Hx) as (r & E & R). exists r. split; [exact E|]. destruct (rep_eqm _ _ R) as (? & ?). split; [assumption|]. rewrite Z.pow_2_r. assumption.
Qed.
Lemma mul_step x y : reduced c p x -> reduced c p y -> exists r, op_mod c (op_mul c x y) p = Ok r /\ reduced c p r /\ value r == value x * value y.
Proof. intros Hx Hy. destruct (mulmod_val c p Hp x y Hx Hy) as (r & E & R). exists r. split; [exact E|]. apply rep_eqm. exact R. Qed.
Lemma pow2_succ j x : (x ^ 2) ^ (2 ^ Z.of_nat j) = x ^ (2 ^ Z.of_nat (S j)).
Proof. rewrite <- Z.pow_mul_r by lia. f_equal. rewrite Nat2Z.inj_succ, Z.pow_succ_r by lia. reflexivity. Qed.
Lemma sqr_times_val k : forall b, reduced c p b -> exists r, sqr_times c p k b = Ok r /\ reduced c p r /\ value r == value b ^ (2 ^ Z.of_nat k).
Proof.
  induction k as [|k IH]; intros b Hb.
  - exists b. split; [reflexivity|]. split; [exact Hb|]. change (2 ^ Z.of_nat 0) with 1. rewrite Z.pow_1_r. reflexivity.
  - cbn [sqr_times]. destruct (sq_step b Hb) as (b1 & -> & R1 & E1). cbn [bind]. destruct (IH b1 R1) as (r & Er & R & E). exists r. split; [exact Er|]. split; [exact R|].
    rewrite E, E1, pow2_succ. reflexivity.
Qed.
Lemma eq1 x : reduced c p x -> (compares1 x 1 =? 0) = (value x =? 1).
Proof. intros (V & _). pose proof (compares1_spec c x 1 V ltac:(unfold int32; lia)) as C. unfold cmp_result in C. lia. Qed.
Lemma find_m_val k : forall m z, reduced c p z -> value z <> 1 -> (1 <= k)%nat -> value z ^ (2 ^ Z.of_nat (k - 1)) == 1 ->
  exists j, find_m c p k m z = Ok (Some (m + S j)%nat) /\ (S j < k)%nat /\ value z ^ (2 ^ Z.of_nat (S j)) == 1 /\ ~ value z ^ (2 ^ Z.of_nat j) == 1.
Proof.
  induction k as [|k IH]; intros m z Hz N K E; [lia|]. cbn [find_m]. replace (S k - 1)%nat with k in E by lia.
  destruct k as [|k].
  { exfalso. apply N. change (2 ^ Z.of_nat 0) with 1 in E. rewrite Z.pow_1_r in E. apply red_eqm1; assumption. }
  destruct (sq_step z Hz) as (z1 & -> & R1 & E1). cbn [bind]. rewrite (eq1 z1 R1). destruct (Z.eqb_spec (value z1) 1) as [One|Not].
  - exists 0%nat. split; [do 2 f_equal; lia|]. split; [lia|]. change (2 ^ Z.of_nat 0) with 1. change (2 ^ Z.of_nat 1) with 2. rewrite Z.pow_1_r. rewrite <- E1, One. split; [reflexivity|].
    intros Q. apply N. apply red_eqm1; assumption.
  - destruct (IH (S m) z1 R1 Not ltac:(lia)) as (j & Ej & L & E2 & N2).
    { rewrite E1, pow2_succ. replace (S (S k - 1)) with (S k) by lia. exact E. }
    exists (S j). rewrite Ej. split; [do 2 f_equal; lia|]. split; [lia|]. rewrite E1, pow2_succ in E2. rewrite E1, pow2_succ in N2. split; assumption.
Qed.
Lemma root_of_one x : x ^ 2 == 1 -> ~ x == 1 -> x == -1.
Proof.
  intros [E] N. rewrite cgr_mod in *. assert (D : (P | (x - 1) * (x + 1))).
  { apply Z.mod_divide; [lia|]. replace ((x - 1) * (x + 1)) with (x ^ 2 - 1) by ring. rewrite Zminus_mod, E, Z.sub_diag. apply Z.mod_0_l. lia. }
  apply prime_mult in D; [|exact Pp]. destruct D as [D|D].
  - exfalso. apply N. apply Z.mod_divide in D; [|lia]. replace x with ((x - 1) + 1) by ring. rewrite Zplus_mod, D, Z.add_0_l. apply Z.mod_mod. lia.
  - apply Z.mod_divide in D; [|lia]. replace x with ((x + 1) + -1) by ring. rewrite Zplus_mod, D, Z.add_0_l. apply Z.mod_mod. lia.
Qed.
Lemma mul_sq_cgr r b r1 n t c1 t1 : r ^ 2 == n * t -> c1 == b ^ 2 -> r1 == r * b -> t1 == t * c1 -> r1 ^ 2 == n * t1.
Proof.
  intros A B0 C D. rewrite C, D, Z.pow_mul_l, A, B0. apply cgr_eq. ring.
Qed.
Lemma tonelli_val n fuel : forall cc r t s, reduced c p cc -> reduced c p r -> reduced c p t -> (1 <= s <= S fuel)%nat ->
  value r ^ 2 == n * value t -> value t ^ (2 ^ Z.of_nat (s - 1)) == 1 -> value cc ^ (2 ^ Z.of_nat (s - 1)) == -1 ->
  exists y, tonelli fuel c p cc r t s = Ok y /\ reduced c p y /\ value y ^ 2 == n.
Proof.
  induction fuel as [|fuel IH]; intros cc r t s Hc Hr Ht S Er Et Ec; cbn [tonelli]; rewrite (eq1 t Ht); destruct (Z.eqb_spec (value t) 1) as [T|T].
  1,3: exists r; split; [reflexivity|]; split; [exact Hr|]; rewrite Er, T, Z.mul_1_r; reflexivity.
  - exfalso. apply T. replace (s - 1)%nat with 0%nat in Et by lia. change (2 ^ Z.of_nat 0) with 1 in Et. rewrite Z.pow_1_r in Et. apply red_eqm1; assumption.
  - destruct (find_m_val s 0 t Ht T ltac:(lia) Et) as (j & -> & Lj & Ej & Nj). cbn [bind]. replace (0 + Datatypes.S j)%nat with (Datatypes.S j) by lia.
    destruct (sqr_times_val (s - Datatypes.S j - 1) cc Hc) as (b & -> & Rb & Eb). cbn [bind].
    destruct (sq_step b Rb) as (c1 & -> & Rc1 & Ec1). cbn [bind]. destruct (mul_step r b Hr Rb) as (r1 & -> & Rr1 & Er1). cbn [bind].
    destruct (mul_step t c1 Ht Rc1) as (t1 & -> & Rt1 & Et1). cbn [bind].
    assert (C : value c1 ^ (2 ^ Z.of_nat j) == -1).
    { transitivity (value cc ^ (2 ^ Z.of_nat (s - 1))); [|exact Ec]. rewrite Ec1, Eb. rewrite pow_chain. rewrite pow_idx by lia. reflexivity. }
    apply (IH c1 r1 t1 (Datatypes.S j) Rc1 Rr1 Rt1).
    { clear -Lj S. lia. }
    + apply (mul_sq_cgr (value r) (value b) (value r1) n (value t) (value c1) (value t1) Er Ec1 Er1 Et1).
    + replace (Datatypes.S j - 1)%nat with j by (clear; lia). 
      assert (T1 : value t ^ (2 ^ Z.of_nat j) == -1). { apply root_of_one; [|exact Nj]. rewrite <- pow2_last in Ej. exact Ej. }
      rewrite Et1, Z.pow_mul_l, C, T1. reflexivity.
    + replace (Datatypes.S j - 1)%nat with j by (clear; lia). exact C.
Qed.

Lemma Op' : odd_pos P. Proof. split; [lia|exact Op]. Qed.
Lemma n_not2 : P <> 2. Proof. intros E. rewrite E in Op. discriminate. Qed.
Lemma modexp_val x y : reduced c p x -> valid c y -> neg y = false -> exists r, op_modexp c x y p = Ok r /\ reduced c p r /\ value r == value x ^ value y.
Proof.
  intros Hx Vy Ny. pose proof Hx as (Vx & Rx). unfold op_modexp. pose proof (red_size c p Hp x Hx) as S.
  destruct (modexp_claim c (zero c) x y p (zero_valid c p Vp) Vx Vy Vp ltac:(lia) Ny ltac:(lia)) as (r & -> & Vr & Er).
  { apply room_le with (2 * size p)%nat; [apply Hp|lia]. }
  { right. lia. }
  cbn [bind]. exists r. split; [reflexivity|]. pose proof (Z.mod_pos_bound (value x ^ value y) P ltac:(lia)). apply rep_eqm. split; [split; [exact Vr|lia]|exact Er].
Qed.
Lemma find_z : exists z, run_loop (32 * size p + 1) (find_z_step c p) (of_int c 2) = Ok z /\ reduced c p z /\ 2 <= value z /\ gs (value z) P = -1.
Proof.
  destruct (nonresidue P Pp Op) as (z0 & R0 & G0). pose proof (valid_room1 c p Vp) as R1.
  apply (run_loop_ind (find_z_step c p) (fun z => valid c z /\ 2 <= value z <= z0) (fun o => exists z, o = Ok z /\ reduced c p z /\ 2 <= value z /\ gs (value z) P = -1) (fun z => z0 - value z)).
  - intros z (_ & ?). lia.
  - intros z (Vz & Rz). unfold find_z_step. assert (Hz : reduced c p z) by (split; [exact Vz|lia]).
    assert (Rel : rel_prime (value z) P). { apply (coprime P Pp). intros D. apply Z.divide_pos_le in D; lia. }
    rewrite (jacobi_gs_spec c z p Vz Vp Op'). destruct (rel_prime_dec (value z) P) as [_|N]; [|contradiction].
    destruct (Z.eqb_spec (gs (value z) P) (-1)) as [E|E]; [exists z; split; [reflexivity|]; split; [exact Hz|]; split; [lia|exact E]|].
    destruct (adds1_spec c true z z 1 (valid_storage _ _ Vz) Vz ltac:(unfold int32; lia) (room_r c p Hp z (red_size c p Hp z Hz)) ltac:(reflexivity)) as (V' & E').
    assert (value z <> z0) by (intros Q; apply E; rewrite Q; exact G0). split; [split; [exact V'|lia]|lia].
  - destruct (of_int_value c 2 R1 ltac:(lia)) as ((V & _) & ->). split; [exact V|lia].
  - destruct (of_int_value c 2 R1 ltac:(lia)) as (_ & ->). pose proof (abs_value_bound c p Vp) as Bn. rewrite Nat2Z.inj_add, Nat2Z.inj_mul, Z.pow_add_r by lia. change (Z.of_nat 32) with 32. change (2 ^ Z.of_nat 1) with 2. lia.
Qed.
(** the exponents: P - 1 = 2^s q *)
Lemma half_split s q : 0 <= s -> P - 1 = 2 ^ s * q -> Z.odd q = true -> 1 <= s /\ half P = q * 2 ^ Z.of_nat (Z.to_nat s - 1).
Proof.
  intros S E Q. pose proof (half_eq P Op') as H. assert (S1 : 1 <= s). { destruct (Z.eq_dec s 0) as [->|]; [|lia]. rewrite Z.pow_0_r, Z.mul_1_l in E. exfalso. rewrite <- E in Q. replace (P - 1) with (2 * half P) in Q by lia. rewrite Z.odd_mul in Q. discriminate. }
  split; [exact S1|]. replace s with (Z.succ (Z.of_nat (Z.to_nat s - 1))) in E by lia. rewrite Z.pow_succ_r in E by lia. lia.
Qed.
Lemma gs_power a : ~ (P | a) -> a ^ half P == gs a P.
Proof. intros D. constructor. apply gauss_lemma; assumption. Qed.
Lemma square_gs n : ~ (P | n) -> square_mod n P -> gs n P = 1. Proof. apply euler_square; assumption. Qed.
Lemma red_ndiv x : reduced c p x -> value x <> 0 -> ~ (P | value x).
Proof. intros (_ & R) N D. apply Z.divide_pos_le in D; lia. Qed.
Lemma neg_of_pos x : valid c x -> 0 < value x -> neg x = false.
Proof. intros V H. pose proof (magnitude_range c x V) as M. rewrite value_sgn in H. destruct (neg x); [cbn [BigintProofs.sgn] in H; lia|reflexivity]. Qed.
Lemma sqrt34 n : reduced c p n -> value n <> 0 -> square_mod (value n) P -> P mod 4 = 3 ->
  exists e, divs1 c (zero c) (adds1 c false (zero c) p 1) 4 = Ok e /\ exists r, op_modexp c n e p = Ok r /\ reduced c p r /\ value r ^ 2 == value n.
Proof.
  intros Hn N0 Sq M. pose proof (zst c p Hp) as Zs.
  destruct (adds1_spec c false (zero c) p 1 Zs Vp ltac:(unfold int32; lia) (room_r c p Hp p (le_n _)) ltac:(discriminate)) as (V1 & E1).
  destruct (divs1_spec c (zero c) _ 4 Zs V1 ltac:(unfold int32; lia) ltac:(lia)) as (e & Ee & Ve & E). exists e. split; [exact Ee|].
  rewrite E1, Z.quot_div_nonneg in E by lia. pose proof (Z_div_mod_eq_full P 4) as D. rewrite M in D.
  assert (Ev : value e = P / 4 + 1) by (rewrite E; symmetry; apply (Zdiv_unique _ _ _ 0); lia). assert (0 <= P / 4) by (apply Z.div_pos; lia).
  destruct (modexp_val n e Hn Ve (neg_of_pos e Ve ltac:(lia))) as (r & Er & Hr & Rr). exists r. split; [exact Er|]. split; [exact Hr|].
  rewrite Rr. rewrite <- Z.pow_mul_r by lia. pose proof (half_eq P Op') as Hh. replace (value e * 2) with (Z.succ (half P)) by lia. rewrite Z.pow_succ_r by lia.
  rewrite (gs_power _ (red_ndiv n Hn N0)), (square_gs _ (red_ndiv n Hn N0) Sq). rewrite Z.mul_1_r. reflexivity.
Qed.
Lemma sqrt_general n : reduced c p n -> value n <> 0 -> square_mod (value n) P ->
  exists r, (let q := subs1 c false (zero c) p 1 in
      let* qs := run_loop (32 * size q + 1) ctz_step (q, 0) in
      let '(q, s) := qs in
      let* z := run_loop (32 * size p + 1) (find_z_step c p) (of_int c 2) in
      let* cc := op_modexp c z q p in
      let* e := divs1 c (zero c) (subs1 c false (zero c) q 1) 2 in
      let* r := op_modexp c n e p in
      let* r2 := sqr_mod c r p in
      let* t := op_mod c (op_mul c r2 n) p in
      let* r := op_mod c (op_mul c n r) p in
      tonelli (Z.to_nat s) c p cc r t (Z.to_nat s)) = Ok r /\ reduced c p r /\ value r ^ 2 == value n.
Proof.
  intros Hn N0 Sq. pose proof (zst c p Hp) as Zs. cbv zeta.
  destruct (subs1_spec c false (zero c) p 1 Zs Vp ltac:(unfold int32; lia) (room_r c p Hp p (le_n _)) ltac:(discriminate)) as (V1 & E1).
  destruct (ctz_spec c (subs1 c false (zero c) p 1) V1 ltac:(lia)) as (q & s & Eq & Vq & S0 & Es & Oq & Pq). unfold count_trailing_zero in Eq. rewrite Eq. cbn [bind].
  rewrite E1 in Es. destruct (half_split s (value q) S0 Es Oq) as (S1 & Hh).
  assert (Hq : reduced c p q). { split; [exact Vq|]. pose proof (Z.pow_le_mono_r 2 1 s ltac:(lia) ltac:(lia)). clear -Es Pq P1 H. nia. }
  destruct find_z as (z & -> & Hz & Z2 & Gz). cbn [bind]. destruct (modexp_val z q Hz Vq (neg_of_pos q Vq Pq)) as (cc & -> & Rc & Ec). cbn [bind].
  destruct (subs1_spec c false (zero c) q 1 Zs Vq ltac:(unfold int32; lia) (room_r c p Hp q (red_size c p Hp q Hq)) ltac:(discriminate)) as (V2 & E2).
  destruct (divs1_spec c (zero c) _ 2 Zs V2 ltac:(unfold int32; lia) ltac:(lia)) as (e & Ee & Ve & Ev). rewrite Ee. cbn [bind].
  assert (Ne : neg e = false). { apply (divs1_pos c (zero c) _ 2 e) in Ee; [exact Ee| |reflexivity|lia]. apply subs1_pos; [exact Vq|apply neg_of_pos; assumption|exact Pq]. }
  rewrite E2, Z.quot_div_nonneg in Ev by lia.
  assert (Q2 : value q = 2 * value e + 1). { rewrite Ev. rewrite Zodd_mod in Oq. apply Zeq_bool_eq in Oq. pose proof (Z_div_mod_eq_full (value q) 2) as D. rewrite Oq in D.
    assert (X : (value q - 1) / 2 = value q / 2) by (symmetry; apply (Zdiv_unique_full _ _ _ 0); [left; lia|lia]) || assert (X : (value q - 1) / 2 = value q / 2) by (apply (Z.div_unique_exact); lia). lia. }
  destruct (modexp_val n e Hn Ve Ne) as (r & -> & Rr & Er). cbn [bind].
  destruct (sq_step r Rr) as (r2 & -> & Rr2 & Er2). cbn [bind].
  destruct (mul_step r2 n Rr2 Hn) as (t & -> & Rt & Et). cbn [bind].
  destruct (mul_step n r Hn Rr) as (r' & -> & Rr' & Er'). cbn [bind].
  assert (E0 : 0 <= value e) by (rewrite Ev; apply Z.div_pos; lia).
  assert (Tq : value t == value n ^ value q).
  { rewrite Et, Er2, Er, <- Z.pow_mul_r by lia. replace (value n ^ (value e * 2) * value n) with (value n ^ Z.succ (value e * 2)) by (rewrite Z.pow_succ_r by lia; ring). apply cgr_eq. f_equal. lia. }
  apply (tonelli_val (value n) (Z.to_nat s) cc r' t (Z.to_nat s) Rc Rr' Rt).
  - lia.
  - rewrite Er', Et, Er2. apply cgr_eq. ring.
  - rewrite Tq, <- Z.pow_mul_r, <- Hh by (try apply Z.pow_nonneg; lia). rewrite (gs_power _ (red_ndiv n Hn N0)), (square_gs _ (red_ndiv n Hn N0) Sq). reflexivity.
  - assert (Zn : value z <> 0) by lia.
    rewrite Ec, <- Z.pow_mul_r, <- Hh by (try apply Z.pow_nonneg; lia). rewrite (gs_power _ (red_ndiv z Hz Zn)), Gz. reflexivity.
Qed.

Lemma cgr_sq x y : x ^ 2 == y -> (x * x) mod P = y mod P. Proof. intros [H]. rewrite <- Z.pow_2_r. exact H. Qed.
Lemma fp_sqrt_odd n : reduced c p n ->
  exists r, fp_sqrt c n p = Ok r /\ reduced c p r /\ (square_mod (value n) P -> (value r * value r) mod P = value n mod P) /\ (~ square_mod (value n) P -> value r = 0).
Proof.
  intros Hn. pose proof Hn as (Vn & Rn). unfold fp_sqrt.
  destruct (jacobi_prime_claim c n p Vn Vp Pp n_not2) as (j & -> & J0 & J1 & J2). cbn [bind].
  destruct (Z.eqb_spec j 1) as [E|E]; cbn [negb].
  - destruct (proj1 J1 E) as (D & Sq). assert (N0 : value n <> 0). { intros Q. apply D. rewrite Q. apply Z.divide_0_r. }
    destruct (mods1_spec c (zero c) p 4 (zst c p Hp) Vp ltac:(unfold int32; lia) ltac:(lia)) as (p4 & -> & V4 & E4 & _). cbn [bind]. rewrite Z.rem_mod_nonneg in E4 by lia.
    pose proof (compares1_spec c p4 3 V4 ltac:(unfold int32; lia)) as C. unfold cmp_result in C. destruct (Z.eqb_spec (compares1 p4 3) 0) as [Q|Q].
    + destruct (sqrt34 n Hn N0 Sq ltac:(lia)) as (e & -> & r & Er & Hr & R). cbn [bind]. exists r. split; [exact Er|]. split; [exact Hr|]. split; [intros _; apply cgr_sq; exact R|intros Ns; contradiction].
    + destruct (sqrt_general n Hn N0 Sq) as (r & Er & Hr & R). exists r. split; [exact Er|]. split; [exact Hr|]. split; [intros _; apply cgr_sq; exact R|intros Ns; contradiction].
  - destruct (zero_red c p Hp) as (Z1 & Z2). exists (of_int c 0). split; [reflexivity|]. split; [exact Z1|]. rewrite Z2. split; [|reflexivity]. intros Sq.
    assert (D : (P | value n)). { destruct (Zdivide_dec P (value n)) as [D|D]; [exact D|]. exfalso. apply E, J1. split; assumption. }
    assert (value n = 0) as ->; [|reflexivity]. destruct (Z.eq_dec (value n) 0) as [|Q]; [assumption|]. apply Z.divide_pos_le in D; lia.
Qed.
End SQRT.
Lemma fe_sqrt_claim c p x : modulus_ok c p -> prime (value p) -> elem c p x ->
  exists r, fe_sqrt c x = Ok r /\ elem c p r /\ (square_mod (value (fv x)) (value p) -> (value (fv r) * value (fv r)) mod value p = value (fv x)) /\
    (~ square_mod (value (fv x)) (value p) -> value (fv r) = 0).
Proof.
  intros Hp Pp (Ex & Hx). pose proof (proj1 (proj2 Hp)) as P1. pose proof Hx as (Vx & Rx). unfold fe_sqrt, with_m. rewrite (is_one_value c) by apply Hx.
  destruct (Z.eqb_spec (value (fv x)) 1) as [E|E].
  - exists x. split; [reflexivity|]. split; [split; assumption|]. rewrite E. split; [intros _; apply Z.mod_small; lia|]. intros N. exfalso. apply N. exists 1. reflexivity.
  - rewrite Ex. destruct (Z.eq_dec (value p) 2) as [E2|E2].
    + assert (E0 : value (fv x) = 0) by lia. unfold fp_sqrt, jacobi. pose proof Hp as (Vp & _).
      rewrite (is_one_value c p Vp), E2. cbn [Z.eqb Pos.eqb]. pose proof (compares1_spec c (fv x) 0 Vx ltac:(unfold int32; lia)) as C. pose proof (compare_spec c (fv x) p Vx Vp) as C'. unfold cmp_result in *.
      replace ((compares1 (fv x) 0 <? 0) || (compare (fv x) p >? 0)) with false by lia. cbn [bind]. rewrite (is_zero_value c _ Vx), E0. cbn [Z.eqb bind negb].
      eexists. split; [reflexivity|]. destruct (zero_red c p Hp) as (Z1 & Z2). cbn [fv]. split; [split; [reflexivity|exact Z1]|]. rewrite Z2. split; reflexivity.
    + assert (Op : Z.odd (value p) = true). { destruct (prime_2_or_odd (value p) Pp) as [?|O]; [congruence|exact O]. }
      destruct (fp_sqrt_odd c p Hp Pp Op (fv x) Hx) as (r & -> & Hr & A & B0). cbn [bind]. eexists. split; [reflexivity|]. cbn [fv]. split; [split; [reflexivity|exact Hr]|].
      split; [|exact B0]. intros Sq. rewrite (A Sq). apply Z.mod_small. exact Rx.
Qed.
