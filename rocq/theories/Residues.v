(** Number theory behind the Jacobi symbol and square roots: the sign function of Gauss and Schering
    for any odd modulus, its multiplicativity, the law for 2, quadratic reciprocity (Eisenstein's
    lattice count), Gauss's lemma, and the bound on the number of roots of a polynomial. *)
From Coq Require Import List ZArith Znumtheory Bool Lia Permutation.
Import ListNotations.
Open Scope Z_scope.

(** 1, 2, ..., h *)
Definition upto (h : Z) : list Z := map Z.of_nat (seq 1 (Z.to_nat h)).
Definition prod (f : Z -> Z) (l : list Z) : Z := fold_right (fun x a => f x * a) 1 l.
Definition sum (f : Z -> Z) (l : list Z) : Z := fold_right (fun x a => f x + a) 0 l.

Lemma upto_in h x : In x (upto h) <-> 1 <= x <= h.
Proof.
  unfold upto. rewrite in_map_iff. split.
  - intros (k & <- & Hk). apply in_seq in Hk. lia.
  - intros H. exists (Z.to_nat x). split; [lia|]. apply in_seq. lia.
Qed.
Lemma NoDup_map_in {A C} (f : A -> C) l : (forall x y, In x l -> In y l -> f x = f y -> x = y) -> NoDup l -> NoDup (map f l).
Proof.
  induction l as [|a l IH]; intros I N; [constructor|]. inversion N as [|? ? N1 N2]; subst. cbn. constructor.
  - rewrite in_map_iff. intros (y & E & Hy). assert (y = a) by (apply I; [right; exact Hy|left; reflexivity|exact E]). subst. contradiction.
  - apply IH; [|exact N2]. intros x y Hx Hy. apply I; right; assumption.
Qed.
Lemma upto_nodup h : NoDup (upto h).
Proof. apply NoDup_map_in; [intros; lia|apply seq_NoDup]. Qed.
Lemma upto_length h : length (upto h) = Z.to_nat h.
Proof. unfold upto. rewrite map_length, seq_length. reflexivity. Qed.

Lemma prod_ext f g l : (forall x, In x l -> f x = g x) -> prod f l = prod g l.
Proof. induction l as [|a l IH]; intros E; [reflexivity|]. cbn. rewrite (E a) by (left; reflexivity). f_equal. apply IH. intros x Hx. apply E. right. exact Hx. Qed.
Lemma prod_mul f g l : prod (fun x => f x * g x) l = prod f l * prod g l.
Proof. induction l as [|a l IH]; [reflexivity|]. cbn [prod fold_right] in *. fold (prod (fun x => f x * g x) l). fold (prod f l). fold (prod g l). rewrite IH. ring. Qed.
Lemma prod_map f g l : prod f (map g l) = prod (fun x => f (g x)) l.
Proof. induction l as [|a l IH]; [reflexivity|]. cbn [map prod fold_right] in *. unfold prod in IH. rewrite IH. reflexivity. Qed.
Lemma prod_perm f l l' : Permutation l l' -> prod f l = prod f l'.
Proof. induction 1; cbn [prod fold_right] in *; unfold prod in *; [reflexivity|congruence|ring|congruence]. Qed.
Lemma prod_const c l : prod (fun _ => c) l = c ^ Z.of_nat (length l).
Proof.
  induction l as [|a l IH]; [reflexivity|]. cbn [prod fold_right length]. fold (prod (fun _ => c) l). rewrite IH.
  rewrite Nat2Z.inj_succ, Z.pow_succ_r by lia. reflexivity.
Qed.
Lemma prod_cong f g m l : (forall x, In x l -> f x mod m = g x mod m) -> prod f l mod m = prod g l mod m.
Proof.
  induction l as [|a l IH]; intros E; [reflexivity|]. cbn [prod fold_right]. fold (prod f l). fold (prod g l).
  rewrite Zmult_mod. rewrite (E a) by (left; reflexivity). rewrite IH by (intros x Hx; apply E; right; exact Hx). rewrite <- Zmult_mod. reflexivity.
Qed.
Lemma sum_ext f g l : (forall x, In x l -> f x = g x) -> sum f l = sum g l.
Proof. induction l as [|a l IH]; intros E; [reflexivity|]. cbn. rewrite (E a) by (left; reflexivity). f_equal. apply IH. intros x Hx. apply E. right. exact Hx. Qed.
Lemma sum_add f g l : sum (fun x => f x + g x) l = sum f l + sum g l.
Proof. induction l as [|a l IH]; [reflexivity|]. cbn [sum fold_right] in *. fold (sum (fun x => f x + g x) l). fold (sum f l). fold (sum g l). rewrite IH. ring. Qed.
Lemma sum_const c l : sum (fun _ => c) l = c * Z.of_nat (length l).
Proof. induction l as [|a l IH]; [cbn; ring|]. cbn [sum fold_right length]. fold (sum (fun _ => c) l). rewrite IH, Nat2Z.inj_succ. ring. Qed.
Lemma sum_zero l : sum (fun _ => 0) l = 0. Proof. rewrite sum_const. ring. Qed.
Lemma sum_swap f l l' : sum (fun i => sum (fun j => f i j) l') l = sum (fun j => sum (fun i => f i j) l) l'.
Proof.
  induction l as [|a l IH]; [cbn; symmetry; apply sum_zero|].
  cbn [sum fold_right]. fold (sum (fun i => sum (fun j => f i j) l') l). rewrite IH. rewrite <- sum_add. reflexivity.
Qed.

(** (-1)^k *)
Definition par (k : Z) : Z := if Z.even k then 1 else -1.
Lemma par_add a b : par (a + b) = par a * par b.
Proof. unfold par. rewrite Z.even_add. destruct (Z.even a), (Z.even b); reflexivity. Qed.
Lemma par_sq a : par a * par a = 1. Proof. unfold par. destruct (Z.even a); reflexivity. Qed.
Lemma par_mod2 a b : a mod 2 = b mod 2 -> par a = par b.
Proof. unfold par. rewrite !Zmod_even. destruct (Z.even a), (Z.even b); congruence. Qed.
Lemma par_prod f l : prod (fun i => par (f i)) l = par (sum f l).
Proof. induction l as [|a l IH]; [reflexivity|]. cbn [prod sum fold_right]. fold (prod (fun i => par (f i)) l). fold (sum f l). rewrite par_add, IH. reflexivity. Qed.
Lemma par_mul a b : Z.odd b = true -> par (a * b) = par a.
Proof. intros H. unfold par. rewrite Z.even_mul. rewrite <- (Z.negb_odd b), H. destruct (Z.even a); reflexivity. Qed.

(** the half system of an odd modulus n = 2h+1 *)
Definition half (n : Z) : Z := n / 2.
Definition sgn (n a : Z) : Z := if a mod n <=? half n then 1 else -1.
Definition ares (n a : Z) : Z := if a mod n <=? half n then a mod n else n - a mod n.
(** the sign product of Gauss and Schering *)
Definition gs (a n : Z) : Z := prod (fun i => sgn n (a * i)) (upto (half n)).

Definition odd_pos (n : Z) : Prop := 0 < n /\ Z.odd n = true.
Lemma half_eq n : odd_pos n -> n = 2 * half n + 1 /\ 0 <= half n.
Proof. intros [P O]. unfold half. pose proof (Zmod_odd n) as E. rewrite O in E. pose proof (Z.div_mod n 2). lia. Qed.

Section MOD.
Variable n : Z.
Hypothesis Hn : odd_pos n.
Let h := half n.
Let En : n = 2 * h + 1. Proof. apply half_eq. exact Hn. Qed.
Let Hh : 0 <= h. Proof. apply half_eq. exact Hn. Qed.

Lemma mod_r a : 0 <= a mod n < n. Proof. apply Z.mod_pos_bound. lia. Qed.
Lemma ares_range a : 0 <= ares n a <= h.
Proof. unfold ares. fold h. pose proof (mod_r a). destruct (Z.leb_spec (a mod n) h); lia. Qed.
Lemma sgn_ares a : (n | a - sgn n a * ares n a).
Proof.
  unfold sgn, ares. pose proof (Z.div_mod a n ltac:(lia)) as D. destruct (Z.leb_spec (a mod n) (half n)).
  - exists (a / n). lia.
  - exists (a / n + 1). lia.
Qed.
Lemma sgn_unit a : sgn n a = 1 \/ sgn n a = -1. Proof. unfold sgn. destruct (_ <=? _); tauto. Qed.
Lemma sgn_sq a : sgn n a * sgn n a = 1. Proof. destruct (sgn_unit a) as [->| ->]; reflexivity. Qed.
(** uniqueness of the decomposition *)
Lemma decomp_unique s r s' r' : (s = 1 \/ s = -1) -> (s' = 1 \/ s' = -1) -> 1 <= r <= h -> 0 <= r' <= h -> (n | s * r - s' * r') -> s = s' /\ r = r'.
Proof.
  intros Hs Hs' Hr Hr' [k Hk]. assert (- n < k * n < n) by (destruct Hs as [->| ->], Hs' as [->| ->]; lia).
  assert (k = 0) by nia. subst k. destruct Hs as [->| ->], Hs' as [->| ->]; lia.
Qed.
Lemma sgn_eq a s r : (s = 1 \/ s = -1) -> 1 <= r <= h -> (n | a - s * r) -> sgn n a = s /\ ares n a = r.
Proof.
  intros Hs Hr Hd. destruct (decomp_unique s r (sgn n a) (ares n a) Hs (sgn_unit a) Hr (ares_range a)); [|split; congruence].
  replace (s * r - sgn n a * ares n a) with ((a - sgn n a * ares n a) - (a - s * r)) by ring. apply Z.divide_sub_r; [apply sgn_ares|exact Hd].
Qed.
Lemma gauss_div a i : rel_prime a n -> (n | a * i) -> (n | i).
Proof. intros Hr Hd. apply Gauss with a; [exact Hd|]. apply rel_prime_sym. exact Hr. Qed.
Lemma small_div i : 1 <= i <= h -> ~ (n | i).
Proof. intros Hi [k Hk]. assert (k <= 0 \/ 1 <= k) by lia. nia. Qed.
Lemma ares_pos a i : rel_prime a n -> 1 <= i <= h -> 1 <= ares n (a * i) <= h.
Proof.
  intros Hr Hi. pose proof (ares_range (a * i)) as R. assert (ares n (a * i) <> 0); [|lia]. intros E.
  apply (small_div i Hi). apply gauss_div with a; [exact Hr|]. pose proof (sgn_ares (a * i)) as D. rewrite E in D. rewrite Z.mul_0_r, Z.sub_0_r in D. exact D.
Qed.
Lemma ares_inj a i j : rel_prime a n -> 1 <= i <= h -> 1 <= j <= h -> ares n (a * i) = ares n (a * j) -> i = j.
Proof.
  intros Hr Hi Hj E. pose proof (sgn_ares (a * i)) as D1. pose proof (sgn_ares (a * j)) as D2. rewrite E in D1. set (r := ares n (a * j)) in *.
  assert (D : (n | a * (sgn n (a * i) * i - sgn n (a * j) * j))).
  { replace (a * (sgn n (a * i) * i - sgn n (a * j) * j)) with (sgn n (a * i) * (a * i - sgn n (a * i) * r) - sgn n (a * j) * (a * j - sgn n (a * j) * r) + (sgn n (a * i) * sgn n (a * i) - sgn n (a * j) * sgn n (a * j)) * r) by ring.
    rewrite !sgn_sq. rewrite Z.sub_diag, Z.mul_0_l, Z.add_0_r. apply Z.divide_sub_r; apply Z.divide_mul_r; assumption. }
  apply gauss_div in D; [|exact Hr]. apply (decomp_unique (sgn n (a * i)) i (sgn n (a * j)) j); try apply sgn_unit; try lia. exact D.
Qed.
Lemma ares_perm a : rel_prime a n -> Permutation (map (fun i => ares n (a * i)) (upto h)) (upto h).
Proof.
  intros Hr. apply NoDup_Permutation_bis.
  - apply NoDup_map_in; [|apply upto_nodup]. intros x y Hx Hy. apply upto_in in Hx. apply upto_in in Hy. apply ares_inj; assumption.
  - rewrite map_length. lia.
  - intros x Hx. apply in_map_iff in Hx. destruct Hx as (i & <- & Hi). apply upto_in. apply ares_pos; [exact Hr|]. apply upto_in. exact Hi.
Qed.
Lemma gs_unit a : gs a n = 1 \/ gs a n = -1.
Proof.
  unfold gs. induction (upto (half n)) as [|x l IH]; [left; reflexivity|]. cbn [prod fold_right]. fold (prod (fun i => sgn n (a * i)) l).
  destruct (sgn_unit (a * x)) as [->| ->], IH as [->| ->]; tauto.
Qed.
Lemma gs_sq a : gs a n * gs a n = 1. Proof. destruct (gs_unit a) as [->| ->]; reflexivity. Qed.
Lemma gs_mod a b : (n | a - b) -> gs a n = gs b n.
Proof.
  intros [k Hk]. apply prod_ext. intros i _. unfold sgn. replace (a * i) with (b * i + (k * i) * n) by (replace a with (b + k * n) by lia; ring).
  rewrite Z_mod_plus_full. reflexivity.
Qed.
Lemma gs_mul a b : rel_prime a n -> rel_prime b n -> gs (a * b) n = gs a n * gs b n.
Proof.
  intros Ha Hb. unfold gs. fold h. rewrite (prod_ext (fun i => sgn n (a * b * i)) (fun i => sgn n (a * ares n (b * i)) * sgn n (b * i))).
  - rewrite prod_mul. f_equal. rewrite <- (prod_map (fun j => sgn n (a * j)) (fun i => ares n (b * i))). apply prod_perm. apply ares_perm. exact Hb.
  - intros i Hi. apply upto_in in Hi. pose proof (ares_pos b i Hb Hi) as Rb. pose proof (ares_pos a _ Ha Rb) as Ra.
    refine (proj1 (sgn_eq _ (sgn n (a * ares n (b * i)) * sgn n (b * i)) (ares n (a * ares n (b * i))) _ Ra _)).
    + destruct (sgn_unit (a * ares n (b * i))) as [->| ->], (sgn_unit (b * i)) as [->| ->]; tauto.
    + set (rb := ares n (b * i)) in *. set (sb := sgn n (b * i)) in *. 
      replace (a * b * i - sgn n (a * rb) * sb * ares n (a * rb)) with (a * (b * i - sb * rb) + sb * (a * rb - sgn n (a * rb) * ares n (a * rb))) by ring.
      apply Z.divide_add_r; apply Z.divide_mul_r; apply sgn_ares.
Qed.
Lemma gs_1 : gs 1 n = 1.
Proof.
  unfold gs. fold h. rewrite (prod_ext _ (fun _ => 1)).
  - rewrite prod_const. apply Z.pow_1_l. lia.
  - intros i Hi. apply upto_in in Hi. unfold sgn. fold h. rewrite Z.mul_1_l, Z.mod_small by lia. rewrite (proj2 (Z.leb_le i h)) by lia. reflexivity.
Qed.

(** the law for 2 *)
Lemma split_at k (l1 : list Z) : 0 <= k <= h -> upto h = upto k ++ map (fun i => i + k) (upto (h - k)).
Proof.
  intros Hk. unfold upto. replace (Z.to_nat h) with (Z.to_nat k + Z.to_nat (h - k))%nat by lia. rewrite seq_app, map_app. f_equal.
  rewrite map_map. rewrite (Nat.add_comm 1). clear l1.
  assert (S : forall c s, seq (Z.to_nat k + s) c = map (fun i => (Z.to_nat k + i)%nat) (seq s c)).
  { induction c as [|c IH]; intros s; [reflexivity|]. cbn [seq map]. f_equal. rewrite <- Nat.add_succ_r. apply IH. }
  rewrite S, map_map. apply map_ext. intros i. lia.
Qed.
Lemma prod_app f l l' : prod f (l ++ l') = prod f l * prod f l'.
Proof. induction l as [|a l IH]; [cbn [app]; change (prod f []) with 1; ring|]. cbn [app prod fold_right]. fold (prod f (l ++ l')). fold (prod f l). rewrite IH. ring. Qed.
Lemma gs_2 : gs 2 n = if (n mod 8 =? 3) || (n mod 8 =? 5) then -1 else 1.
Proof.
  unfold gs. fold h. pose proof (Z.div_mod h 2 ltac:(lia)) as D. pose proof (Z.mod_pos_bound h 2 ltac:(lia)) as M.
  assert (K : 0 <= h / 2 <= h) by lia. rewrite (split_at (h / 2) [] K), prod_app, prod_map.
  rewrite (prod_ext _ (fun _ => 1) (upto (h / 2))), prod_const, Z.pow_1_l by
    (try lia; intros i Hi; apply upto_in in Hi; unfold sgn; fold h; rewrite Z.mod_small by lia; rewrite (proj2 (Z.leb_le _ _)) by lia; reflexivity).
  rewrite (prod_ext _ (fun _ => -1) (upto (h - h / 2))), prod_const by
    (intros i Hi; apply upto_in in Hi; unfold sgn; fold h; rewrite Z.mod_small by lia; rewrite (proj2 (Z.leb_gt _ _)) by lia; reflexivity).
  rewrite Z.mul_1_l, upto_length, Z2Nat.id by lia.
  assert (P : forall k, 0 <= k -> (-1) ^ k = par k).
  { intros k Hk. unfold par. destruct (Z.even k) eqn:Ev.
    - apply Z.even_spec in Ev. destruct Ev as [q ->]. rewrite Z.pow_mul_r by lia. apply Z.pow_1_l. lia.
    - assert (O : Z.odd k = true) by (rewrite <- Z.negb_even, Ev; reflexivity). apply Z.odd_spec in O. destruct O as [q ->].
      rewrite Z.pow_add_r, Z.pow_mul_r by lia. change ((-1) ^ 2) with 1. rewrite Z.pow_1_l by lia. reflexivity. }
  rewrite P by lia. clear P.
  assert (E4 : exists q r, h = 4 * q + r /\ 0 <= r < 4) by (exists (h / 4), (h mod 4); split; [apply Z.div_mod; lia|apply Z.mod_pos_bound; lia]).
  destruct E4 as (q & r & E4 & R4). 
  assert (N8 : n mod 8 = 2 * r + 1) by (symmetry; apply Z.mod_unique_pos with q; lia). rewrite N8.
  assert (R : r = 0 \/ r = 1 \/ r = 2 \/ r = 3) by lia. assert (H2 : h / 2 = 2 * q + r / 2) by (rewrite E4; replace (4 * q + r) with (2 * q * 2 + r) by ring; rewrite Z.div_add_l by lia; reflexivity).
  rewrite H2, E4. replace (4 * q + r - (2 * q + r / 2)) with ((r - r / 2) + q * 2) by ring.
  rewrite (par_mod2 _ (r - r / 2)) by apply Z_mod_plus_full.
  destruct R as [->|[->|[->| ->]]]; reflexivity.
Qed.

(** Eisenstein: for odd a the sign product counts quotients *)
Lemma gs_floor a : rel_prime a n -> Z.odd a = true -> gs a n = par (sum (fun i => a * i / n) (upto h)).
Proof.
  intros Hr Ha. assert (E : prod par (upto h) = prod (fun i => par (a * i / n) * (par (ares n (a * i)) * sgn n (a * i))) (upto h)).
  { apply prod_ext. intros i _. pose proof (Z.div_mod (a * i) n ltac:(lia)) as D.
    assert (E1 : par i = par (a * i)) by (rewrite (Z.mul_comm a); symmetry; apply par_mul; exact Ha). rewrite E1, D at 1. rewrite par_add.
    rewrite (Z.mul_comm n). rewrite par_mul by apply Hn. f_equal. unfold ares, sgn. destruct (_ <=? _); [ring|].
    replace (n - (a * i) mod n) with (n + ((a * i) mod n) * -1) by ring. rewrite par_add, (par_mul _ (-1)) by reflexivity.
    unfold par at 2. rewrite <- Z.negb_odd, (proj2 Hn). cbn [negb]. ring. }
  rewrite !prod_mul in E. rewrite <- (prod_map par (fun i => ares n (a * i))) in E. rewrite (prod_perm par _ _ (ares_perm a Hr)) in E.
  fold (gs a n) in E. change (prod (fun i => sgn n (a * i)) (upto h)) with (gs a n) in E. rewrite (par_prod (fun x => a * x / n)) in E.
  assert (U : prod par (upto h) * prod par (upto h) = 1). { pose proof (par_prod (fun i => i) (upto h)) as P. cbv beta in P. change (fun i => par i) with par in P. rewrite P. apply par_sq. }
  set (X := prod par (upto h)) in *. set (Y := par (sum (fun x => a * x / n) (upto h))) in *.
  assert (U2 : Y * Y = 1) by apply par_sq. pose proof (gs_sq a) as U3.
  assert (E5 : gs a n = (X * X) * (Y * Y) * gs a n) by (rewrite U, U2; ring). rewrite E5.
  replace (X * X * (Y * Y) * gs a n) with (Y * (Y * (X * gs a n)) * X) by ring. rewrite <- E. replace (Y * X * X) with (Y * (X * X)) by ring. rewrite U. ring.
Qed.
End MOD.

(** number of lattice points under a line *)
Lemma count_le q k : 0 <= q <= k -> sum (fun j => if j <=? q then 1 else 0) (upto k) = q.
Proof.
  intros Hq. assert (G : forall c, sum (fun j => if j <=? q then 1 else 0) (upto (Z.of_nat c)) = Z.min q (Z.of_nat c)).
  { induction c as [|c IH]; [cbn; lia|]. unfold upto in *. rewrite Nat2Z.id in *. rewrite seq_S, map_app.
    assert (SA : forall f l l', sum f (l ++ l') = sum f l + sum f l').
    { intros f l l'. induction l as [|x l IHl]; [reflexivity|]. cbn [app sum fold_right]. fold (sum f (l ++ l')). fold (sum f l). rewrite IHl. ring. }
    rewrite SA, IH. cbn [map sum fold_right]. destruct (Z.leb_spec (Z.of_nat (1 + c)) q); lia. }
  specialize (G (Z.to_nat k)). rewrite Z2Nat.id in G by lia. rewrite G. lia.
Qed.
Lemma floor_count m n i : odd_pos m -> odd_pos n -> 1 <= i <= half n ->
  m * i / n = sum (fun j => if n * j <=? m * i then 1 else 0) (upto (half m)).
Proof.
  intros Hm Hn Hi. destruct (half_eq m Hm), (half_eq n Hn). rewrite <- (count_le (m * i / n) (half m)) at 1.
  - apply sum_ext. intros j _. pose proof (Z.div_le_lower_bound (m * i) n j ltac:(lia)). pose proof (Z.mul_div_le (m * i) n ltac:(lia)).
    destruct (Z.leb_spec j (m * i / n)), (Z.leb_spec (n * j) (m * i)); try reflexivity; nia.
  - split; [apply Z.div_pos; nia|]. apply Z.lt_succ_r. apply Z.div_lt_upper_bound; nia.
Qed.
Lemma lattice m n : odd_pos m -> odd_pos n -> rel_prime m n ->
  sum (fun i => m * i / n) (upto (half n)) + sum (fun j => n * j / m) (upto (half m)) = half m * half n.
Proof.
  intros Hm Hn Hr. rewrite (sum_ext _ (fun i => sum (fun j => if n * j <=? m * i then 1 else 0) (upto (half m)))).
  2:{ intros i Hi. apply upto_in in Hi. apply floor_count; assumption. }
  rewrite (sum_ext (fun j => n * j / m) (fun j => sum (fun i => if m * i <=? n * j then 1 else 0) (upto (half n)))).
  2:{ intros i Hi. apply upto_in in Hi. apply floor_count; assumption. }
  rewrite <- (sum_swap (fun i j => if m * i <=? n * j then 1 else 0)). rewrite <- sum_add.
  rewrite (sum_ext _ (fun _ => half m)).
  { rewrite sum_const, upto_length. destruct (half_eq n Hn). rewrite Z2Nat.id by lia. reflexivity. }
  intros i Hi. apply upto_in in Hi. rewrite <- sum_add. rewrite (sum_ext _ (fun _ => 1)).
  { rewrite sum_const, upto_length. destruct (half_eq m Hm). rewrite Z2Nat.id by lia. ring. }
  intros j Hj. apply upto_in in Hj. assert (n * j <> m * i).
  { intros E. apply (small_div n Hn i Hi). apply (gauss_div n m i Hr). exists j. lia. }
  destruct (Z.leb_spec (n * j) (m * i)), (Z.leb_spec (m * i) (n * j)); lia.
Qed.
(** quadratic reciprocity *)
Lemma par_half_product m n : odd_pos m -> odd_pos n -> par (half m * half n) = if (m mod 4 =? 3) && (n mod 4 =? 3) then -1 else 1.
Proof.
  intros Hm Hn. destruct (half_eq m Hm) as [Em _], (half_eq n Hn) as [En _]. set (k := half m) in *. set (h := half n) in *.
  assert (Q : forall x y, x = 2 * y + 1 -> x mod 4 = if Z.even y then 1 else 3).
  { intros x y ->. destruct (Z.even y) eqn:Ev.
    - apply Z.even_spec in Ev. destruct Ev as [q ->]. symmetry. apply Z.mod_unique_pos with q; lia.
    - assert (O : Z.odd y = true) by (rewrite <- Z.negb_even, Ev; reflexivity). apply Z.odd_spec in O. destruct O as [q ->]. symmetry. apply Z.mod_unique_pos with q; lia. }
  rewrite (Q m k Em), (Q n h En). unfold par. rewrite Z.even_mul. destruct (Z.even k), (Z.even h); reflexivity.
Qed.
Theorem reciprocity m n : odd_pos m -> odd_pos n -> rel_prime m n ->
  gs m n = (if (m mod 4 =? 3) && (n mod 4 =? 3) then -1 else 1) * gs n m.
Proof.
  intros Hm Hn Hr. rewrite (gs_floor n Hn m Hr (proj2 Hm)), (gs_floor m Hm n (rel_prime_sym _ _ Hr) (proj2 Hn)).
  rewrite <- par_half_product by assumption. rewrite <- (lattice m n Hm Hn Hr), par_add. rewrite <- Z.mul_assoc, par_sq. ring.
Qed.
(** multiplicativity in the modulus *)
Lemma odd_pos_mul m n : odd_pos m -> odd_pos n -> odd_pos (m * n).
Proof. intros [P1 O1] [P2 O2]. split; [nia|]. rewrite Z.odd_mul, O1, O2. reflexivity. Qed.
Lemma gs_mul_odd a m n : odd_pos a -> odd_pos m -> odd_pos n -> rel_prime a m -> rel_prime a n -> gs a (m * n) = gs a m * gs a n.
Proof.
  intros Ha Hm Hn Rm Rn. pose proof (odd_pos_mul m n Hm Hn) as Hmn.
  assert (Rmn : rel_prime a (m * n)) by (apply rel_prime_mult; assumption).
  rewrite (reciprocity a (m * n)), (reciprocity a m), (reciprocity a n) by assumption.
  rewrite (gs_mul a Ha m n) by (apply rel_prime_sym; assumption).
  assert (Q : (if (a mod 4 =? 3) && ((m * n) mod 4 =? 3) then -1 else 1) = (if (a mod 4 =? 3) && (m mod 4 =? 3) then -1 else 1) * (if (a mod 4 =? 3) && (n mod 4 =? 3) then -1 else 1)).
  { assert (O : forall x, odd_pos x -> x mod 4 = 1 \/ x mod 4 = 3).
    { intros x Hx. destruct (half_eq x Hx) as [E _]. pose proof (Z.mod_pos_bound x 4 ltac:(lia)). pose proof (Z.div_mod x 4 ltac:(lia)). lia. }
    rewrite Zmult_mod. destruct (O m Hm) as [->| ->], (O n Hn) as [->| ->]; destruct (a mod 4 =? 3); reflexivity. }
  rewrite Q. ring.
Qed.
Lemma rel_prime_plus a m k : rel_prime a m -> rel_prime (a + k * m) m.
Proof. intros H. apply rel_prime_sym. apply rel_prime_sym in H. unfold rel_prime in *. replace (a + k * m) with (a - - k * m) by ring. 
  apply Zis_gcd_sym. apply Zis_gcd_sym in H. pose proof (Zis_gcd_for_euclid (a - - k * m) m 1 k) as G. apply G. replace (a - - k * m - k * m) with a by ring. apply Zis_gcd_sym. exact H. Qed.
Theorem gs_mul_modulus a m n : odd_pos m -> odd_pos n -> rel_prime a m -> rel_prime a n -> gs a (m * n) = gs a m * gs a n.
Proof.
  intros Hm Hn Rm Rn. pose proof (odd_pos_mul m n Hm Hn) as Hmn.
  assert (K : exists k, odd_pos (a + k * (m * n))).
  { destruct (Z.odd a) eqn:Oa.
    - exists (2 * Z.abs a). split.
      + assert (1 <= m * n) by (destruct Hmn; lia). pose proof (Z.abs_nonneg a). assert (a <> 0) by (intros ->; discriminate). destruct (Z.abs_spec a) as [[? ->]|[? ->]]; nia.
      + rewrite Z.odd_add, Oa, <- Z.mul_assoc, Z.odd_mul. reflexivity.
    - exists (2 * Z.abs a + 1). split.
      + assert (1 <= m * n) by (destruct Hmn; lia). pose proof (Z.abs_nonneg a). destruct (Z.abs_spec a) as [[? ->]|[? ->]]; nia.
      + rewrite Z.odd_add, Oa, Z.odd_mul, (proj2 Hmn), Z.odd_add, Z.odd_mul. reflexivity. }
  destruct K as (k & Hk). set (b := a + k * (m * n)) in *.
  rewrite (gs_mod (m * n) a b) by (exists (- k); unfold b; ring). rewrite (gs_mod m a b) by (exists (- k * n); unfold b; ring). rewrite (gs_mod n a b) by (exists (- k * m); unfold b; ring).
  apply gs_mul_odd; try assumption.
  - unfold b. replace (k * (m * n)) with (k * n * m) by ring. apply rel_prime_plus. exact Rm.
  - unfold b. replace (k * (m * n)) with (k * m * n) by ring. apply rel_prime_plus. exact Rn.
Qed.
