(** Checking certificates of primality by Pocklington's criterion, and soundness of the check. *)
From Coq Require Import List ZArith Znumtheory Zpow_facts Bool Lia Uint63.
From Verif Require Import Pocklington Limbs.
Import ListNotations.
Open Scope Z_scope.

Notation "x <-- e ; f" := (match e with Some x => f | None => None end) (at level 61, e at next level, right associativity).
Fixpoint powm (m : modulus) (a : list int) (e : positive) : option (list int) :=
  match e with
  | xH => Some a
  | xO e => r <-- powm m a e; mulm m r r
  | xI e => r <-- powm m a e; s <-- mulm m r r; mulm m s a
  end.
(** a step of a certificate: the number, the inverse of its low limb, prime factors of its predecessor with
    exponents, bases and witnesses of coprimality *)
Record step := mkstep { st_n : Z; st_inv : int; st_fs : list (Z * Z * (Z * Z)) }.
Definition limb_count (n : Z) : nat := S (Nat.max 1 (Z.to_nat ((Z.log2 n + 3) / 28))).
Definition step_mod (s : step) : modulus := let k := limb_count (st_n s) in mkmod (limbs k (st_n s)) (st_inv s) (limbs k 0).
Definition small_ds : list Z := map Z.of_nat (seq 2 30).
Definition small_prime (q : Z) : bool := (1 <? q) && (q <? 1024) && forallb (fun d => (q <? d * d) || negb (q mod d =? 0)) small_ds.
Fixpoint distinct (l : list Z) : bool := match l with [] => true | x :: l => negb (existsb (Z.eqb x) l) && distinct l end.
Definition check_factor (n rr : Z) (m : modulus) (known : list Z) (f : Z * Z * (Z * Z)) : bool :=
  let '((q, e), (x, w)) := f in
  (existsb (Z.eqb q) known || small_prime q) && (0 <? e) && ((n - 1) mod q ^ e =? 0) &&
  match powm m (inject m x) (Z.to_pos ((n - 1) / q)) with
  | Some a => (((V a - rr) * w) mod n =? 1) && match powm m a (Z.to_pos q) with Some b => (V b - rr) mod n =? 0 | None => false end
  | None => false
  end.
Definition check_step (known : list Z) (s : step) : bool :=
  let n := st_n s in let m := step_mod s in let l := map fst (st_fs s) in let fp := fpart l in
  mod_ok m && (V (m_p m) =? n) && distinct (map fst l) && (n <? fp * fp) && (0 <? fp) &&
  forallb (check_factor n (RR m) m known) (st_fs s).
Fixpoint check_chain (known : list Z) (l : list step) : bool :=
  match l with [] => true | s :: l => check_step known s && check_chain (st_n s :: known) l end.

Lemma small_prime_ok q : small_prime q = true -> prime q.
Proof.
  intros H. unfold small_prime in H. apply andb_prop in H. destruct H as [H H3]. apply andb_prop in H. destruct H as [H1 H2]. apply Z.ltb_lt in H1, H2. rewrite forallb_forall in H3.
  apply prime_by_factors; [exact H1|]. intros r R D. pose proof (prime_ge_2 _ R) as R2. destruct (Z_lt_le_dec q (r * r)) as [L|L]; [exact L|]. exfalso.
  assert (R31 : r < 32) by nia. specialize (H3 r). assert (I : In r small_ds) by (unfold small_ds; apply in_map_iff; exists (Z.to_nat r); split; [lia|apply in_seq; lia]).
  specialize (H3 I). apply orb_prop in H3. destruct H3 as [H3|H3]; [apply Z.ltb_lt in H3; lia|]. apply negb_true_iff, Z.eqb_neq in H3. apply H3. apply Z.mod_divide; [lia|exact D].
Qed.
Lemma distinct_ok l : distinct l = true -> NoDup l.
Proof.
  induction l as [|x l IH]; cbn [distinct]; intros H; constructor; apply andb_prop in H; destruct H as [H1 H2].
  - intros I. apply negb_true_iff in H1. assert (E : existsb (Z.eqb x) l = true) by (apply existsb_exists; exists x; split; [exact I|apply Z.eqb_refl]). congruence.
  - apply IH. exact H2.
Qed.
Lemma powm_ok m a x : mod_ok m = true -> rep m a x -> forall e r, powm m a e = Some r -> rep m r (x ^ Zpos e).
Proof.
  intros MO RA. induction e as [e IH|e IH|]; cbn [powm]; intros r H.
  - destruct (powm m a e) as [s|]; [|discriminate]. destruct (mulm m s s) as [t|] eqn:E; [|discriminate]. specialize (IH s eq_refl). pose proof (rep_mul m MO _ _ _ _ _ H (rep_mul m MO _ _ _ _ _ E IH IH) RA) as K.
    replace (x ^ Z.pos e~1) with (x ^ Z.pos e * x ^ Z.pos e * x); [exact K|]. rewrite Pos2Z.inj_xI. rewrite Z.pow_add_r, Z.pow_1_r by lia. replace (2 * Z.pos e) with (Z.pos e + Z.pos e) by lia. rewrite Z.pow_add_r by lia. reflexivity.
  - destruct (powm m a e) as [s|]; [|discriminate]. specialize (IH s eq_refl). pose proof (rep_mul m MO _ _ _ _ _ H IH IH) as K.
    replace (x ^ Z.pos e~0) with (x ^ Z.pos e * x ^ Z.pos e); [exact K|]. rewrite Pos2Z.inj_xO. replace (2 * Z.pos e) with (Z.pos e + Z.pos e) by lia. rewrite Z.pow_add_r by lia. reflexivity.
  - injection H as <-. rewrite Z.pow_1_r. exact RA.
Qed.
Lemma rep_shift m a z : rep m a z -> (V (m_p m) | (V a - RR m) - (z - 1) * RR m).
Proof. intros (_ & _ & D). replace (V a - RR m - (z - 1) * RR m) with (V a - z * RR m) by ring. exact D. Qed.
Lemma check_step_ok known s : Forall prime known -> check_step known s = true -> prime (st_n s).
Proof.
  intros KN H. unfold check_step in H. set (m := step_mod s) in *. repeat match type of H with (_ && _) = true => let K := fresh "K" in apply andb_prop in H; destruct H as [H K] end.
  rename H into MO. apply Z.eqb_eq in K3. apply distinct_ok in K2. apply Z.ltb_lt in K1, K0. destruct (mod_parts m MO) as (_ & _ & _ & _ & P1 & _ & _). rewrite K3 in P1.
  apply (pocklington (st_n s) (map fst (st_fs s))); try assumption. rewrite forallb_forall in K. apply Forall_forall. intros [q e] I. apply in_map_iff in I. destruct I as ([[q' e'] [x w]] & E & I).
  cbn [fst] in E. injection E as -> ->. specialize (K _ I). unfold check_factor in K. repeat match type of K with (_ && _) = true => let X := fresh "X" in apply andb_prop in K; destruct K as [K X] end.
  apply Z.ltb_lt in X1. apply Z.eqb_eq in X0. cbn [fst snd].
  assert (PQ : prime q). { apply orb_prop in K. destruct K as [K|K]; [|apply small_prime_ok; exact K]. apply existsb_exists in K. destruct K as (y & Iy & Ey). apply Z.eqb_eq in Ey. subst y. rewrite Forall_forall in KN. apply KN. exact Iy. }
  pose proof (prime_ge_2 _ PQ) as Q2. assert (QP : 0 < q ^ e) by (apply Z.pow_pos_nonneg; lia). assert (DE : (q ^ e | st_n s - 1)) by (apply Z.mod_divide; lia).
  assert (DQ : (q | st_n s - 1)). { apply Z.divide_trans with (q ^ e); [|exact DE]. exists (q ^ (e - 1)). replace e with (Z.succ (e - 1)) at 1 by lia. rewrite Z.pow_succ_r by lia. ring. }
  split; [exact PQ|]. split; [exact X1|]. split; [exact DE|]. exists x.
  destruct (powm m (inject m x) (Z.to_pos ((st_n s - 1) / q))) as [a|] eqn:EA; [|discriminate]. apply andb_prop in X. destruct X as [X2 X3]. destruct (powm m a (Z.to_pos q)) as [b|] eqn:EB; [|discriminate].
  apply Z.eqb_eq in X2, X3. assert (QD : 0 < (st_n s - 1) / q) by (destruct DQ as [k DQ]; rewrite DQ, Z.div_mul by lia; nia).
  pose proof (powm_ok m _ _ MO (rep_inject m MO x) _ _ EA) as RA. rewrite Z2Pos.id in RA by exact QD. pose proof (powm_ok m _ _ MO RA _ _ EB) as RB. rewrite Z2Pos.id in RB by lia.
  assert (EX : (x ^ ((st_n s - 1) / q)) ^ q = x ^ (st_n s - 1)). { rewrite <- Z.pow_mul_r by lia. f_equal. destruct DQ as [k DQ]. rewrite DQ, Z.div_mul by lia. reflexivity. }
  rewrite EX in RB. apply rep_shift in RA, RB. rewrite K3 in RA, RB. split.
  - apply Z.mod_divide in X3; [|lia]. assert (D : (st_n s | (x ^ (st_n s - 1) - 1) * RR m)). { replace ((x ^ (st_n s - 1) - 1) * RR m) with ((V b - RR m) - (V b - RR m - (x ^ (st_n s - 1) - 1) * RR m)) by ring. apply Z.divide_sub_r; assumption. }
    rewrite <- K3 in D at 1. apply (cancel_RR m MO) in D. rewrite K3 in D. destruct D as [k D]. replace (x ^ (st_n s - 1)) with (1 + k * st_n s) by lia. rewrite Z.mod_add, Z.mod_1_l by lia. reflexivity.
  - destruct RA as [k RA]. apply bezout_rel_prime. exists (RR m * w) (k * w - ((V a - RR m) * w) / st_n s). pose proof (Z.div_mod ((V a - RR m) * w) (st_n s) ltac:(lia)) as E. rewrite X2 in E.
    replace (RR m * w * (x ^ ((st_n s - 1) / q) - 1)) with ((x ^ ((st_n s - 1) / q) - 1) * RR m * w) by ring. replace ((x ^ ((st_n s - 1) / q) - 1) * RR m) with (V a - RR m - k * st_n s) by lia.
    replace 1 with ((V a - RR m) * w - st_n s * ((V a - RR m) * w / st_n s)) by lia. ring.
Qed.
Lemma check_chain_ok : forall l known, Forall prime known -> check_chain known l = true -> Forall (fun s => prime (st_n s)) l.
Proof.
  induction l as [|s l IH]; intros known KN H; cbn [check_chain] in H; constructor; apply andb_prop in H; destruct H as [H1 H2].
  - apply (check_step_ok known); assumption.
  - apply (IH (st_n s :: known)); [|exact H2]. constructor; [apply (check_step_ok known); assumption|exact KN].
Qed.
