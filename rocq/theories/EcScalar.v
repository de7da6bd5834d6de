(** Multiples of a point: [zmul] is a homomorphism, and the multiplication algorithms of EcModel.v compute it
    for any representation of points whose addition, doubling and negation are right. *)
From Coq Require Import List ZArith Bool Lia.
From Verif Require Import Outcome LoopModel LoopProofs WordsModel WordsSpec WordsProofs BigintModel BigintSpec BigintProofs BigintBits BigintBytes BigintClosure BigintClaims NumModel NumProofs EcGroup EcGroupProofs EcModel EcSpec.
Import ListNotations.
Open Scope Z_scope.

Section M.
Variable F : fieldT.
Variables a b : F.
Hypothesis two_ne : (1 + 1)%f <> (0%f : F).
Hypothesis Hdisc : disc a b <> 0%f.
Notation C := (on_curve a b).
Notation "P ++ Q" := (padd a P Q).
Notation inf := (@Inf F).
Lemma inf_curve : C inf. Proof. exact I. Qed.
Lemma add_curve P Q : C P -> C Q -> C (P ++ Q). Proof. apply padd_curve. exact two_ne. Qed.
Lemma opp_curve P : C P -> C (popp P). Proof. apply popp_curve. Qed.
Lemma add_comm P Q : C P -> C Q -> P ++ Q = Q ++ P. Proof. apply padd_comm. Qed.
Lemma add_assoc P Q R : C P -> C Q -> C R -> (P ++ Q) ++ R = P ++ (Q ++ R). Proof. apply padd_assoc; assumption. Qed.
Lemma add_0_r P : P ++ inf = P. Proof. apply padd_0_r. Qed.
Lemma add_opp_r P : P ++ popp P = inf. Proof. apply padd_opp_r. Qed.
Lemma opp_add' P Q : C P -> C Q -> popp (P ++ Q) = popp P ++ popp Q. Proof. apply opp_add. exact two_ne. Qed.
Lemma opp_opp (P : point F) : popp (popp P) = P. Proof. apply popp_popp. Qed.
Lemma add_4 P Q R S : C P -> C Q -> C R -> C S -> (P ++ Q) ++ (R ++ S) = (P ++ R) ++ (Q ++ S).
Proof.
  intros. rewrite add_assoc, <- (add_assoc Q R S), (add_comm Q R), (add_assoc R Q S), <- add_assoc by auto using add_curve. reflexivity.
Qed.

Lemma nmul_curve n P : C P -> C (nmul a n P).
Proof. intros H. induction n; cbn [nmul]; [exact I|apply add_curve; assumption]. Qed.
Lemma nmul_add m n P : C P -> nmul a (m + n) P = nmul a m P ++ nmul a n P.
Proof.
  intros H. induction m as [|m IH]; cbn [nmul Nat.add]; [reflexivity|]. rewrite IH, add_assoc by auto using nmul_curve. reflexivity.
Qed.
Lemma nmul_inf n : nmul a n inf = inf. Proof. induction n; cbn [nmul]; [reflexivity|]. rewrite IHn. reflexivity. Qed.
Lemma nmul_sum n P Q : C P -> C Q -> nmul a n (P ++ Q) = nmul a n P ++ nmul a n Q.
Proof.
  intros HP HQ. induction n as [|n IH]; cbn [nmul]; [reflexivity|]. rewrite IH. apply add_4; auto using nmul_curve.
Qed.
Lemma nmul_mul m n P : C P -> nmul a (m * n) P = nmul a m (nmul a n P).
Proof. intros H. induction m as [|m IH]; cbn [nmul Nat.mul]; [reflexivity|]. rewrite nmul_add, IH by exact H. reflexivity. Qed.
Lemma nmul_opp n P : C P -> nmul a n (popp P) = popp (nmul a n P).
Proof. intros H. induction n as [|n IH]; cbn [nmul]; [reflexivity|]. rewrite IH, opp_add' by auto using nmul_curve. reflexivity. Qed.

Lemma zmul_curve k P : C P -> C (zmul a k P).
Proof. intros H. unfold zmul. destruct (k <? 0); [apply opp_curve|]; apply nmul_curve; exact H. Qed.
Lemma zmul_nat n P : zmul a (Z.of_nat n) P = nmul a n P.
Proof. unfold zmul. destruct (Z.ltb_spec (Z.of_nat n) 0); [lia|]. rewrite Nat2Z.id. reflexivity. Qed.
Lemma zmul_0 P : zmul a 0 P = inf. Proof. reflexivity. Qed.
Lemma zmul_1 P : zmul a 1 P = P. Proof. unfold zmul. cbn. apply add_0_r. Qed.
Lemma zmul_inf k : zmul a k inf = inf.
Proof. unfold zmul. destruct (k <? 0); rewrite nmul_inf; reflexivity. Qed.
Lemma zmul_opp k P : C P -> zmul a (- k) P = popp (zmul a k P).
Proof.
  intros H. unfold zmul. destruct (Z.ltb_spec (- k) 0), (Z.ltb_spec k 0); try lia.
  - rewrite Z.opp_involutive. reflexivity.
  - rewrite opp_opp. reflexivity.
  - replace k with 0 by lia. reflexivity.
Qed.
Lemma zmul_succ k P : C P -> zmul a (k + 1) P = P ++ zmul a k P.
Proof.
  intros H. destruct (Z.lt_ge_cases k 0) as [N|N].
  - replace k with (- Z.of_nat (S (Z.to_nat (- k - 1)))) by lia. set (n := Z.to_nat (- k - 1)).
    replace (- Z.of_nat (S n) + 1) with (- Z.of_nat n) by lia. rewrite !zmul_opp, !zmul_nat by exact H. cbn [nmul].
    rewrite opp_add', <- add_assoc, add_opp_r by auto using nmul_curve, opp_curve. reflexivity.
  - replace k with (Z.of_nat (Z.to_nat k)) by lia. set (n := Z.to_nat k). replace (Z.of_nat n + 1) with (Z.of_nat (S n)) by lia.
    rewrite !zmul_nat. reflexivity.
Qed.
Lemma zmul_pred k P : C P -> zmul a (k - 1) P = popp P ++ zmul a k P.
Proof.
  intros H. pose proof (zmul_succ (k - 1) P H) as E. replace (k - 1 + 1) with k in E by lia. rewrite E.
  rewrite <- add_assoc, (add_comm (popp P) P), add_opp_r by auto using zmul_curve, opp_curve. reflexivity.
Qed.
Lemma zmul_add j k P : C P -> zmul a (j + k) P = zmul a j P ++ zmul a k P.
Proof.
  intros H. revert j. apply Z.bi_induction.
  - intros x y ->. tauto.
  - reflexivity.
  - intros j. replace (Z.succ j + k) with (j + k + 1) by lia. unfold Z.succ. rewrite !zmul_succ by exact H. split; intros K.
    + rewrite K, add_assoc by auto using zmul_curve. reflexivity.
    + rewrite add_assoc in K by auto using zmul_curve.
      apply (f_equal (padd a (popp P))) in K. rewrite <- !add_assoc, (add_comm (popp P) P), add_opp_r in K by auto using zmul_curve, opp_curve, add_curve. exact K.
Qed.
Lemma zmul_sum k P Q : C P -> C Q -> zmul a k (P ++ Q) = zmul a k P ++ zmul a k Q.
Proof.
  intros HP HQ. unfold zmul. destruct (k <? 0); rewrite nmul_sum by assumption; [|reflexivity]. apply opp_add'; auto using nmul_curve.
Qed.
Lemma zmul_popp k P : C P -> zmul a k (popp P) = popp (zmul a k P).
Proof. intros H. unfold zmul. destruct (k <? 0); rewrite nmul_opp by exact H; reflexivity. Qed.
Lemma zmul_mul j k P : C P -> zmul a (j * k) P = zmul a j (zmul a k P).
Proof.
  intros H. revert j. apply Z.bi_induction.
  - intros x y ->. tauto.
  - reflexivity.
  - intros j. unfold Z.succ. replace ((j + 1) * k) with (k + j * k) by lia. rewrite zmul_add, (zmul_succ j) by auto using zmul_curve. split; intros K.
    + rewrite K. reflexivity.
    + apply (f_equal (padd a (popp (zmul a k P)))) in K.
      rewrite <- !add_assoc, (add_comm (popp _) (zmul a k P)), add_opp_r in K by auto using zmul_curve, opp_curve. exact K.
Qed.
Lemma zmul_mod n k P : C P -> zmul a n P = inf -> zmul a (k mod n) P = zmul a k P.
Proof.
  intros H N. destruct (Z.eq_dec n 0) as [->|Nn]; [rewrite Zmod_0_r; reflexivity|].
  rewrite (Z.div_mod k n Nn) at 2. rewrite zmul_add by exact H. rewrite (Z.mul_comm n), zmul_mul, N, zmul_inf by exact H. reflexivity.
Qed.
Lemma zmul_dbl k P : C P -> zmul a (2 * k) P = zmul a k P ++ zmul a k P.
Proof. intros H. replace (2 * k) with (k + k) by lia. apply zmul_add. exact H. Qed.

(** ** the algorithms *)
Section ALG.
Variable PT : Type.
Variable rel : PT -> point F -> Prop.
Variables (add : PT -> PT -> outcome PT) (dbl inv : PT -> outcome PT) (is_id : PT -> bool) (idn : PT).
Hypothesis rel_curve : forall p A, rel p A -> C A.
Hypothesis rel_id : rel idn inf.
Hypothesis rel_is_id : forall p A k, rel p A -> is_id p = true -> rel p (zmul a k A).
Hypothesis add_ok : forall p q A B, rel p A -> rel q B -> exists r, add p q = Ok r /\ rel r (A ++ B).
Hypothesis dbl_ok : forall p A, rel p A -> exists r, dbl p = Ok r /\ rel r (A ++ A).
Hypothesis inv_ok : forall p A, rel p A -> exists r, inv p = Ok r /\ rel r (popp A).

(** double-and-add *)
Lemma ladder_ok c s p A : valid c s -> 0 <= value s -> rel p A ->
  exists r, run_loop (32 * size s + 1) (ladder_step add dbl) (s, idn, p) = Ok r /\ rel r (zmul a (value s) A).
Proof.
  intros Hs S0 Hp. pose proof (rel_curve _ _ Hp) as CA.
  apply (run_loop_ind (ladder_step add dbl)
    (fun st => let '(s', r, t) := st in valid c s' /\ 0 <= value s' /\ exists R B, rel r R /\ rel t B /\ R ++ zmul a (value s') B = zmul a (value s) A)
    (fun o => exists r, o = Ok r /\ rel r (zmul a (value s) A))
    (fun st => value (fst (fst st)))).
  - intros [[s' r] t] (_ & H & _). exact H.
  - intros [[s' r] t] (Vs & P0 & R & B & Hr & Ht & EQ). unfold ladder_step.
    pose proof (rel_curve _ _ Hr) as CR. pose proof (rel_curve _ _ Ht) as CB.
    pose proof (compares1_spec c s' 0 Vs ltac:(unfold int32; lia)) as CMP. unfold cmp_result in CMP.
    destruct (Z.eqb_spec (compares1 s' 0) 0) as [Z0|Z0].
    + assert (V0 : value s' = 0) by lia. rewrite V0, zmul_0, add_0_r in EQ. subst R. eauto.
    + assert (V0 : 0 < value s') by lia.
      destruct (shr_claim c s' s' 1 Vs Vs ltac:(lia)) as (V1 & E1). rewrite Z.quot_div_nonneg in E1 by lia. change (2 ^ 1) with 2 in E1.
      destruct (dbl_ok _ _ Ht) as (t2 & Dt & Rt). rewrite (is_odd_spec c s' Vs).
      pose proof (Z.div2_odd (value s')) as D2. rewrite Z.div2_div in D2.
      set (h := value s' / 2) in *; clearbody h.
      destruct (Z.odd (value s')) eqn:Od; cbn [Z.b2z] in D2.
      * destruct (add_ok _ _ _ _ Hr Ht) as (r2 & -> & Rr). cbn [bind]. rewrite Dt. cbn [bind fst]. split; [|rewrite E1; lia].
        split; [exact V1|]. split; [lia|]. exists (R ++ B), (B ++ B). split; [exact Rr|]. split; [exact Rt|].
        rewrite E1, <- EQ, D2, add_assoc, zmul_add, zmul_dbl, zmul_1, zmul_sum, (add_comm _ B) by auto using add_curve, zmul_curve. reflexivity.
      * cbn [bind]. rewrite Dt. cbn [bind fst]. split; [|rewrite E1; lia].
        split; [exact V1|]. split; [lia|]. exists R, (B ++ B). split; [exact Hr|]. split; [exact Rt|].
        rewrite E1, <- EQ, D2, Z.add_0_r, zmul_dbl, zmul_sum by auto. reflexivity.
  - split; [exact Hs|]. split; [exact S0|]. exists inf, A. split; [exact rel_id|]. split; [exact Hp|reflexivity].
  - cbn [fst]. pose proof (magnitude_range c s Hs) as MR. rewrite value_sgn in S0 |- *. rewrite Bn_pow2 in MR.
    assert (LE : 2 ^ (32 * Z.of_nat (size s)) <= 2 ^ Z.of_nat (32 * size s + 1)) by (apply Z.pow_le_mono_r; lia).
    destruct (neg s); cbn [BigintProofs.sgn] in *; lia.
Qed.
(** signed digits, most significant first *)
Lemma digit_ok p pneg A d r R : rel p A -> rel pneg (popp A) -> d = -1 \/ d = 0 \/ d = 1 -> rel r R ->
  exists r', (if 0 <? d then add r p else if d <? 0 then add r pneg else Ok r) = Ok r' /\ rel r' (R ++ zmul a d A).
Proof.
  intros Hp Hn Hd Hr. pose proof (rel_curve _ _ Hp) as CA. destruct Hd as [->|[->| ->]]; cbn [Z.ltb Z.compare].
  - change (-1) with (- (1)). rewrite zmul_opp, zmul_1 by exact CA. apply add_ok; assumption.
  - exists r. rewrite zmul_0, add_0_r. auto.
  - rewrite zmul_1. apply add_ok; assumption.
Qed.
Lemma naf_loop_ok p pneg A : rel p A -> rel pneg (popp A) -> forall l r v, Forall (fun d => d = -1 \/ d = 0 \/ d = 1) l -> rel r (zmul a v A) ->
  exists r', naf_loop add dbl p pneg l r = Ok r' /\ rel r' (zmul a (v * 2 ^ Z.of_nat (length l) + naf_value (rev l)) A).
Proof.
  intros Hp Hn. pose proof (rel_curve _ _ Hp) as CA. induction l as [|d l IH]; intros r v Hl Hr; cbn [naf_loop].
  - exists r. split; [reflexivity|]. cbn [length rev naf_value]. change (2 ^ Z.of_nat 0) with 1. rewrite Z.mul_1_r, Z.add_0_r. exact Hr.
  - pose proof (Forall_inv Hl) as Hd. pose proof (Forall_inv_tail Hl) as Ht. cbn beta in Hd.
    destruct (dbl_ok _ _ Hr) as (r1 & -> & R1). cbn [bind]. destruct (digit_ok p pneg A d r1 _ Hp Hn Hd R1) as (r2 & -> & R2). cbn [bind].
    rewrite <- zmul_dbl, <- zmul_add in R2 by exact CA. destruct (IH r2 (2 * v + d) Ht R2) as (r' & E & R). exists r'. split; [exact E|].
    cbn [rev]. rewrite naf_value_app, rev_length. cbn [length]. rewrite Nat2Z.inj_succ, Z.pow_succ_r by lia.
    replace (v * (2 * 2 ^ Z.of_nat (length l)) + (naf_value (rev l) + 2 ^ Z.of_nat (length l) * d)) with ((2 * v + d) * 2 ^ Z.of_nat (length l) + naf_value (rev l)) by ring.
    exact R.
Qed.
(** the same from an accumulator whose double is the identity *)
Lemma naf_loop_start p pneg A st idn' : rel p A -> rel pneg (popp A) -> dbl st = Ok idn' -> rel idn' inf -> forall l, l <> [] -> Forall (fun d => d = -1 \/ d = 0 \/ d = 1) l ->
  exists r', naf_loop add dbl p pneg l st = Ok r' /\ rel r' (zmul a (naf_value (rev l)) A).
Proof.
  intros Hp Hn St Hi l Nl Hl. pose proof (rel_curve _ _ Hp) as CA. destruct l as [|d l]; [congruence|]. cbn [naf_loop]. rewrite St. cbn [bind].
  pose proof (Forall_inv Hl) as Hd. pose proof (Forall_inv_tail Hl) as Ht. cbn beta in Hd.
  destruct (digit_ok p pneg A d idn' inf Hp Hn Hd Hi) as (r2 & -> & R2). cbn [bind]. change (inf ++ zmul a d A) with (zmul a d A) in R2.
  destruct (naf_loop_ok p pneg A Hp Hn l r2 d Ht R2) as (r' & E & R). exists r'. split; [exact E|].
  cbn [rev]. rewrite naf_value_app, rev_length. replace (naf_value (rev l) + 2 ^ Z.of_nat (length l) * d) with (d * 2 ^ Z.of_nat (length l) + naf_value (rev l)) by ring. exact R.
Qed.
Lemma rnaf_ok c x : valid c x -> 0 <= value x -> room c (size x + 1) ->
  exists l, to_rnaf c x = Ok l /\ naf_value (rev l) = value x /\ Forall (fun d => d = -1 \/ d = 0 \/ d = 1) l.
Proof.
  intros V P R. destruct (neg x) eqn:N.
  - exists []. split; [|split; [|constructor]].
    + unfold to_rnaf, to_naf, run_loop. assert (H : forall k, loop2 k (naf_step c) (x, []) = Done (Ok [])); [|rewrite H; reflexivity].
      assert (S0 : naf_step c (x, []) = Done (Ok [])) by (cbn [naf_step]; unfold compareu1; rewrite N; reflexivity).
      induction k as [|k IH]; cbn [loop2]; [exact S0|]. rewrite IH. reflexivity.
    + pose proof (magnitude_range c x V). rewrite value_sgn, N in *. cbn [BigintProofs.sgn rev naf_value] in *. lia.
  - destruct (naf_claim c x V N R) as (l & _ & E & (A & B & _)). exists (rev l). split; [exact E|]. rewrite rev_involutive. split; [exact A|]. apply Forall_rev. exact B.
Qed.
(** the case analysis before the loop *)
Lemma mul_cases_ok c loop p s A : valid c s -> rel p A ->
  (forall p A s', size s' = size s -> valid c s' -> 0 < value s' -> rel p A -> exists r, loop p s' = Ok r /\ rel r (zmul a (value s') A)) ->
  exists r, mul_cases idn is_id inv loop p s = Ok r /\ rel r (zmul a (value s) A).
Proof.
  intros V Hp L. unfold mul_cases. pose proof (rel_curve _ _ Hp) as CA. rewrite (is_one_value c s V), (is_zero_value c s V).
  destruct (Z.eqb_spec (value s) 1) as [E|E].
  { exists p. rewrite E, zmul_1. auto. }
  destruct (is_id p) eqn:I.
  { exists p. auto. }
  cbn [orb]. destruct (Z.eqb_spec (value s) 0) as [E0|E0].
  { exists idn. rewrite E0, zmul_0. auto. }
  pose proof (compares1_spec c s 0 V ltac:(unfold int32; lia)) as CMP. unfold cmp_result in CMP.
  destruct (Z.ltb_spec (compares1 s 0) 0) as [Lt|Ge].
  - destruct (inv_ok _ _ Hp) as (n & -> & Hn). cbn [bind]. unfold op_neg. destruct (neg_op_spec c s V) as (Vn & En).
    rewrite (is_one_value c _ Vn), (is_zero_value c _ Vn), En.
    assert (G : zmul a (value s) A = zmul a (- value s) (popp A)).
    { rewrite zmul_opp, zmul_popp, opp_opp by auto using opp_curve. reflexivity. }
    rewrite G. destruct (Z.eqb_spec (- value s) 1) as [F1|F1].
    { exists n. rewrite F1, zmul_1. auto. }
    destruct (is_id n) eqn:In.
    { exists n. auto. }
    cbn [orb]. destruct (Z.eqb_spec (- value s) 0); [lia|].
    destruct (L n (popp A) (neg_op s) eq_refl Vn ltac:(lia) Hn) as (r & E' & R). rewrite En in R. eauto.
  - apply L; auto. lia.
Qed.
Lemma mul_ladder_ok c p s A : valid c s -> rel p A ->
  exists r, mul_cases idn is_id inv (fun p s => run_loop (32 * size s + 1) (ladder_step add dbl) (s, idn, p)) p s = Ok r /\ rel r (zmul a (value s) A).
Proof. intros V Hp. apply (mul_cases_ok c); [exact V|exact Hp|]. intros p' A' s' _ V' P' H'. apply (ladder_ok c); [exact V'|lia|exact H']. Qed.
Lemma mul_naf_ok c p s A st idn' : valid c s -> room c (size s + 1) -> rel p A -> dbl st = Ok idn' -> rel idn' inf ->
  exists r, mul_cases idn is_id inv (fun p s => let* pneg := inv p in let* l := to_rnaf c s in naf_loop add dbl p pneg l st) p s = Ok r /\ rel r (zmul a (value s) A).
Proof.
  intros V Rm Hp St Hi. apply (mul_cases_ok c); [exact V|exact Hp|]. intros p' A' s' Sz V' P' H'.
  destruct (inv_ok _ _ H') as (n & -> & Hn). cbn [bind]. rewrite <- Sz in Rm. destruct (rnaf_ok c s' V' ltac:(lia) Rm) as (l & -> & El & Fl). cbn [bind].
  rewrite <- El. apply (naf_loop_start p' n A' st idn'); auto. intros ->. cbn in El. lia.
Qed.
(** Shamir's trick *)
Definition table_ok A B p q pn qn pnqn pqn pqni pnqni : Prop :=
  rel p A /\ rel q B /\ rel pn (popp A) /\ rel qn (popp B) /\ rel pnqn (popp A ++ popp B) /\ rel pqn (A ++ popp B) /\ rel pqni (popp (A ++ popp B)) /\ rel pnqni (popp (popp A ++ popp B)).
Lemma combine v w A B d e : C A -> C B -> ((zmul a v A ++ zmul a w B) ++ (zmul a v A ++ zmul a w B)) ++ (zmul a d A ++ zmul a e B) = zmul a (2 * v + d) A ++ zmul a (2 * w + e) B.
Proof.
  intros CA CB. rewrite (add_4 (zmul a v A)), add_4, <- !zmul_dbl, <- !zmul_add by auto using zmul_curve, add_curve. reflexivity.
Qed.
Lemma shamir_ok A B p q pn qn pnqn pqn pqni pnqni : table_ok A B p q pn qn pnqn pqn pqni pnqni -> forall la lb r v w, length la = length lb ->
  Forall (fun d => d = -1 \/ d = 0 \/ d = 1) la -> Forall (fun d => d = -1 \/ d = 0 \/ d = 1) lb -> rel r (zmul a v A ++ zmul a w B) ->
  exists r', shamir_loop add dbl p q pn qn pnqn pqn pqni pnqni la lb r = Ok r' /\
    rel r' (zmul a (v * 2 ^ Z.of_nat (length la) + naf_value (rev la)) A ++ zmul a (w * 2 ^ Z.of_nat (length la) + naf_value (rev lb)) B).
Proof.
  intros (H1 & H2 & H3 & H4 & H5 & H6 & H7 & H8). pose proof (rel_curve _ _ H1) as CA. pose proof (rel_curve _ _ H2) as CB.
  rewrite opp_add' in H7 by auto using opp_curve. rewrite opp_opp in H7.
  rewrite opp_add' in H8 by auto using opp_curve. rewrite !opp_opp in H8.
  induction la as [|d la IH]; intros lb r v w Ln Fa Fb Hr; destruct lb as [|e lb]; try discriminate; cbn [shamir_loop].
  - exists r. split; [reflexivity|]. cbn [length rev naf_value]. change (2 ^ Z.of_nat 0) with 1. rewrite !Z.mul_1_r, !Z.add_0_r. exact Hr.
  - destruct (dbl_ok _ _ Hr) as (r1 & -> & R1). cbn [bind]. pose proof (Forall_inv Fa) as Hd. pose proof (Forall_inv_tail Fa) as Fa'. cbn beta in Hd.
    pose proof (Forall_inv Fb) as He. pose proof (Forall_inv_tail Fb) as Fb'. cbn beta in He.
    match goal with |- exists r', (let* x := ?t in _) = _ /\ _ => assert (ST : exists r2, t = Ok r2 /\ rel r2 (zmul a (2 * v + d) A ++ zmul a (2 * w + e) B)) end.
    { rewrite <- combine by assumption.
      destruct Hd as [->|[->| ->]], He as [->|[->| ->]]; cbn [Z.eqb Z.ltb Z.compare]; change (-1) with (- (1)); rewrite ?zmul_opp, ?zmul_1, ?zmul_0, ?add_0_r by assumption; cbn [padd]; try (apply add_ok; assumption).
      exists r1. split; [reflexivity|exact R1]. }
    destruct ST as (r2 & -> & R2). cbn [bind]. destruct (IH lb r2 _ _ ltac:(cbn in Ln; lia) Fa' Fb' R2) as (r' & E & R). exists r'. split; [exact E|].
    cbn [rev]. rewrite !naf_value_app, !rev_length. cbn [length] in *. rewrite Nat2Z.inj_succ, Z.pow_succ_r by lia. injection Ln as Ln. rewrite <- Ln.
    replace (v * (2 * 2 ^ Z.of_nat (length la)) + (naf_value (rev la) + 2 ^ Z.of_nat (length la) * d)) with ((2 * v + d) * 2 ^ Z.of_nat (length la) + naf_value (rev la)) by ring.
    replace (w * (2 * 2 ^ Z.of_nat (length la)) + (naf_value (rev lb) + 2 ^ Z.of_nat (length la) * e)) with ((2 * w + e) * 2 ^ Z.of_nat (length la) + naf_value (rev lb)) by ring.
    exact R.
Qed.
Lemma pad_value l n : naf_value (rev (pad_front l n)) = naf_value (rev l).
Proof.
  unfold pad_front. rewrite rev_app_distr. induction (n - length l)%nat as [|k IH]; cbn [repeat rev]; [rewrite app_nil_r; reflexivity|].
  rewrite app_assoc, naf_value_app, IH. lia.
Qed.
Lemma pad_digits l n : Forall (fun d => d = -1 \/ d = 0 \/ d = 1) l -> Forall (fun d => d = -1 \/ d = 0 \/ d = 1) (pad_front l n).
Proof. intros H. apply Forall_app. split; [|exact H]. apply Forall_forall. intros x Hx. apply repeat_spec in Hx. auto. Qed.
Lemma pad_length l n : (length l <= n)%nat -> length (pad_front l n) = n.
Proof. intros H. unfold pad_front. rewrite app_length, repeat_length. lia. Qed.
Lemma mul_add_ok c x p y q A B : valid c x -> valid c y -> 0 <= value x -> 0 <= value y -> room c (size x + 1) -> room c (size y + 1) -> rel p A -> rel q B ->
  exists r, mul_add_fast idn inv add dbl c x p y q = Ok r /\ rel r (zmul a (value x) A ++ zmul a (value y) B).
Proof.
  intros Vx Vy Px Py Rx Ry Hp Hq. unfold mul_add_fast.
  destruct (rnaf_ok c x Vx Px Rx) as (la & -> & Ea & Fa). cbn [bind]. destruct (rnaf_ok c y Vy Py Ry) as (lb & -> & Eb & Fb). cbn [bind].
  destruct (inv_ok _ _ Hp) as (pn & -> & Hpn). cbn [bind]. destruct (inv_ok _ _ Hq) as (qn & -> & Hqn). cbn [bind].
  destruct (add_ok _ _ _ _ Hpn Hqn) as (pnqn & -> & H1). cbn [bind]. destruct (add_ok _ _ _ _ Hp Hqn) as (pqn & -> & H2). cbn [bind].
  destruct (inv_ok _ _ H2) as (pqni & -> & H3). cbn [bind]. destruct (inv_ok _ _ H1) as (pnqni & -> & H4). cbn [bind].
  set (n := Nat.max (length la) (length lb)).
  destruct (shamir_ok A B p q pn qn pnqn pqn pqni pnqni ltac:(unfold table_ok; tauto) (pad_front la n) (pad_front lb n) idn 0 0) as (r & E & R).
  - rewrite !pad_length by lia. reflexivity.
  - apply pad_digits, Fa.
  - apply pad_digits, Fb.
  - rewrite !zmul_0. exact rel_id.
  - exists r. split; [exact E|]. rewrite !pad_value, Ea, Eb in R. exact R.
Qed.
End ALG.
End M.
