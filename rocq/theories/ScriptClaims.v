(** Claims about scripts/ec.py: the verification functions, what goes wrong, all inputs. *)
From Coq Require Import List ZArith Znumtheory Bool Lia.
From Verif Require Import EcGroup EcGroupProofs EcSpec EcScalar ZpField EcdsaSpec EcdsaProofs ScriptModel ScriptSpec ScriptProofs ScriptPoints ScriptMul.
Import ListNotations.
Open Scope Z_scope.

Lemma inverse_claim k p : (1 < p /\ Z.gcd k p = 1 -> exists x, inverse_mod k p = Ret x /\ 0 < x < p /\ (k * x) mod p = 1) /\
  (~ (1 < p /\ Z.gcd k p = 1) -> exists e, inverse_mod k p = Raise e).
Proof.
  pose proof (inverse_mod_ok k p) as H. destruct ((1 <? p) && (Z.gcd k p =? 1)) eqn:E.
  - apply andb_prop in E as (E1 & E2). apply Z.ltb_lt in E1. apply Z.eqb_eq in E2. split; [intros _; exact H|tauto].
  - split; [|intros _; exact H]. intros (E1 & E2). rewrite E2, (proj2 (Z.ltb_lt _ _) E1) in E. discriminate.
Qed.
Lemma on_claim cv Pp P : (py_on_curve P cv = Ret true <-> son cv Pp P) /\ (py_on_curve P cv = Ret false <-> ~ son cv Pp P).
Proof. destruct (on_curve_ok cv Pp P) as (b & -> & E). destruct b; split; split; intros H; try congruence; try (apply E; assumption || reflexivity); try (apply E in H; congruence). - exfalso. apply H, E. reflexivity. - intros K. apply E in K. discriminate. Qed.
Lemma neg_claim cv Pp P : (son cv Pp P -> exists R, ec_neg P cv = Ret R /\ spt Pp R = popp (spt Pp P) /\ (tidy (py_p cv) P -> tidy (py_p cv) R)) /\ (~ son cv Pp P -> ec_neg P cv = Raise AssertionError).
Proof. split; intros H; [|apply (neg_bad cv Pp); exact H]. destruct (neg_ok cv Pp P H) as (R & E & V & _ & T). eauto. Qed.
Lemma add_claim cv Pp P Q : 2 < py_p cv -> tidy (py_p cv) P -> tidy (py_p cv) Q -> son cv Pp P -> son cv Pp Q ->
  (~ (exists x, P = Some (x, 0) /\ Q = Some (x, 0)) -> exists R, ec_add P Q cv = Ret R /\ tidy (py_p cv) R /\ spt Pp R = padd (sa cv Pp) (spt Pp P) (spt Pp Q)) /\
  ((exists x, P = Some (x, 0) /\ Q = Some (x, 0)) -> ec_add P Q cv = Raise ZeroDivisionError).
Proof. intros H2 TP TQ HP HQ. destruct (add_ok cv Pp H2 P Q TP TQ HP HQ) as [(R & N)|(E & D)]; split; intros K; [exact R|exfalso; exact (N K)|exfalso; exact (K D)|exact E]. Qed.
Lemma add_steps_claim P Q cv : ec_add_steps P Q cv = ec_add P Q cv.
Proof.
  destruct (Z.eq_dec (py_p cv) 0) as [E|N]; [|].
  - unfold ec_add_steps, ec_add, assert_on, py_on_curve. destruct P as [[x1 y1]|]; [unfold pymod; rewrite E; reflexivity|]. destruct Q as [[x2 y2]|]; [unfold pymod; rewrite E; reflexivity|reflexivity].
  - apply add_steps. exact N.
Qed.

(** the variants that print *)
Lemma fast_steps_loop_claim l : forall R P Q pq cv, fast_steps_loop l R P Q pq cv = fast_loop l R P Q pq cv \/ fast_steps_loop l R P Q pq cv = Raise TypeError.
Proof.
  induction l as [|(i, j) l IH]; intros R P Q pq cv; [left; reflexivity|]. cbn [fast_steps_loop fast_loop].
  destruct (ec_double R cv) as [R2|e|]; [|left; reflexivity|left; reflexivity]. cbn [pbind].
  match goal with |- pbind ?m _ = _ \/ _ => destruct m as [R3|e|] end; [|left; reflexivity|left; reflexivity]. cbn [pbind].
  destruct R3 as [xy|]; unfold show; cbn [is_none pbind]; [apply IH|right; reflexivity].
Qed.
Lemma fast_steps_claim a P b Q cv : ec_mul_add_fast_steps a P b Q cv = ec_mul_add_fast a P b Q cv \/ ec_mul_add_fast_steps a P b Q cv = Raise TypeError.
Proof.
  unfold ec_mul_add_fast_steps, ec_mul_add_fast. destruct P as [xy|]; [|right; reflexivity]. destruct Q as [uv|]; [|right; reflexivity]. unfold show at 1 2. cbn [is_none pbind].
  destruct (a =? 0); [left; reflexivity|]. destruct (b =? 0); [left; reflexivity|]. destruct (same_point _ _); [left; reflexivity|]. destruct (_ || _); [left; reflexivity|].
  destruct (ec_add _ _ cv) as [[st|]|e|]; [|right; reflexivity|left; reflexivity|left; reflexivity]. unfold show. cbn [is_none pbind].
  destruct (fast_steps_loop_claim (columns a b) None (Some xy) (Some uv) (Some st) cv) as [E|E]; rewrite E; [left|right]; reflexivity.
Qed.
Lemma verify_steps_claim (bound : bool) q e r s cv : py_verify_steps bound q e r s cv = (if bound then py_verify q e r s cv else Raise NameError).
Proof. destruct bound; reflexivity. Qed.
Lemma verify_fast_steps_claim (bound : bool) q e r s cv :
  if bound then py_verify_fast_steps bound q e r s cv = py_verify_fast q e r s cv \/ py_verify_fast_steps bound q e r s cv = Raise TypeError else py_verify_fast_steps bound q e r s cv = Raise NameError.
Proof.
  destruct bound; [|reflexivity]. unfold py_verify_fast_steps, py_verify_fast. cbn [name_q pbind]. destruct (bad_range r s cv); [left; reflexivity|].
  destruct (inverse_mod s (py_n cv)) as [w|x|]; [|left; reflexivity|left; reflexivity]. cbn [pbind].
  destruct (pymod (e * w) (py_n cv)) as [u1|x|]; [|left; reflexivity|left; reflexivity]. cbn [pbind]. destruct (pymod (r * w) (py_n cv)) as [u2|x|]; [|left; reflexivity|left; reflexivity]. cbn [pbind].
  destruct (fast_steps_claim u1 (py_g cv) u2 q cv) as [E|E]; rewrite E; [left|right]; reflexivity.
Qed.

Section V.
Variable cv : pycurve.
Notation p := (py_p cv).
Notation n := (py_n cv).
Hypothesis Pp : prime p.
Hypothesis SO : sound cv Pp.
Notation F := (Zp p Pp).
Notation A := (sa cv Pp).
Notation Bc := (sb cv Pp).
Notation pt := (spt Pp).
Notation on := (son cv Pp).
Notation G := (py_g cv).
Let SM : smooth cv Pp. Proof. apply SO. Qed.
Let NT : no_two cv Pp. Proof. apply SO. Qed.
Let P2 : 2 < p. Proof. apply SM. Qed.
Let D0 : disc A Bc <> 0%f. Proof. apply SM. Qed.
Let Pn : prime n. Proof. apply SO. Qed.
Let N1 : 1 < n. Proof. pose proof (prime_ge_2 _ Pn). lia. Qed.
Let NG : nice cv Pp G. Proof. destruct SO as (_ & _ & T & O & _). split; assumption. Qed.
Let K0 : forall X, on_curve A Bc X -> zmul A n X = Inf. Proof. apply SO. Qed.
Notation two := (s_two cv Pp P2).

Lemma mul_claim P k : tidy p P -> on P -> exists R, ec_mul P k cv = Ret R /\ tidy p R /\ pt R = zmul A k (pt P).
Proof.
  intros T O. destruct (mul_ok cv Pp SM NT ltac:(lia) P k (conj T O)) as (R & E & NR & VR). exists R. split; [exact E|]. split; [apply NR|]. rewrite VR. unfold multiple.
  destruct (Z.eqb_spec (k mod n) 0) as [Z|Z]; [|reflexivity]. rewrite <- (zmul_mod F A Bc two D0 n k) by (first [exact O|exact (K0 _ O)]). rewrite Z. reflexivity.
Qed.
Lemma fast_claim a P b Q : tidy p P -> on P -> tidy p Q -> on Q -> 0 <= a < n -> 0 <= b < n ->
  exists R, ec_mul_add_fast a P b Q cv = Ret R /\ tidy p R /\ pt R = padd A (zmul A a (pt P)) (zmul A b (pt Q)).
Proof. intros TP OP TQ OQ Ha Hb. destruct (fast_sum cv Pp SM NT ltac:(lia) a P b Q (conj TP OP) (conj TQ OQ) (K0 _ OP) (K0 _ OQ) Ha Hb) as (R & E & NR & VR). exists R. split; [exact E|]. split; [apply NR|exact VR]. Qed.
Lemma range_ok r s : bad_range r s cv = false <-> 1 <= r < n /\ 1 <= s < n.
Proof.
  unfold bad_range. split.
  - intros H. apply orb_false_elim in H as (H1 & H2). apply orb_false_elim in H1 as (H1 & H3), H2 as (H2 & H4). apply Z.ltb_ge in H1, H2, H3, H4. lia.
  - intros (H1 & H2). rewrite !(proj2 (Z.ltb_ge _ _)) by lia. reflexivity.
Qed.
Lemma s_inverse s : 1 <= s < n -> exists w, inverse_mod s n = Ret w /\ 0 < w < n /\ (s * w) mod n = 1.
Proof. intros H. apply inverse_mod_prime; [exact Pn|]. rewrite Z.mod_small by lia. lia. Qed.
(** the outcome of verification in terms of the point it computes *)
Definition judge (X : point F) (r : Z) : py bool := match X with Inf => Raise TypeError | Aff x _ => Ret (zval x mod n =? r) end.
Lemma judge_ok R r : tidy p R -> (let! (x, y) := unpack R in let! m := pymod x n in Ret (m =? r)) = judge (pt R) r.
Proof.
  intros T. destruct R as [[x y]|]; [|reflexivity]. destruct T as (Tx & _). cbn [unpack pbind spt judge]. rewrite pymod_ok by lia. cbn [pbind]. rewrite zval_mk, (Z.mod_small x p) by lia. reflexivity.
Qed.
Lemma verify_value q e r s : nice cv Pp q -> 1 <= r < n -> 1 <= s < n ->
  exists w, (s * w) mod n = 1 /\ py_verify q e r s cv = judge (combined cv Pp q e r w) r /\ py_verify_fast q e r s cv = judge (combined cv Pp q e r w) r.
Proof.
  intros (Tq & Oq) Hr Hs. destruct (s_inverse s Hs) as (w & E & Rw & Ew). exists w. split; [exact Ew|].
  unfold py_verify, py_verify_fast. rewrite (proj2 (range_ok r s) (conj Hr Hs)), E. cbn [pbind]. rewrite !pymod_ok by lia. cbn [pbind].
  destruct NG as (Tg & Og). split.
  - destruct (mul_claim G ((e * w) mod n) Tg Og) as (R1 & -> & T1 & V1). cbn [pbind]. destruct (mul_claim q ((r * w) mod n) Tq Oq) as (R2 & -> & T2 & V2). cbn [pbind].
    assert (O1 : on R1) by (unfold son; rewrite V1; apply zmul_curve; [exact two|exact Og]). assert (O2 : on R2) by (unfold son; rewrite V2; apply zmul_curve; [exact two|exact Oq]).
    destruct (add_total cv Pp SM NT R1 R2 (conj T1 O1) (conj T2 O2)) as (R & -> & NR & VR). cbn [pbind]. rewrite judge_ok by apply NR. unfold combined. rewrite VR, V1, V2. reflexivity.
  - destruct (fast_claim ((e * w) mod n) G ((r * w) mod n) q Tg Og Tq Oq ltac:(apply Z.mod_pos_bound; lia) ltac:(apply Z.mod_pos_bound; lia)) as (R & -> & TR & VR). cbn [pbind].
    rewrite judge_ok by exact TR. unfold combined. rewrite VR. reflexivity.
Qed.
Lemma combined_unique q e r s w w' : (s * w) mod n = 1 -> (s * w') mod n = 1 -> combined cv Pp q e r w = combined cv Pp q e r w'.
Proof. intros H H'. pose proof (inv_unique n s w w' N1 H H') as U. unfold combined. rewrite (mul_inv_mod n e w w' U), (mul_inv_mod n r w w' U). reflexivity. Qed.
Lemma verify_claim' q e r s : tidy p q -> on q ->
  (py_verify q e r s cv = Ret true \/ py_verify q e r s cv = Ret false \/ py_verify q e r s cv = Raise TypeError) /\
  (py_verify q e r s cv = Ret true <-> passes cv Pp q e r s) /\ (py_verify q e r s cv = Raise TypeError <-> vanishes cv Pp q e r s) /\ py_verify_fast q e r s cv = py_verify q e r s cv.
Proof.
  intros T O. destruct (bad_range r s cv) eqn:B.
  - assert (E : py_verify q e r s cv = Ret false) by (unfold py_verify; rewrite B; reflexivity). assert (E' : py_verify_fast q e r s cv = Ret false) by (unfold py_verify_fast; rewrite B; reflexivity). rewrite E, E'.
    assert (NB : ~ (1 <= r < n /\ 1 <= s < n)) by (intros H; apply range_ok in H; congruence).
    split; [auto|]. split; [split; [discriminate|]|split; [split; [discriminate|]|reflexivity]]; intros (H1 & H2 & _); exfalso; apply NB; auto.
  - apply range_ok in B as (Hr & Hs). destruct (verify_value q e r s (conj T O) Hr Hs) as (w & Ew & -> & ->). destruct (combined cv Pp q e r w) as [|x y] eqn:EC; cbn [judge].
    + split; [auto|]. split; [split; [discriminate|]|split; [split; [|reflexivity]|reflexivity]].
      * intros (_ & _ & w' & x & y & Ew' & K & _). rewrite (combined_unique q e r s w' w Ew' Ew) in K. congruence.
      * intros _. split; [exact Hr|]. split; [exact Hs|]. exists w. auto.
    + split; [destruct (_ =? r); auto|]. split; [|split; [split; [discriminate|]|reflexivity]].
      * split.
        -- intros H. injection H as H. apply Z.eqb_eq in H. split; [exact Hr|]. split; [exact Hs|]. exists w, x, y. auto.
        -- intros (_ & _ & w' & x' & y' & Ew' & K & V). rewrite (combined_unique q e r s w' w Ew' Ew), EC in K. injection K as -> ->. f_equal. apply Z.eqb_eq. exact V.
      * intros (_ & _ & w' & Ew' & K). rewrite (combined_unique q e r s w' w Ew' Ew), EC in K. discriminate.
Qed.
Lemma passes_accepts q e r s : q <> None -> (passes cv Pp q e r s <-> accepts (@zval p : F -> Z) A (pt G) n (pt q) e r s).
Proof.
  intros H. unfold passes, accepts, combined. assert (pt q <> Inf) by (destruct q as [[x y]|]; [discriminate|congruence]). tauto.
Qed.
Lemma verify_standard q e r s : tidy p q -> on q -> q <> None -> (py_verify q e r s cv = Ret true <-> accepts (@zval p : F -> Z) A (pt G) n (pt q) e r s).
Proof. intros T O H. rewrite <- passes_accepts by exact H. apply verify_claim'; assumption. Qed.
Lemma off_curve_claim q e r s : ~ on q -> 1 <= r < n -> 1 <= s < n -> py_verify q e r s cv = Raise AssertionError /\ py_verify_fast q e r s cv = Raise AssertionError.
Proof.
  intros O Hr Hs. destruct (s_inverse s Hs) as (w & E & Rw & Ew). destruct NG as (Tg & Og). unfold py_verify, py_verify_fast. rewrite (proj2 (range_ok r s) (conj Hr Hs)), E. cbn [pbind]. rewrite !pymod_ok by lia. cbn [pbind]. split.
  - destruct (mul_claim G ((e * w) mod n) Tg Og) as (R1 & -> & T1 & V1). cbn [pbind]. rewrite (mul_bad cv Pp q _ O). reflexivity.
  - unfold ec_mul_add_fast. assert (U2 : (r * w) mod n <> 0).
    { intros K. apply Z.mod_divide in K; [|lia]. apply prime_mult in K; [|exact Pn]. destruct K as [K|K]; apply Z.divide_pos_le in K; lia. }
    destruct (_ =? 0); [rewrite (mul_bad cv Pp q _ O); reflexivity|]. rewrite (proj2 (Z.eqb_neq _ _) U2).
    assert (SP : same_point G q = false).
    { apply not_true_is_false. intros K. apply O. replace q with G; [exact Og|]. destruct G as [[x y]|], q as [[u v]|]; try discriminate; [|reflexivity]. cbn [same_point] in K. apply andb_prop in K as (K1 & K2). apply Z.eqb_eq in K1, K2. congruence. }
    rewrite SP, !(proj2 (Z.leb_gt _ _)) by (apply Z.mod_pos_bound; lia). cbn [orb]. rewrite (add_bad cv Pp G q) by tauto. reflexivity.
Qed.

(** no point but the identity is its own opposite *)
Lemma no_self x y : on (Some (x, y)) -> pt (Some (x, y)) <> popp (pt (Some (x, y))).
Proof.
  intros O H. unfold son in O. set (X := pt (Some (x, y))) in *. assert (N : X <> Inf) by discriminate. clearbody X. destruct X as [|u v]; [congruence|].
  cbn [popp] in H. assert (E : v = fopp v) by congruence. apply (opp_self F two) in E. subst v. exact (NT u O).
Qed.
(** what goes wrong *)
Lemma infinity_claim r s : 1 <= r < n -> 1 <= s < n -> py_verify G (- r) r s cv = Raise TypeError /\ py_verify_fast G (- r) r s cv = Raise TypeError.
Proof.
  intros Hr Hs. destruct (verify_value G (- r) r s NG Hr Hs) as (w & Ew & -> & ->). destruct NG as (Tg & Og).
  assert (C : combined cv Pp G (- r) r w = Inf); [|rewrite C; auto]. unfold combined. rewrite <- (zmul_add F A Bc two D0) by exact Og.
  rewrite <- (zmul_mod F A Bc two D0 n) by (first [exact Og|exact (K0 _ Og)]). rewrite <- Zplus_mod. replace (- r * w + r * w) with 0 by lia. rewrite Z.mod_0_l by lia. reflexivity.
Qed.
Lemma identity_key_claim x y e : G = Some (x, y) -> 1 <= x mod n -> 1 <= e < n -> py_verify None e (x mod n) e cv = Ret true /\ ~ accepts (@zval p : F -> Z) A (pt G) n (pt None) e (x mod n) e.
Proof.
  intros EG Hx He. split; [|intros (H & _); apply H; reflexivity]. pose proof (Z.mod_pos_bound x n ltac:(lia)).
  destruct (verify_value None e (x mod n) e (nice_none cv Pp) ltac:(lia) He) as (w & Ew & -> & _).
  unfold combined. rewrite Ew, zmul_1. cbn [spt]. rewrite zmul_inf, padd_0_r, EG. cbn [spt judge]. rewrite zval_mk. destruct NG as (Tg & _). rewrite EG in Tg. rewrite (Z.mod_small x p) by apply Tg. rewrite Z.eqb_refl. reflexivity.
Qed.
Lemma unreduced_claim x y : tidy p (Some (x, y)) -> on (Some (x, y)) ->
  py_on_curve (Some (x, y + p)) cv = Ret true /\ py_on_curve (Some (x + p, y)) cv = Ret true /\ spt Pp (Some (x, y + p)) = pt (Some (x, y)) /\ spt Pp (Some (x + p, y)) = pt (Some (x, y)) /\
  padd A (pt (Some (x, y))) (pt (Some (x, y))) <> Inf /\ ec_add (Some (x, y)) (Some (x, y + p)) cv = Ret None /\ ec_add (Some (x, y)) (Some (x + p, y)) cv = Raise AssertionError.
Proof.
  intros T O. assert (M : forall v, zmk p Pp (v + p) = zmk p Pp v) by (intros v; apply zmk_eq; replace (v + p) with (v + 1 * p) by lia; apply Z.mod_add; lia).
  assert (E1 : pt (Some (x, y + p)) = pt (Some (x, y))) by (cbn [spt]; rewrite M; reflexivity). assert (E2 : pt (Some (x + p, y)) = pt (Some (x, y))) by (cbn [spt]; rewrite M; reflexivity).
  assert (O1 : on (Some (x, y + p))) by (unfold son; rewrite E1; exact O). assert (O2 : on (Some (x + p, y))) by (unfold son; rewrite E2; exact O).
  split; [apply (on_claim cv Pp); exact O1|]. split; [apply (on_claim cv Pp); exact O2|]. split; [exact E1|]. split; [exact E2|]. split; [|split].
  - intros H. apply (uniq_opp F A Bc) in H; [|exact O|exact O]. exact (no_self x y O H).
  - unfold ec_add. rewrite (assert_ok cv Pp _ O), (assert_ok cv Pp _ O1). cbn [pbind]. rewrite Z.eqb_refl, (proj2 (Z.eqb_neq y (y + p))) by lia. reflexivity.
  - unfold ec_add. rewrite (assert_ok cv Pp _ O), (assert_ok cv Pp _ O2). cbn [pbind]. rewrite (proj2 (Z.eqb_neq x (x + p))) by lia. cbn [andb]. replace (x - (x + p)) with (- p) by lia.
    unfold inverse_mod. rewrite (proj2 (Z.eqb_neq (- p) 0)), (proj2 (Z.ltb_lt (- p) 0)), Z.opp_involutive by lia. pose proof (inverse_pos_ok p p ltac:(lia) ltac:(lia)) as H.
    rewrite Z.gcd_diag, Z.abs_eq, (proj2 (Z.eqb_neq p 1)), andb_false_r in H by lia. rewrite H. reflexivity.
Qed.
Lemma negative_claim x y Q : tidy p (Some (x, y)) -> on (Some (x, y)) -> tidy p Q -> on Q -> Some (x, y) <> Q ->
  exists R, ec_mul_add_fast (-1) (Some (x, y)) 1 Q cv = Ret R /\ pt R = padd A (pt (Some (x, y))) (pt Q) /\ pt R <> padd A (zmul A (-1) (pt (Some (x, y)))) (zmul A 1 (pt Q)) /\
    ec_mul_add_fast_steps (-1) (Some (x, y)) 1 Q cv = Raise TypeError.
Proof.
  intros T O TQ OQ N. destruct (fast_ok cv Pp SM NT (-1) (Some (x, y)) 1 Q (conj T O) (conj TQ OQ) ltac:(lia) ltac:(lia) N ltac:(lia) ltac:(lia)) as (R & E & NR & VR).
  exists R. change (Z.abs (-1)) with 1 in VR. change (Z.abs 1) with 1 in VR. rewrite !zmul_1 in VR. split; [exact E|]. split; [exact VR|]. split.
  - rewrite VR, zmul_1. change (-1) with (- (1)). rewrite (zmul_opp F A Bc) by exact O. rewrite zmul_1. intros H.
    apply (add_cancel F A Bc two D0) in H; [|exact O|apply popp_curve; exact O|exact OQ]. exact (no_self x y O H).
  - unfold ec_mul_add_fast_steps, ec_mul_add_fast in *. destruct Q as [[u v]|]; [|reflexivity]. cbn [show is_none pbind].
    cbn [Z.eqb] in *. destruct (same_point (Some (x, y)) (Some (u, v))) eqn:SP.
    { exfalso. apply N. cbn [same_point] in SP. apply andb_true_iff in SP. destruct SP as [S1 S2]. apply Z.eqb_eq in S1, S2. congruence. }
    destruct ((n <=? -1) || (n <=? 1)); [discriminate E|]. destruct (ec_add (Some (x, y)) (Some (u, v)) cv) as [pq| |]; [|discriminate E|discriminate E]. cbn [pbind].
    destruct pq as [pq|]; reflexivity.
Qed.
Lemma opposite_claim x y a b : tidy p (Some (x, y)) -> on (Some (x, y)) -> 0 < a < n -> 0 < b < n ->
  exists Q R, ec_neg (Some (x, y)) cv = Ret Q /\ ec_mul_add_fast a (Some (x, y)) b Q cv = Ret R /\ pt R = zmul A (a - b) (pt (Some (x, y))) /\ ec_mul_add_fast_steps a (Some (x, y)) b Q cv = Raise TypeError.
Proof.
  intros T O Ha Hb. destruct (neg_ok cv Pp _ O) as (Q & EQ & VQ & OQ & TQ). specialize (TQ T). exists Q.
  destruct (fast_claim a _ b Q T O TQ OQ ltac:(lia) ltac:(lia)) as (R & ER & TR & VR). exists R. split; [exact EQ|]. split; [exact ER|]. split.
  - rewrite VR, VQ, (zmul_popp F A Bc two), <- (zmul_opp F A Bc), <- (zmul_add F A Bc two D0) by exact O. reflexivity.
  - destruct Q as [[u v]|]; [|discriminate VQ]. unfold ec_mul_add_fast_steps, show. cbn [is_none pbind]. rewrite !(proj2 (Z.eqb_neq _ _)) by lia.
    destruct (same_point (Some (x, y)) (Some (u, v))) eqn:SP.
    + exfalso. cbn [same_point] in SP. apply andb_prop in SP as (S1 & S2). apply Z.eqb_eq in S1, S2. subst u v. exact (no_self x y O VQ).
    + rewrite !(proj2 (Z.leb_gt _ _)) by lia. cbn [orb]. destruct (add_total cv Pp SM NT _ _ (conj T O) (conj TQ OQ)) as (W & EW & NW & VW). rewrite EW. cbn [pbind]. rewrite VQ, padd_opp_r in VW.
      destruct W as [[z t]|]; [discriminate VW|]. reflexivity.
Qed.
End V.
(** a point of order two *)
Lemma order_two_claim cv Pp x : 2 < py_p cv -> 1 < py_n cv -> tidy (py_p cv) (Some (x, 0)) -> son cv Pp (Some (x, 0)) ->
  padd (sa cv Pp) (spt Pp (Some (x, 0))) (spt Pp (Some (x, 0))) = Inf /\ ec_add (Some (x, 0)) (Some (x, 0)) cv = Raise ZeroDivisionError /\ ec_mul (Some (x, 0)) 1 cv = Raise ZeroDivisionError.
Proof.
  intros H2 HN T O. assert (E : ec_add (Some (x, 0)) (Some (x, 0)) cv = Raise ZeroDivisionError) by (apply (add_claim cv Pp _ _ H2 T T O O); exists x; auto).
  split; [|split; [exact E|]].
  - change (spt Pp (Some (x, 0))) with (Aff (zmk _ Pp x) (zmk _ Pp 0) : point (Zp _ Pp)) at 2. replace (Aff (zmk _ Pp x) (zmk _ Pp 0) : point (Zp _ Pp)) with (popp (spt Pp (Some (x, 0)))); [apply padd_opp_r|].
    cbn [spt popp]. f_equal.
  - unfold ec_mul, ec_mul_nonneg. cbn [Z.ltb Z.compare]. rewrite (assert_ok cv Pp _ O), pymod_ok by lia. cbn [pbind]. rewrite Z.mod_1_l by lia. cbn [Z.eqb orb is_none mul_loop].
    assert (EA : ec_add None (Some (x, 0)) cv = Ret (Some (x, 0))) by (unfold ec_add; rewrite (assert_ok cv Pp _ O); reflexivity). rewrite EA. cbn [pbind]. rewrite E. reflexivity.
Qed.
