(** The chord-and-tangent law of EcGroup.v is a commutative group law on a non-singular curve. *)
From Coq Require Import Field Ring Setoid Bool.
From Verif Require Import EcGroup.

Section P.
Variable F : fieldT.
Add Field Fld : (f_theory F).
Variables a b : F.
Hypothesis two_ne : (2 : F) <> 0.
Hypothesis Hdisc : disc a b <> 0.

Notation E := (on_curve a b).
Infix "++" := (padd a).
Notation "-- P" := (@popp F P) (at level 35, right associativity).

Lemma mul_integral (x y : F) : x * y = 0 -> x = 0 \/ y = 0.
Proof.
  intros H. destruct (feq_dec x 0) as [e|n]; [left; exact e|right].
  replace y with ((x * y) / x) by (field; exact n). rewrite H. field. exact n.
Qed.
Lemma sub_0 (x y : F) : x - y = 0 -> x = y.
Proof. intros H. replace x with (x - y + y) by ring. rewrite H. ring. Qed.
Lemma sub_ne (x y : F) : x <> y -> x - y <> 0.
Proof. intros H K. apply H, sub_0, K. Qed.
Lemma mul_ne (x y : F) : x <> 0 -> y <> 0 -> x * y <> 0.
Proof. intros A B H. destruct (mul_integral _ _ H); auto. Qed.
Lemma dbl_ne (y : F) : y <> 0 -> 2 * y <> 0.
Proof. intros H. apply mul_ne; auto. Qed.
Lemma opp_self (y : F) : y = - y -> y = 0.
Proof.
  intros H. assert (K : 2 * y = 0) by (replace (2 * y) with (y + y) by ring; rewrite H at 2; ring).
  destruct (mul_integral _ _ K); [contradiction|assumption].
Qed.
Lemma opp_ne (y : F) : y <> 0 -> - y <> 0.
Proof. intros H K. apply H. replace y with (- - y) by ring. rewrite K. ring. Qed.
Lemma neg_opp (y : F) : y <> - y -> y <> 0.
Proof. intros H K. apply H. rewrite K. ring. Qed.
Lemma sqr_eq (x y : F) : x * x = y * y -> x = y \/ x = - y.
Proof.
  intros H. assert (K : (x - y) * (x + y) = 0) by (replace ((x - y) * (x + y)) with (x * x - y * y) by ring; rewrite H; ring).
  destruct (mul_integral _ _ K) as [e|e]; [left; apply sub_0, e|right].
  replace x with (x + y - y) by ring. rewrite e. ring.
Qed.
Lemma same_x x y y' : E (Aff x y) -> E (Aff x y') -> y = y' \/ y = - y'.
Proof. cbn. intros A B. apply sqr_eq. congruence. Qed.

(** the shapes of a sum *)
Lemma padd_chord x1 y1 x2 y2 : x1 <> x2 -> Aff x1 y1 ++ Aff x2 y2 = third ((y2 - y1) / (x2 - x1)) x1 y1 x2.
Proof. intros H. cbn. destruct (feq_dec x1 x2); [contradiction|reflexivity]. Qed.
Lemma padd_tangent x y : y <> 0 -> Aff x y ++ Aff x y = third ((3 * (x * x) + a) / (2 * y)) x y x.
Proof.
  intros H. cbn. destruct (feq_dec x x) as [_|n]; [|contradiction].
  destruct (feq_dec y (- y)) as [e|_]; [exfalso; apply H, opp_self, e|reflexivity].
Qed.
Lemma padd_opp_r P : P ++ -- P = Inf.
Proof.
  destruct P as [|x y]; cbn; [reflexivity|]. destruct (feq_dec x x) as [_|n]; [|contradiction].
  destruct (feq_dec y (- - y)) as [_|n]; [reflexivity|]. exfalso. apply n. ring.
Qed.
Lemma padd_0_r P : P ++ Inf = P.
Proof. destruct P; reflexivity. Qed.
Lemma popp_popp P : -- -- P = P.
Proof. destruct P; cbn; [reflexivity|]. f_equal. ring. Qed.
Lemma popp_curve P : E P -> E (-- P).
Proof. destruct P; cbn; [auto|]. intros H. rewrite <- H. ring. Qed.
Lemma popp_inj P Q : -- P = -- Q -> P = Q.
Proof. intros H. rewrite <- (popp_popp P), <- (popp_popp Q), H. reflexivity. Qed.
Lemma uniq_opp P Q : E P -> E Q -> P ++ Q = Inf -> P = -- Q.
Proof.
  destruct P as [|x1 y1]; destruct Q as [|x2 y2]; cbn; intros HP HQ H; try reflexivity; try discriminate.
  - destruct (feq_dec x1 x2) as [->|n]; [|discriminate].
    destruct (feq_dec y1 (- y2)) as [->|n]; [reflexivity|discriminate].
Qed.
Lemma point_dec (P Q : point F) : {P = Q} + {P <> Q}.
Proof.
  destruct P as [|x y], Q as [|x' y']; try (right; discriminate); [left; reflexivity|].
  destruct (feq_dec x x') as [->|n]; [|right; congruence].
  destruct (feq_dec y y') as [->|n]; [left; reflexivity|right; congruence].
Qed.
(** two points of the curve are equal, opposite, or have different abscissas *)
Lemma trich x1 y1 x2 y2 : E (Aff x1 y1) -> E (Aff x2 y2) ->
  Aff x1 y1 = -- Aff x2 y2 \/ (Aff x1 y1 = Aff x2 y2 /\ y1 <> 0) \/ x1 <> x2.
Proof.
  intros H1 H2. destruct (feq_dec x1 x2) as [->|n]; [|right; right; exact n].
  destruct (same_x _ _ _ H1 H2) as [->| ->]; [|left; reflexivity].
  destruct (feq_dec y2 0) as [->|n]; [|right; left; split; [reflexivity|exact n]].
  left. cbn. f_equal. ring.
Qed.
Lemma padd_curve P Q : E P -> E Q -> E (P ++ Q).
Proof.
  destruct P as [|x1 y1]; [auto|]. destruct Q as [|x2 y2]; [auto|]. intros HP HQ.
  destruct (trich _ _ _ _ HP HQ) as [e|[[e n]|n]].
  - rewrite e. cbn [popp]. replace (Aff x2 (- y2) ++ Aff x2 y2) with (@Inf F); [exact I|].
    symmetry. change (Aff x2 (- y2)) with (-- Aff x2 y2). rewrite <- (popp_popp (Aff x2 y2)) at 2. apply padd_opp_r.
  - inversion e; subst. rewrite padd_tangent by exact n. cbn in HP |- *. field [HP]. auto.
  - rewrite padd_chord by exact n. cbn in HP, HQ |- *. field [HP HQ]. apply sub_ne. auto.
Qed.
Lemma padd_comm P Q : E P -> E Q -> P ++ Q = Q ++ P.
Proof.
  destruct P as [|x1 y1]; [intros; symmetry; apply padd_0_r|]. destruct Q as [|x2 y2]; [reflexivity|]. intros HP HQ.
  destruct (trich _ _ _ _ HP HQ) as [e|[[e n]|n]].
  - rewrite e. rewrite padd_opp_r. rewrite <- (popp_popp (Aff x2 y2)) at 2. apply padd_opp_r.
  - rewrite e. reflexivity.
  - rewrite !padd_chord by auto. unfold third. f_equal; field; split; apply sub_ne; auto.
Qed.
Lemma opp_add P Q : E P -> E Q -> -- (P ++ Q) = -- P ++ -- Q.
Proof.
  destruct P as [|x1 y1]; [reflexivity|]. destruct Q as [|x2 y2]; [reflexivity|]. intros HP HQ.
  destruct (trich _ _ _ _ HP HQ) as [e|[[e n]|n]].
  - rewrite e. rewrite (padd_comm (-- _) _), popp_popp, padd_opp_r by auto using popp_curve. reflexivity.
  - inversion e; subst. rewrite padd_tangent by exact n. cbn [popp]. rewrite padd_tangent.
    + unfold third, popp. f_equal; field; repeat split; auto; intros K; apply n; replace y2 with (- - y2) by ring; rewrite K; ring.
    + intros K. apply n. replace y2 with (- - y2) by ring. rewrite K. ring.
  - cbn [popp]. rewrite !padd_chord by auto. unfold third, popp. f_equal; field; apply sub_ne; auto.
Qed.
(** a point with y = 0 and 3 x^2 + a = 0 is singular *)
Lemma not_singular x : E (Aff x 0) -> 3 * (x * x) + a <> 0.
Proof.
  cbn. intros H K. apply Hdisc. unfold disc.
  assert (A : a = - (3 * (x * x))) by (replace a with (3 * (x * x) + a - 3 * (x * x)) by ring; rewrite K; ring).
  assert (B : b = 2 * (x * x * x)).
  { replace b with (x * x * x + a * x + b - x * x * x - a * x) by ring. rewrite <- H, A. ring. }
  rewrite B, A. ring.
Qed.
(** the chord through P and Q is tangent at Q *)
Lemma chord_tangent x1 y1 x2 y2 : E (Aff x1 y1) -> E (Aff x2 y2) -> x1 <> x2 ->
  let l := (y2 - y1) / (x2 - x1) in l * l - x1 - x2 = x2 -> 2 * y2 * l = 3 * (x2 * x2) + a.
Proof.
  cbv zeta. cbn. intros H1 H2 n.
  set (l := (y2 - y1) / (x2 - x1)). intros Hl.
  assert (D : x2 - x1 <> 0) by (apply sub_ne; auto).
  assert (A : y1 = y2 - l * (x2 - x1)) by (unfold l; field; exact D).
  assert (B : l * (y2 + y1) = x2 * x2 + x2 * x1 + x1 * x1 + a).
  { assert (K : (x2 - x1) * (l * (y2 + y1) - (x2 * x2 + x2 * x1 + x1 * x1 + a)) = 0).
    { replace ((x2 - x1) * (l * (y2 + y1) - (x2 * x2 + x2 * x1 + x1 * x1 + a)))
        with (y2 * y2 - y1 * y1 - (x2 * x2 * x2 - x1 * x1 * x1 + a * (x2 - x1))) by (unfold l; field; exact D).
      rewrite H1, H2. ring. }
    destruct (mul_integral _ _ K) as [e|e]; [contradiction|]. apply sub_0, e. }
  assert (C : l * l = x1 + 2 * x2) by (replace (l * l) with (l * l - x1 - x2 + (x1 + x2)) by ring; rewrite Hl; ring).
  replace (2 * y2 * l) with (l * (y2 + (y2 - l * (x2 - x1))) + l * l * (x2 - x1)) by ring.
  rewrite <- A, B, C. ring.
Qed.

(** P + Q - Q = P *)
Lemma add_sub P Q : E P -> E Q -> (P ++ Q) ++ -- Q = P.
Proof.
  destruct P as [|x1 y1]; [intros _ _; apply padd_opp_r|]. destruct Q as [|x2 y2]; [reflexivity|]. intros HP HQ.
  destruct (trich _ _ _ _ HP HQ) as [e|[[e n]|n]].
  - rewrite e. rewrite (padd_comm (-- _)) by auto using popp_curve. rewrite padd_opp_r. reflexivity.
  - inversion e; subst. pose proof (padd_curve _ _ HP HP) as HS. pose proof (padd_tangent x2 y2 n) as S.
    unfold third in S. set (l := (3 * (x2 * x2) + a) / (2 * y2)) in S. set (x := l * l - x2 - x2) in S.
    set (y := l * (x2 - x) - y2) in S. destruct (feq_dec x x2) as [ex|nx].
    + assert (ey : y = - y2) by (unfold y; rewrite ex; ring).
      rewrite S, ex, ey. change (Aff x2 (- y2)) with (-- Aff x2 y2). rewrite <- opp_add by auto. rewrite S, ex, ey.
      cbn. f_equal. ring.
    + rewrite S. cbn [popp]. rewrite padd_chord by exact nx.
      assert (D : x2 - x <> 0) by (apply sub_ne; auto). unfold third.
      assert (L : (- y2 - y) / (x2 - x) = - l) by (unfold y; field; exact D).
      rewrite L. assert (X : - l * - l - x - x2 = x2) by (unfold x; ring). rewrite X. f_equal. unfold y. ring.
  - pose proof (padd_curve _ _ HP HQ) as HS. pose proof (padd_chord x1 y1 x2 y2 n) as S.
    unfold third in S. pose proof (chord_tangent x1 y1 x2 y2 HP HQ n) as T. cbv zeta in T.
    assert (D0 : x2 - x1 <> 0) by (apply sub_ne; auto).
    set (l := (y2 - y1) / (x2 - x1)) in S, T. 
    assert (Y1 : y1 = y2 - l * (x2 - x1)) by (unfold l; field; exact D0).
    set (x := l * l - x1 - x2) in S, T.
    set (y := l * (x1 - x) - y1) in S. destruct (feq_dec x x2) as [ex|nx].
    + specialize (T ex).
      assert (ey : y = - y2) by (unfold y; rewrite ex; rewrite Y1; ring).
      assert (n2 : y2 <> 0).
      { intros K. rewrite K in HQ. apply (not_singular _ HQ). rewrite <- T, K. ring. }
      rewrite S, ex, ey. cbn [popp]. rewrite padd_tangent by (intros K; apply n2; replace y2 with (- - y2) by ring; rewrite K; ring).
      unfold third. assert (L : (3 * (x2 * x2) + a) / (2 * - y2) = - l).
      { rewrite <- T. field. repeat split; auto using opp_ne. }
      rewrite L. assert (X : - l * - l - x2 - x2 = x1).
      { replace (- l * - l - x2 - x2) with (x + x1 - x2) by (unfold x; ring). rewrite ex. ring. }
      rewrite X. f_equal. rewrite Y1. ring.
    + rewrite S. cbn [popp]. rewrite padd_chord by exact nx.
      assert (D : x2 - x <> 0) by (apply sub_ne; auto). unfold third.
      assert (L : (- y2 - y) / (x2 - x) = - l) by (unfold y; rewrite Y1; field; exact D).
      rewrite L. assert (X : - l * - l - x - x2 = x1) by (unfold x; ring). rewrite X. f_equal. unfold y. ring.
Qed.
Lemma add_cancel P P' Q : E P -> E P' -> E Q -> P ++ Q = P' ++ Q -> P = P'.
Proof. intros A B C H. rewrite <- (add_sub P Q), <- (add_sub P' Q), H by auto. reflexivity. Qed.

(** the two computations: all four sums are chords; or one is a tangent and the others chords *)
Lemma chords_assoc x1 y1 x2 y2 x3 y3 :
  E (Aff x1 y1) -> E (Aff x2 y2) -> E (Aff x3 y3) ->
  let l12 := (y2 - y1) / (x2 - x1) in
  let x12 := l12 * l12 - x1 - x2 in
  let y12 := l12 * (x1 - x12) - y1 in
  let l23 := (y3 - y2) / (x3 - x2) in
  let x23 := l23 * l23 - x2 - x3 in
  let y23 := l23 * (x2 - x23) - y2 in
  x1 <> x2 -> x2 <> x3 -> x12 <> x3 -> x1 <> x23 ->
  third ((y3 - y12) / (x3 - x12)) x12 y12 x3 = third ((y23 - y1) / (x23 - x1)) x1 y1 x23.
Proof.
  cbv zeta. unfold on_curve. intros E1 E2 E3 D1 D2 D3 D4.
  assert (C1 : x2 - x1 <> 0) by (apply sub_ne; auto).
  assert (C2 : x3 - x2 <> 0) by (apply sub_ne; auto).
  assert (C3 : x3 * ((x2 - x1) * (x2 - x1)) - ((y2 - y1) * (y2 - y1) - x1 * ((x2 - x1) * (x2 - x1)) - x2 * ((x2 - x1) * (x2 - x1))) <> 0).
  { intros K. apply D3. symmetry. apply sub_0.
    transitivity ((x3 * ((x2 - x1) * (x2 - x1)) - ((y2 - y1) * (y2 - y1) - x1 * ((x2 - x1) * (x2 - x1)) - x2 * ((x2 - x1) * (x2 - x1)))) / ((x2 - x1) * (x2 - x1))).
    - field. exact C1.
    - rewrite K. field. exact C1. }
  assert (C4 : (y3 - y2) * (y3 - y2) - x2 * ((x3 - x2) * (x3 - x2)) - x3 * ((x3 - x2) * (x3 - x2)) - x1 * ((x3 - x2) * (x3 - x2)) <> 0).
  { intros K. apply D4. symmetry. apply sub_0.
    transitivity (((y3 - y2) * (y3 - y2) - x2 * ((x3 - x2) * (x3 - x2)) - x3 * ((x3 - x2) * (x3 - x2)) - x1 * ((x3 - x2) * (x3 - x2))) / ((x3 - x2) * (x3 - x2))).
    - field. exact C2.
    - rewrite K. field. exact C2. }
  unfold third. f_equal; field [E1 E2 E3]; repeat split; assumption.
Qed.
Lemma tangent_assoc x1 y1 x3 y3 :
  E (Aff x1 y1) -> E (Aff x3 y3) -> y1 <> 0 ->
  let l12 := (3 * (x1 * x1) + a) / (2 * y1) in
  let x12 := l12 * l12 - x1 - x1 in
  let y12 := l12 * (x1 - x12) - y1 in
  let l23 := (y3 - y1) / (x3 - x1) in
  let x23 := l23 * l23 - x1 - x3 in
  let y23 := l23 * (x1 - x23) - y1 in
  x1 <> x3 -> x12 <> x3 -> x1 <> x23 ->
  third ((y3 - y12) / (x3 - x12)) x12 y12 x3 = third ((y23 - y1) / (x23 - x1)) x1 y1 x23.
Proof.
  cbv zeta. unfold on_curve. intros E1 E3 N D2 D3 D4.
  assert (C2 : x3 - x1 <> 0) by (apply sub_ne; auto).
  assert (C3 : x3 * (2 * y1 * (2 * y1)) - ((3 * (x1 * x1) + a) * (3 * (x1 * x1) + a) - x1 * (2 * y1 * (2 * y1)) - x1 * (2 * y1 * (2 * y1))) <> 0).
  { intros K. apply D3. symmetry. apply sub_0.
    transitivity ((x3 * (2 * y1 * (2 * y1)) - ((3 * (x1 * x1) + a) * (3 * (x1 * x1) + a) - x1 * (2 * y1 * (2 * y1)) - x1 * (2 * y1 * (2 * y1)))) / (2 * y1 * (2 * y1))).
    - field. auto.
    - rewrite K. field. auto. }
  assert (C4 : (y3 - y1) * (y3 - y1) - x1 * ((x3 - x1) * (x3 - x1)) - x3 * ((x3 - x1) * (x3 - x1)) - x1 * ((x3 - x1) * (x3 - x1)) <> 0).
  { intros K. apply D4. symmetry. apply sub_0.
    transitivity (((y3 - y1) * (y3 - y1) - x1 * ((x3 - x1) * (x3 - x1)) - x3 * ((x3 - x1) * (x3 - x1)) - x1 * ((x3 - x1) * (x3 - x1))) / ((x3 - x1) * (x3 - x1))).
    - field. exact C2.
    - rewrite K. field. exact C2. }
  unfold third. f_equal; field [E1 E3]; repeat split; assumption.
Qed.

(** sums with an opposite, a zero *)
Lemma degen_assoc P Q R : E P -> E Q -> E R ->
  P = Inf \/ Q = Inf \/ R = Inf \/ P = -- Q \/ Q = -- R \/ P ++ Q = -- R \/ P = -- (Q ++ R) \/ P = R ->
  (P ++ Q) ++ R = P ++ (Q ++ R).
Proof.
  intros HP HQ HR [->|[->|[->|[->|[->|[H|[H| ->]]]]]]].
  - reflexivity.
  - rewrite padd_0_r. reflexivity.
  - rewrite !padd_0_r. reflexivity.
  - rewrite (padd_comm (-- Q) Q), padd_opp_r by auto using popp_curve. cbn [padd].
    rewrite (padd_comm (-- Q)), (padd_comm Q R), add_sub by auto using popp_curve, padd_curve. reflexivity.
  - rewrite (padd_comm (-- R) R), padd_opp_r, padd_0_r by auto using popp_curve.
    rewrite <- (popp_popp R) at 2. apply add_sub; auto using popp_curve.
  - pose proof (add_sub P Q HP HQ) as K. rewrite H in K. rewrite <- opp_add in K by auto.
    rewrite H, (padd_comm (-- R) R), padd_opp_r, (padd_comm Q R) by auto using popp_curve.
    rewrite <- K at 1. rewrite (padd_comm (-- _) _), padd_opp_r by auto using popp_curve, padd_curve. reflexivity.
  - pose proof (add_sub R Q HR HQ) as K. rewrite (padd_comm R Q) in K by auto.
    assert (K2 : P ++ Q = -- R). { rewrite H. apply (f_equal (@popp F)) in K. rewrite opp_add, popp_popp in K by auto using popp_curve, padd_curve. exact K. }
    rewrite K2. rewrite H at 1. rewrite (padd_comm (-- R) R), padd_opp_r, (padd_comm (-- _) _), padd_opp_r by auto using popp_curve, padd_curve. reflexivity.
  - rewrite (padd_comm (R ++ Q) R), (padd_comm R Q) by auto using padd_curve. reflexivity.
Qed.
Lemma no_fix P Q : E P -> E Q -> P ++ Q = Q -> P = Inf.
Proof. intros HP HQ H. apply (add_cancel P Inf Q); auto. exact I. Qed.
(** a sum that is neither zero nor of opposites *)
Lemma chord_of P Q x1 y1 x2 y2 : E P -> E Q -> P = Aff x1 y1 -> Q = Aff x2 y2 -> P <> -- Q -> P <> Q -> x1 <> x2.
Proof. intros HP HQ -> -> N M. destruct (trich _ _ _ _ HP HQ) as [e|[[e _]|n]]; [contradiction|contradiction|exact n]. Qed.

Lemma double_assoc_gen P R : E P -> E R -> P ++ P <> R -> (P ++ P) ++ R = P ++ (P ++ R).
Proof.
  intros HP HR N1.
  destruct (point_dec P Inf) as [e|P0]; [apply degen_assoc; auto|].
  destruct (point_dec R Inf) as [e|R0]; [apply degen_assoc; auto 6|].
  destruct (point_dec P (-- P)) as [e|PP]; [apply degen_assoc; auto 8|].
  destruct (point_dec P (-- R)) as [e|PR]; [apply degen_assoc; auto 8|].
  destruct (point_dec (P ++ P) (-- R)) as [e|PPR]; [apply degen_assoc; auto 10|].
  destruct (point_dec P (-- (P ++ R))) as [e|QQ]; [apply degen_assoc; auto 12|].
  destruct (point_dec P R) as [e|PnR]; [apply degen_assoc; auto 12|].
  assert (N2 : P <> P ++ R). { intros K. apply R0. apply (no_fix R P); auto. rewrite padd_comm; auto. }
  pose proof (padd_curve _ _ HP HP) as HPP. pose proof (padd_curve _ _ HP HR) as HPR.
  destruct P as [|x1 y1]; [contradiction|]. destruct R as [|x3 y3]; [contradiction|].
  assert (Y1 : y1 <> 0). { intros ->. apply PP. cbn. f_equal. ring. }
  assert (X1 : x1 <> x3) by (eapply (chord_of (Aff x1 y1) (Aff x3 y3)); eauto).
  pose proof (padd_tangent x1 y1 Y1) as S1. pose proof (padd_chord x1 y1 x3 y3 X1) as S2.
  unfold third in S1, S2.
  pose proof (chord_of _ (Aff x3 y3) _ _ _ _ HPP HR S1 eq_refl PPR N1) as X2.
  pose proof (chord_of (Aff x1 y1) _ _ _ _ _ HP HPR eq_refl S2 QQ N2) as X3.
  rewrite S1, S2. rewrite (padd_chord _ _ _ _ X2), (padd_chord _ _ _ _ X3).
  apply tangent_assoc; assumption.
Qed.
Lemma double_assoc P R : E P -> E R -> (P ++ P) ++ R = P ++ (P ++ R).
Proof.
  intros HP HR. destruct (point_dec (P ++ P) R) as [<-|N]; [|apply double_assoc_gen; assumption].
  set (R := P ++ P) in *. assert (HR' : E R) by assumption.
  assert (K : R ++ -- P = P) by (apply add_sub; assumption).
  destruct (point_dec (R ++ R) (-- P)) as [e|N].
  - (* 5 P = 0 *)
    rewrite e. assert (A : P ++ R = -- R).
    { pose proof (add_sub R R HR HR) as B. rewrite e, <- opp_add in B by auto.
      rewrite <- B at 2. rewrite popp_popp. reflexivity. }
    rewrite A. rewrite <- K at 1. rewrite opp_add, popp_popp by auto using popp_curve.
    apply padd_comm; auto using popp_curve.
  - pose proof (double_assoc_gen R (-- P) HR (popp_curve _ HP) N) as B. rewrite K in B.
    pose proof (add_sub (R ++ R) (-- P) (padd_curve _ _ HR HR) (popp_curve _ HP)) as C.
    rewrite B, popp_popp in C. rewrite <- C. rewrite (padd_comm P R) by auto. apply padd_comm; auto using padd_curve.
Qed.
Lemma sum_assoc P Q : E P -> E Q -> (P ++ Q) ++ (P ++ Q) = P ++ (Q ++ (P ++ Q)).
Proof.
  intros HP HQ. set (R := P ++ Q). assert (HR : E R) by (apply padd_curve; assumption).
  assert (K : R ++ -- P = Q) by (unfold R; rewrite (padd_comm P Q) by auto; apply add_sub; assumption).
  pose proof (double_assoc R (-- P) HR (popp_curve _ HP)) as B. rewrite K in B.
  pose proof (add_sub (R ++ R) (-- P) (padd_curve _ _ HR HR) (popp_curve _ HP)) as C.
  rewrite B, popp_popp in C. rewrite <- C. rewrite (padd_comm Q R) by auto. apply padd_comm; auto using padd_curve.
Qed.
Theorem padd_assoc P Q R : E P -> E Q -> E R -> (P ++ Q) ++ R = P ++ (Q ++ R).
Proof.
  intros HP HQ HR.
  destruct (point_dec P Inf) as [e|P0]; [apply degen_assoc; auto|].
  destruct (point_dec Q Inf) as [e|Q0]; [apply degen_assoc; auto|].
  destruct (point_dec R Inf) as [e|R0]; [apply degen_assoc; auto 6|].
  destruct (point_dec P (-- Q)) as [e|PQ]; [apply degen_assoc; auto 8|].
  destruct (point_dec Q (-- R)) as [e|QR]; [apply degen_assoc; auto 8|].
  destruct (point_dec (P ++ Q) (-- R)) as [e|PQR]; [apply degen_assoc; auto 10|].
  destruct (point_dec P (-- (Q ++ R))) as [e|QQ]; [apply degen_assoc; auto 12|].
  destruct (point_dec P Q) as [->|PnQ]; [apply double_assoc; assumption|].
  pose proof (padd_curve _ _ HP HQ) as HPQ. pose proof (padd_curve _ _ HQ HR) as HQR.
  destruct (point_dec Q R) as [->|QnR].
  { rewrite (padd_comm (P ++ R) R), (padd_comm P R), (padd_comm P (R ++ R)) by auto. symmetry. apply double_assoc; assumption. }
  destruct (point_dec (P ++ Q) R) as [<-|N1]; [apply sum_assoc; assumption|].
  destruct (point_dec P (Q ++ R)) as [->|N2].
  { rewrite (padd_comm _ R), (padd_comm (Q ++ R) Q) by auto using padd_curve.
    rewrite (padd_comm Q R) by auto. symmetry. apply sum_assoc; assumption. }
  destruct P as [|x1 y1]; [contradiction|]. destruct Q as [|x2 y2]; [contradiction|]. destruct R as [|x3 y3]; [contradiction|].
  assert (X1 : x1 <> x2) by (eapply (chord_of (Aff x1 y1) (Aff x2 y2)); eauto).
  assert (X2 : x2 <> x3) by (eapply (chord_of (Aff x2 y2) (Aff x3 y3)); eauto).
  pose proof (padd_chord x1 y1 x2 y2 X1) as S1. pose proof (padd_chord x2 y2 x3 y3 X2) as S2.
  unfold third in S1, S2.
  pose proof (chord_of _ (Aff x3 y3) _ _ _ _ HPQ HR S1 eq_refl PQR N1) as X3.
  pose proof (chord_of (Aff x1 y1) _ _ _ _ _ HP HQR eq_refl S2 QQ N2) as X4.
  rewrite S1, S2. rewrite (padd_chord _ _ _ _ X3), (padd_chord _ _ _ _ X4).
  apply chords_assoc; assumption.
Qed.
End P.
