(** Soundness of the checks of CurveCert.v. *)
From Coq Require Import List ZArith Znumtheory Zpow_facts Bool Lia Uint63 Field.
From Verif Require Import Residues Legendre Pocklington Limbs PrimeCert EcGroup EcGroupProofs ZpField EcSpec EcScalar GroupOrder CurveCert.
Import ListNotations.
Open Scope Z_scope.

Section STEPS.
Variable m : modulus.
Hypothesis MO : mod_ok m = true.
Notation rep := (rep m).
Ltac known a := match goal with H : rep a _ |- _ => idtac end.
Ltac step1 := match goal with
  | H : match mulm m ?a ?b with _ => _ end = Some _ |- _ =>
      let E := fresh "E" in destruct (mulm m a b) as [?|] eqn:E; [|discriminate H];
      match goal with RA : rep a _ |- _ => match goal with RB : rep b _ |- _ => pose proof (rep_mul m MO _ _ _ _ _ E RA RB) end end; clear E
  | H : match addm ?a ?b with _ => _ end = Some _ |- _ =>
      let E := fresh "E" in destruct (addm a b) as [?|] eqn:E; [|discriminate H];
      match goal with RA : rep a _ |- _ => match goal with RB : rep b _ |- _ => pose proof (rep_add m _ _ _ _ _ E RA RB) end end; clear E
  | H : match subm m ?a ?b with _ => _ end = Some _ |- _ =>
      let E := fresh "E" in destruct (subm m a b) as [?|] eqn:E; [|discriminate H];
      match goal with RA : rep a _ |- _ => match goal with RB : rep b _ |- _ => pose proof (rep_sub m MO _ _ _ _ _ E RA RB) end end; clear E
  end.
Lemma rep_eq a x y : rep a x -> x = y -> rep a y. Proof. intros H <-. exact H. Qed.
Ltac finish := match goal with H : Some _ = Some _ |- _ => injection H; intros; subst; clear H end; repeat match goal with |- _ /\ _ => split end; (eapply rep_eq; [eassumption|ring]).
Lemma jdbl_ok A X Y Z X' Y' Z' a x y z : jdbl m A X Y Z = Some (X', Y', Z') -> rep A a -> rep X x -> rep Y y -> rep Z z ->
  let M := 3 * x * x + a * (z * z * (z * z)) in let x' := M * M - 8 * x * (y * y) in
  rep X' x' /\ rep Y' (M * (4 * x * (y * y) - x') - 8 * (y * y) * (y * y)) /\ rep Z' (2 * y * z).
Proof. intros H RA RX RY RZ. unfold jdbl in H. repeat step1. cbv zeta. finish. Qed.
Lemma jadd_ok GX GY X Y Z X' Y' Z' gx gy x y z : jadd m GX GY X Y Z = Some (X', Y', Z') -> rep GX gx -> rep GY gy -> rep X x -> rep Y y -> rep Z z ->
  let h := x - gx * (z * z) in let r := y - gy * (z * z * z) in let x' := r * r + h * h * h - 2 * x * (h * h) in
  rep X' x' /\ rep Y' (r * (x * (h * h) - x') - y * (h * h * h)) /\ rep Z' (z * h).
Proof. intros H RA RB RX RY RZ. unfold jadd in H. repeat step1. cbv zeta. finish. Qed.
Lemma psqr_ok A B C0 C1 C2 D0 D1 D2 a b x0 x1 x2 : psqr m A B C0 C1 C2 = Some (D0, D1, D2) -> rep A a -> rep B b -> rep C0 x0 -> rep C1 x1 -> rep C2 x2 ->
  rep D0 (x0 * x0 - b * (2 * x1 * x2)) /\ rep D1 (2 * x0 * x1 - a * (2 * x1 * x2) - b * (x2 * x2)) /\ rep D2 (2 * x0 * x2 + x1 * x1 - a * (x2 * x2)).
Proof. intros H RA RB R0 R1 R2. unfold psqr in H. repeat step1. finish. Qed.
Lemma pmulx_ok A B ZERO C0 C1 C2 D0 D1 D2 a b x0 x1 x2 : pmulx m A B ZERO C0 C1 C2 = Some (D0, D1, D2) -> rep A a -> rep B b -> rep ZERO 0 -> rep C0 x0 -> rep C1 x1 -> rep C2 x2 ->
  rep D0 (- (b * x2)) /\ rep D1 (x0 - a * x2) /\ rep D2 x1.
Proof. intros H RA RB RZ R0 R1 R2. unfold pmulx in H. repeat step1. finish. Qed.
Lemma coefs_ok A B ONE U0 U1 V0 V1 V2 H0 H1 H2 K0 K1 K2 K3 K4 a b u0 u1 v0 v1 v2 h0 h1 h2 :
  coefs m A B ONE U0 U1 V0 V1 V2 H0 H1 H2 = Some (K0, K1, K2, K3, K4) -> rep A a -> rep B b -> rep ONE 1 -> rep U0 u0 -> rep U1 u1 -> rep V0 v0 -> rep V1 v1 -> rep V2 v2 -> rep H0 h0 -> rep H1 h1 -> rep H2 h2 ->
  rep K0 (u0 * b + v0 * h0 - 1) /\ rep K1 (u0 * a + u1 * b + v0 * h1 + v1 * h0) /\ rep K2 (u1 * a + v0 * h2 + v1 * h1 + v2 * h0) /\ rep K3 (u0 + v1 * h2 + v2 * h1) /\ rep K4 (u1 + v2 * h2).
Proof. intros H. intros. unfold coefs in H. repeat step1. finish. Qed.

(** *** polynomials *)
Variables a b : Z.
Notation p := (V (m_p m)).
Lemma ppow_ok A B ZERO ONE : rep A a -> rep B b -> rep ZERO 0 -> rep ONE 1 -> forall e C0 C1 C2, ppow m A B ZERO ONE e = Some (C0, C1, C2) ->
  exists x0 x1 x2, rep C0 x0 /\ rep C1 x1 /\ rep C2 x2 /\ forall t, (p | t * t * t + a * t + b) -> (p | x0 + x1 * t + x2 * (t * t) - t ^ Zpos e).
Proof.
  intros RA RB RZ RO.
  assert (SQ : forall C0 C1 C2 D0 D1 D2 x0 x1 x2 e, rep C0 x0 -> rep C1 x1 -> rep C2 x2 -> (forall t, (p | t * t * t + a * t + b) -> (p | x0 + x1 * t + x2 * (t * t) - t ^ Zpos e)) ->
    psqr m A B C0 C1 C2 = Some (D0, D1, D2) -> exists y0 y1 y2, rep D0 y0 /\ rep D1 y1 /\ rep D2 y2 /\ forall t, (p | t * t * t + a * t + b) -> (p | y0 + y1 * t + y2 * (t * t) - t ^ Zpos e~0)).
  { intros C0 C1 C2 D0 D1 D2 x0 x1 x2 e R0 R1 R2 HT H. destruct (psqr_ok _ _ _ _ _ _ _ _ _ _ _ _ _ H RA RB R0 R1 R2) as (S0 & S1 & S2). do 3 eexists. split; [exact S0|]. split; [exact S1|]. split; [exact S2|].
    intros t Ht. destruct (HT t Ht) as [k K]. destruct Ht as [j J]. assert (EX : t ^ Z.pos e~0 = t ^ Z.pos e * t ^ Z.pos e) by (replace (Z.pos e~0) with (Z.pos e + Z.pos e) by lia; rewrite Z.pow_add_r by lia; reflexivity). rewrite EX.
    set (T := t ^ Z.pos e) in *. exists (k * (x0 + x1 * t + x2 * (t * t) + T) - j * (x2 * x2 * t + 2 * x1 * x2)).
    transitivity ((x0 + x1 * t + x2 * (t * t) + T) * (k * p) - (x2 * x2 * t + 2 * x1 * x2) * (j * p)); [rewrite <- K, <- J; ring|ring]. }
  induction e as [e IH|e IH|]; intros C0 C1 C2 H; cbn [ppow] in H.
  - destruct (ppow m A B ZERO ONE e) as [[[P0 P1] P2]|]; [|discriminate]. destruct (IH P0 P1 P2 eq_refl) as (x0 & x1 & x2 & R0 & R1 & R2 & HT). destruct (psqr m A B P0 P1 P2) as [[[Q0 Q1] Q2]|] eqn:E; [|discriminate].
    destruct (SQ _ _ _ _ _ _ _ _ _ e R0 R1 R2 HT E) as (y0 & y1 & y2 & S0 & S1 & S2 & HS). destruct (pmulx_ok _ _ _ _ _ _ _ _ _ _ _ _ _ _ H RA RB RZ S0 S1 S2) as (T0 & T1 & T2). do 3 eexists. split; [exact T0|]. split; [exact T1|]. split; [exact T2|].
    intros t Ht. destruct (HS t Ht) as [k K]. destruct Ht as [j J]. assert (EX : t ^ Z.pos e~1 = t ^ Z.pos e~0 * t) by (replace (Z.pos e~1) with (Z.pos e~0 + 1) by lia; rewrite Z.pow_add_r, Z.pow_1_r by lia; reflexivity). rewrite EX. exists (t * k - y2 * j).
    transitivity (t * (k * p) - y2 * (j * p)); [rewrite <- K, <- J; ring|ring].
  - destruct (ppow m A B ZERO ONE e) as [[[P0 P1] P2]|]; [|discriminate]. destruct (IH P0 P1 P2 eq_refl) as (x0 & x1 & x2 & R0 & R1 & R2 & HT). apply (SQ _ _ _ _ _ _ _ _ _ e R0 R1 R2 HT H).
  - injection H as <- <- <-. exists 0, 1, 0. split; [exact RZ|]. split; [exact RO|]. split; [exact RZ|]. intros t _. exists 0. rewrite Z.pow_1_r. ring.
Qed.
Lemma root_free_ok uv : prime p -> check_root_free m a b p uv = true -> forall t, ~ (p | t * t * t + a * t + b).
Proof.
  intros PP H t Ht. unfold check_root_free in H. pose proof (rep_inject m MO a) as RA. pose proof (rep_inject m MO b) as RB. pose proof (rep_inject m MO 1) as RO. pose proof (rep_inject m MO 0) as RZ.
  destruct uv as [|U0 [|U1 [|V0 [|V1 [|V2 [|? ?]]]]]]; try discriminate. destruct (ppow m (inject m a) (inject m b) (inject m 0) (inject m 1) (Z.to_pos p)) as [[[H0 G1] H2]|] eqn:EP; [|discriminate].
  pose proof (prime_ge_2 _ PP) as P2. destruct (ppow_ok _ _ _ _ RA RB RZ RO _ _ _ _ EP) as (h0 & g1 & h2 & R0 & R1 & R2 & HT). specialize (HT t Ht). rewrite Z2Pos.id in HT by lia.
  apply andb_prop in H. destruct H as [HU H]. cbn [forallb] in HU. repeat match goal with K : (_ && _) = true |- _ => let x := fresh "U" in let y := fresh "U" in apply andb_prop in K; destruct K as [x y] end.
  repeat match goal with L : (length ?u =? _)%nat = true, W : below _ ?u = true |- _ => apply Nat.eqb_eq in L; apply below_ok in W; let z := fresh "z" in let r := fresh "RU" in destruct (rep_any m MO u L W) as (z & r); clear L W end.
  destruct (subm m G1 (inject m 1)) as [H1|] eqn:ES; [|discriminate]. pose proof (rep_sub m MO _ _ _ _ _ ES R1 RO) as RH1.
  destruct (coefs m _ _ _ _ _ _ _ _ _ _ _) as [[[[[K0 K1] K2] K3] K4]|] eqn:EC; [|discriminate].
  repeat match goal with K : (_ && _) = true |- _ => let x := fresh "U" in let y := fresh "U" in apply andb_prop in K; destruct K as [x y] end.
  destruct (coefs_ok _ _ _ _ _ _ _ _ _ _ _ _ _ _ _ _ _ _ _ _ _ _ _ _ _ _ EC ltac:(eassumption) ltac:(eassumption) ltac:(eassumption) ltac:(eassumption) ltac:(eassumption) ltac:(eassumption) ltac:(eassumption) ltac:(eassumption) ltac:(eassumption) ltac:(eassumption) ltac:(eassumption)) as (S0 & S1 & S2 & S3 & S4).
  unfold is_zero in *. repeat match goal with K : (V ?k mod _ =? 0) = true |- _ => apply Z.eqb_eq in K end.
  apply (rep_zero m MO) in S0; [|assumption]. apply (rep_zero m MO) in S1; [|assumption]. apply (rep_zero m MO) in S2; [|assumption]. apply (rep_zero m MO) in S3; [|assumption]. apply (rep_zero m MO) in S4; [|assumption].
  assert (FT : (p | t ^ p - t)).
  { destruct (mod_parts m MO) as (_ & _ & _ & _ & _ & OD & _). destruct (Zdivide_dec p t) as [D|D].
    - apply Z.divide_sub_r; [|exact D]. apply Z.divide_trans with t; [exact D|]. exists (t ^ (p - 1)). replace p with (Z.succ (p - 1)) at 1 by lia. rewrite Z.pow_succ_r by lia. ring.
    - pose proof (fermat p PP OD t D) as F. exists (t * (t ^ (p - 1) / p)). pose proof (Z.div_mod (t ^ (p - 1)) p ltac:(lia)) as E. rewrite F in E. replace (t ^ p) with (t * t ^ (p - 1)); [rewrite E at 1; ring|]. replace p with (Z.succ (p - 1)) at 2 by lia. rewrite Z.pow_succ_r by lia. reflexivity. }
  clear - S0 S1 S2 S3 S4 FT HT Ht P2.
  match type of S4 with (_ | ?u1 + ?v2 * _) => match type of S3 with (_ | ?u0 + ?v1 * _ + _) => match type of S0 with (_ | _ + ?v0 * _ - 1) =>
    destruct S0 as [q0 S0]; destruct S1 as [q1 S1]; destruct S2 as [q2 S2]; destruct S3 as [q3 S3]; destruct S4 as [q4 S4]; destruct FT as [w FT]; destruct HT as [y HT]; destruct Ht as [j J];
    assert (E : 1 = p * ((u0 + u1 * t) * j + (v0 + v1 * t + v2 * (t * t)) * (y + w) - q0 - q1 * t - q2 * (t * t) - q3 * (t * t * t) - q4 * (t * t * t * t))) end end end.
  - match goal with |- 1 = p * ((?u) * j + ?v * (y + w) - _ - _ - _ - _ - _) => transitivity (u * (j * p) + v * (y * p + w * p) - q0 * p - q1 * p * t - q2 * p * (t * t) - q3 * p * (t * t * t) - q4 * p * (t * t * t * t)); [|ring] end.
    rewrite <- S0, <- S1, <- S2, <- S3, <- S4, <- J, <- FT, <- HT. ring.
  - match type of E with 1 = p * ?k => assert (D : (p | 1)) by (exists k; lia) end. apply Z.divide_1_r in D. lia.
Qed.
End STEPS.

(** *** the ladder, modulo a prime divisor of the modulus *)
Section PHI.
Variable r : Z.
Hypothesis Pr : prime r.
Notation F := (Zp r Pr).
Add Field Fphi : (f_theory F).
Definition phi (z : Z) : F := zmk r Pr z.
Lemma phi_add x y : (phi (x + y) : F) = (phi x + phi y)%f.
Proof. apply zmk_eq. unfold phi. rewrite !zval_mk. pose proof (prime_ge_2 _ Pr). apply Z.add_mod. lia. Qed.
Lemma phi_mul x y : (phi (x * y) : F) = (phi x * phi y)%f.
Proof. apply zmk_eq. unfold phi. rewrite !zval_mk. pose proof (prime_ge_2 _ Pr). apply Z.mul_mod. lia. Qed.
Lemma phi_sub x y : (phi (x - y) : F) = (phi x - phi y)%f.
Proof. apply zmk_eq. unfold phi. rewrite !zval_mk. apply Zminus_mod. Qed.
Lemma phi_opp x : (phi (- x) : F) = (- phi x)%f.
Proof. rewrite <- Z.sub_0_l. rewrite phi_sub. change (phi 0) with (0%f : F). ring. Qed.
Lemma phi_0 : phi 0 = (0%f : F). Proof. reflexivity. Qed.
Lemma phi_1 : phi 1 = (1%f : F). Proof. reflexivity. Qed.
Lemma phi_2 : phi 2 = (1 + 1 : F)%f. Proof. change 2 with (1 + 1). rewrite phi_add. reflexivity. Qed.
Lemma phi_3 : phi 3 = (1 + (1 + 1) : F)%f. Proof. change 3 with (1 + (1 + 1)). rewrite !phi_add. reflexivity. Qed.
Lemma phi_4 : phi 4 = (2 * 2 : F)%f. Proof. change 4 with (2 * 2). rewrite phi_mul, phi_2. reflexivity. Qed.
Lemma phi_8 : phi 8 = (2 * 2 * 2 : F)%f. Proof. change 8 with (2 * 2 * 2). rewrite !phi_mul, phi_2. reflexivity. Qed.
Lemma phi_divides x : phi x = (0%f : F) <-> (r | x).
Proof.
  pose proof (prime_ge_2 _ Pr) as R2. split.
  - intros H. apply (f_equal (@zval r)) in H. unfold phi in H. rewrite zval_mk in H. change (zval (0%f : F)) with (0 mod r) in H. rewrite Z.mod_0_l in H by lia. apply Z.mod_divide; [lia|exact H].
  - intros H. apply zmk_eq. apply Z.mod_divide in H; [|lia]. rewrite H. symmetry. apply Z.mod_0_l. lia.
Qed.
Lemma zero_mul (x : F) : (0 * x)%f = (0%f : F). Proof. ring. Qed.
End PHI.

Section LADDER.
Variable m : modulus.
Hypothesis MO : mod_ok m = true.
Notation p := (V (m_p m)).
Notation rep := (rep m).
Variable r : Z.
Hypothesis Pr : prime r.
Hypothesis Dr : (r | p).
Notation F := (Zp r Pr).
Add Field Fr : (f_theory F).
Notation phi := (phi r Pr).
Lemma phi_unit x : rel_prime x p -> phi x <> (0%f : F).
Proof. intros [_ _ U] H. apply phi_divides in H. specialize (U r H Dr). apply Z.divide_1_r in U. pose proof (prime_ge_2 _ Pr). lia. Qed.
Ltac phis := repeat (rewrite phi_add || rewrite phi_sub || rewrite phi_mul || rewrite phi_opp); rewrite ?phi_8, ?phi_4, ?phi_3, ?phi_2, ?phi_1, ?phi_0.

Variables a b gx gy : Z.
Hypothesis two_ne : (1 + 1)%f <> (0%f : F).
Hypothesis Hdisc : disc (phi a : F) (phi b) <> 0%f.
Notation C := (on_curve (phi a : F) (phi b)).
Notation G := (Aff (phi gx) (phi gy) : point F).
Hypothesis HG : C G.
Notation mulp := (zmul (phi a : F)).
(** the three numbers are the Jacobian coordinates of k G wherever the third is not zero *)
Definition at_k (k : Z) (P : num * num * num) : Prop := let '(X, Y, ZC) := P in
  exists x y z, rep X x /\ rep Y y /\ rep ZC z /\ ((phi z : F) <> 0%f -> exists u v : F, mulp k G = Aff u v /\ phi x = (u * (phi z * phi z))%f /\ phi y = (v * (phi z * phi z * phi z))%f).
Lemma mul_parts (x y : F) : (x * y)%f <> 0%f -> x <> 0%f /\ y <> 0%f.
Proof. intros H. split; intros ->; apply H; ring. Qed.
Lemma jdbl_at A X Y ZC k Q : rep A a -> at_k k (X, Y, ZC) -> jdbl m A X Y ZC = Some Q -> at_k (2 * k) Q.
Proof.
  intros RA (x & y & z & RX & RY & RZ & HK) H. destruct Q as [[X' Y'] Z']. destruct (jdbl_ok m MO _ _ _ _ _ _ _ _ _ _ _ H RA RX RY RZ) as (SX & SY & SZ). cbv zeta in SX, SY. unfold at_k. do 3 eexists. split; [exact SX|]. split; [exact SY|]. split; [exact SZ|].
  intros NZ. rewrite !phi_mul, phi_2 in NZ. apply mul_parts in NZ. destruct NZ as [N1 Nz]. apply mul_parts in N1. destruct N1 as [_ Ny]. destruct (HK Nz) as (u & v & E & Ex & Ey).
  assert (Nv : v <> 0%f) by (intros ->; apply Ny; rewrite Ey; ring). rewrite (zmul_dbl F (phi a) (phi b)) by assumption. rewrite E, (padd_tangent F (phi a) two_ne) by exact Nv. unfold third. do 2 eexists. split; [reflexivity|].
  pose proof (mul_ne F _ _ two_ne Nv) as N2. phis. rewrite Ex, Ey. split; field; repeat split; assumption.
Qed.
Lemma jadd_at GX GY s X Y ZC k Q : rep GX gx -> rep GY (s * gy) -> s = 1 \/ s = -1 -> at_k k (X, Y, ZC) -> jadd m GX GY X Y ZC = Some Q -> at_k (k + s) Q.
Proof.
  intros RGX RGY Hs (x & y & z & RX & RY & RZ & HK) H. destruct Q as [[X' Y'] Z']. destruct (jadd_ok m MO _ _ _ _ _ _ _ _ _ _ _ _ _ H RGX RGY RX RY RZ) as (SX & SY & SZ). cbv zeta in SX, SY, SZ. unfold at_k. do 3 eexists. split; [exact SX|]. split; [exact SY|]. split; [exact SZ|].
  intros NZ. rewrite phi_mul in NZ. apply mul_parts in NZ. destruct NZ as [Nz Nh]. destruct (HK Nz) as (u & v & E & Ex & Ey). rewrite phi_sub, !phi_mul, Ex in Nh.
  assert (Ng : u <> phi gx) by (intros ->; apply Nh; ring). assert (ES : mulp s G = Aff (phi gx) (phi (s * gy))).
  { destruct Hs as [->| ->]; [rewrite zmul_1, Z.mul_1_l; reflexivity|]. rewrite (zmul_opp F (phi a) (phi b) 1) by assumption. rewrite zmul_1. cbn [popp]. f_equal. replace (-1 * gy) with (- gy) by ring. symmetry. apply phi_opp. }
  rewrite (zmul_add F (phi a) (phi b)) by assumption. rewrite E, ES, (padd_chord F (phi a)) by exact Ng. unfold third. do 2 eexists. split; [reflexivity|]. set (g := phi (s * gy)).
  assert (Nd : (phi gx - u)%f <> (0%f : F)) by (apply sub_ne; congruence).
  subst g. phis. rewrite Ex, Ey. split; field; exact Nd.
Qed.
Lemma ladder_at A GX GY GN : rep A a -> rep GX gx -> rep GY gy -> rep GN (- gy) -> forall ds k P Q, at_k k P -> ladder m A GX GY GN ds P = Some Q -> at_k (fold_left (fun k d => 2 * k + sgn d) ds k) Q.
Proof.
  intros RA RX RY RN. induction ds as [|d ds IH]; intros k P Q HP H; cbn [ladder fold_left] in *; [injection H as <-; exact HP|].
  destruct P as [[X Y] ZC]. destruct (jdbl m A X Y ZC) as [[[X1 Y1] Z1]|] eqn:E; [|discriminate]. pose proof (jdbl_at _ _ _ _ _ _ RA HP E) as HD. unfold sgn at 2.
  destruct (d =? 0). { apply (IH (2 * k + 0) (X1, Y1, Z1)); [|exact H]. rewrite Z.add_0_r. exact HD. }
  destruct (d =? 1).
  - destruct (jadd m GX GY X1 Y1 Z1) as [R|] eqn:E1; [|discriminate]. apply (IH (2 * k + 1) R); [|exact H]. apply (jadd_at GX GY 1 X1 Y1 Z1); auto. rewrite Z.mul_1_l. exact RY.
  - destruct (jadd m GX GN X1 Y1 Z1) as [R|] eqn:E1; [|discriminate]. apply (IH (2 * k + -1) R); [|exact H]. apply (jadd_at GX GN (-1) X1 Y1 Z1); auto.
Qed.
Lemma check_ladder_ok n ds zw : check_ladder m a gx gy n ds zw = true -> mulp n G = Inf.
Proof.
  intros H. unfold check_ladder in H. apply andb_prop in H. destruct H as [HV H]. apply Z.eqb_eq in HV.
  pose proof (rep_inject m MO a) as RA. pose proof (rep_inject m MO gx) as RX. pose proof (rep_inject m MO gy) as RY. pose proof (rep_inject m MO (- gy)) as RN. pose proof (rep_inject m MO 1) as RO.
  destruct (ladder m _ _ _ _ _ _) as [[[X Y] ZC]|] eqn:E; [|discriminate].
  assert (A1 : at_k 1 (inject m gx, inject m gy, inject m 1)).
  { do 3 eexists. split; [exact RX|]. split; [exact RY|]. split; [exact RO|]. intros _. exists (phi gx), (phi gy). rewrite zmul_1. split; [reflexivity|]. rewrite phi_1. split; ring. }
  pose proof (ladder_at _ _ _ _ RA RX RY RN _ _ _ _ A1 E) as HL. fold (digits_value ds) in HL. rewrite HV in HL. destruct HL as (x & y & z & SX & SY & SZ & HK).
  apply andb_prop in H. destruct H as [HZ H]. apply Z.eqb_eq in HZ. pose proof (phi_unit _ (rep_unit m MO _ _ _ SZ HZ)) as Nz. destruct (HK Nz) as (u & v & EK & Ex & Ey).
  destruct (mulm m ZC ZC) as [ZZ|] eqn:E1; [|discriminate]. pose proof (rep_mul m MO _ _ _ _ _ E1 SZ SZ) as S1.
  destruct (mulm m (inject m gx) ZZ) as [U|] eqn:E2; [|discriminate]. pose proof (rep_mul m MO _ _ _ _ _ E2 RX S1) as S2.
  destruct (subm m X U) as [d|] eqn:E3; [|discriminate]. pose proof (rep_sub m MO _ _ _ _ _ E3 SX S2) as S3.
  destruct (mulm m ZC ZZ) as [W|] eqn:E4; [|discriminate]. pose proof (rep_mul m MO _ _ _ _ _ E4 SZ S1) as S4.
  destruct (mulm m (inject m (- gy)) W) as [U2|] eqn:E5; [|discriminate]. pose proof (rep_mul m MO _ _ _ _ _ E5 RN S4) as S5.
  destruct (subm m Y U2) as [e|] eqn:E6; [|discriminate]. pose proof (rep_sub m MO _ _ _ _ _ E6 SY S5) as S6.
  apply andb_prop in H. destruct H as [H1 H2]. unfold is_zero in H1, H2. apply Z.eqb_eq in H1, H2. apply (rep_zero m MO _ _ S3) in H1. apply (rep_zero m MO _ _ S6) in H2.
  assert (Q1 : phi (x - gx * (z * z)) = (0%f : F)) by (apply phi_divides; apply Z.divide_trans with p; assumption).
  assert (Q2 : phi (y - - gy * (z * (z * z))) = (0%f : F)) by (apply phi_divides; apply Z.divide_trans with p; assumption).
  rewrite phi_sub, !phi_mul, Ex in Q1. rewrite phi_sub, !phi_mul, phi_opp, Ey in Q2.
  assert (u = phi gx). { apply sub_0. destruct (mul_integral F (u - phi gx)%f (phi z * phi z)%f) as [K|K]; [rewrite <- Q1; ring|exact K|]. exfalso. exact (mul_ne F _ _ Nz Nz K). }
  assert (v = (- phi gy)%f). { apply sub_0. destruct (mul_integral F (v - - phi gy)%f (phi z * (phi z * phi z))%f) as [K|K]; [rewrite <- Q2; ring|exact K|]. exfalso. exact (mul_ne F _ _ Nz (mul_ne F _ _ Nz Nz) K). }
  subst u v. replace n with (n - 1 + 1) by lia. rewrite (zmul_add F (phi a) (phi b)) by assumption. rewrite EK, zmul_1. 
  change (Aff (phi gx) (- phi gy)%f) with (popp G). rewrite (add_comm F (phi a) (phi b)); [apply add_opp_r|apply opp_curve; exact HG|exact HG].
Qed.
End LADDER.

Section ORDER.
Variables p a b gx gy n : Z.
Variable c : cert.
Hypothesis CK : check_order p a b gx gy n c = true.
Notation m := (curve_mod (ct_k c) p (ct_inv c)).
Lemma order_parts : mod_ok m = true /\ V (m_p m) = p /\ 4 * p < (n - 1) * (n - 1) /\ ((4 * a * a * a + 27 * b * b) * ct_dw c) mod p = 1 /\ (gy * gy - (gx * gx * gx + a * gx + b)) mod p = 0 /\ check_ladder m a gx gy n (ct_digits c) (ct_zw c) = true.
Proof.
  pose proof CK as H. unfold check_order in H. cbv zeta in H. apply andb_prop in H. destruct H as [H H6]. apply andb_prop in H. destruct H as [H H5]. apply andb_prop in H. destruct H as [H H4]. apply andb_prop in H. destruct H as [H H3]. apply andb_prop in H. destruct H as [H1 H2].
  apply Z.eqb_eq in H2, H4, H5. apply Z.ltb_lt in H3. auto 10.
Qed.
Lemma p_odd : 1 < p /\ Z.odd p = true.
Proof. destruct order_parts as (MO & EV & _). destruct (mod_parts m MO) as (_ & _ & _ & _ & K & K' & _). rewrite EV in K, K'. auto. Qed.
Section AT.
Variable r : Z.
Hypothesis Pr : prime r.
Hypothesis Dr : (r | p).
Notation F := (Zp r Pr).
Add Field Fo : (f_theory F).
Notation ph := (phi r Pr).
Notation G := (Aff (ph gx) (ph gy) : point F).
Lemma at_odd : Z.odd r = true.
Proof. destruct p_odd as [_ O]. destruct Dr as [k K]. rewrite K, Z.odd_mul in O. apply andb_prop in O. apply O. Qed.
Lemma at_two : (1 + 1)%f <> (0%f : F).
Proof.
  rewrite <- phi_2. intros H. apply phi_divides in H. pose proof (prime_ge_2 _ Pr) as R2. apply Z.divide_pos_le in H; [|lia]. assert (E : r = 2) by lia. pose proof at_odd as O. rewrite E in O. discriminate.
Qed.
Lemma at_disc : disc (ph a) (ph b) <> 0%f.
Proof.
  destruct order_parts as (_ & _ & _ & D & _). intros H.
  assert (E : ph (4 * a * a * a + 27 * b * b) = 0%f).
  { rewrite <- H. unfold disc. replace 27 with (3 * (3 * 3)) by reflexivity. repeat (rewrite phi_add || rewrite phi_mul). rewrite phi_4, phi_3. ring. }
  apply phi_divides in E. assert (K : (r | 1)).
  { replace 1 with ((4 * a * a * a + 27 * b * b) * ct_dw c - p * (((4 * a * a * a + 27 * b * b) * ct_dw c) / p)) by (pose proof p_odd; rewrite (Z.mod_eq _ p) in D by lia; exact D).
    apply Z.divide_sub_r; apply Z.divide_mul_l; assumption. }
  apply Z.divide_1_r in K. pose proof (prime_ge_2 _ Pr). lia.
Qed.
Lemma at_point : on_curve (ph a) (ph b) G.
Proof.
  destruct order_parts as (_ & _ & _ & _ & D & _). apply Z.mod_divide in D; [|pose proof p_odd; lia].
  assert (E : ph (gy * gy - (gx * gx * gx + a * gx + b)) = 0%f) by (apply phi_divides; apply Z.divide_trans with p; assumption).
  cbn [on_curve]. repeat (rewrite phi_sub in E || rewrite phi_add in E || rewrite phi_mul in E). apply sub_0. rewrite <- E. ring.
Qed.
Lemma at_killed : zmul (ph a) n G = Inf.
Proof.
  destruct order_parts as (MO & EV & _ & _ & _ & HL). apply (check_ladder_ok m MO r Pr) with (b := b) (ds := ct_digits c) (zw := ct_zw c); [rewrite EV; exact Dr|exact at_two|exact at_disc|exact at_point|exact HL].
Qed.
End AT.
(** a point killed by a large prime: the modulus is prime *)
Theorem check_order_prime : prime n -> prime p.
Proof.
  intros Pn. destruct p_odd as [P1 _]. apply prime_by_factors; [exact P1|]. intros r Pr Dr.
  pose proof (order_bound r Pr (phi r Pr a) (phi r Pr b) (at_two r Pr Dr) (at_disc r Pr Dr) n Pn (Aff (phi r Pr gx) (phi r Pr gy)) (at_point r Pr Dr) ltac:(discriminate) (at_killed r Pr Dr)) as B.
  destruct order_parts as (_ & _ & K & _). pose proof (prime_ge_2 _ Pn). pose proof (prime_ge_2 _ Pr). nia.
Qed.
End ORDER.
Theorem check_curve_ok p a b gx gy n c uv : check_curve p a b gx gy n c uv = true -> prime n ->
  prime p /\ forall Pp : prime p, let F := Zp p Pp in let A := zmk p Pp a : F in let B := zmk p Pp b : F in let G := Aff (zmk p Pp gx) (zmk p Pp gy) : point F in
    (1 + 1)%f <> (0%f : F) /\ disc A B <> 0%f /\ on_curve A B G /\ zmul A n G = Inf /\ (forall x : F, ~ on_curve A B (Aff x 0%f)) /\ forall X, on_curve A B X -> zmul A n X = Inf.
Proof.
  intros H Pn. unfold check_curve in H. apply andb_prop in H. destruct H as [H H3]. apply andb_prop in H. destruct H as [H1 H2]. apply Z.ltb_lt in H2.
  pose proof (check_order_prime p a b gx gy n c H1 Pn) as PP. split; [exact PP|]. intros Pp F A B G. pose proof (Z.divide_refl p) as DD.
  pose proof (at_two p a b gx gy n c H1 p Pp DD) as T2. pose proof (at_disc p a b gx gy n c H1 p Pp DD) as TD. pose proof (at_point p a b gx gy n c H1 p Pp DD) as TP. pose proof (at_killed p a b gx gy n c H1 p Pp DD) as TK.
  assert (NR : forall x : F, ~ on_curve A B (Aff x 0%f)).
  { intros x Hx. destruct (order_parts p a b gx gy n c H1) as (MO & EV & _). rewrite <- EV in H3 at 2. assert (PV : prime (V (m_p (curve_mod (ct_k c) p (ct_inv c))))) by (rewrite EV; exact PP). apply (root_free_ok (curve_mod (ct_k c) p (ct_inv c)) MO _ _ _ PV H3 (zval x)). rewrite EV.
    apply (phi_divides p Pp). cbn [on_curve] in Hx. rewrite !phi_add, !phi_mul. assert (EX : phi p Pp (zval x) = x) by apply zmk_val. rewrite EX. transitivity (0 * 0 : F)%f; [symmetry; exact Hx|]. apply (zero_mul p Pp). }
  split; [exact T2|]. split; [exact TD|]. split; [exact TP|]. split; [exact TK|]. split; [exact NR|].
  apply (order_all p Pp A B T2 TD n Pn G TP ltac:(discriminate) TK H2 NR).
Qed.
