(** ECDSA verification with a key that need not be a point of the curve: it always answers, and for every digest
    some key off the curve is accepted. *)
From Coq Require Import Field List ZArith Znumtheory Bool Lia.
From Verif Require Import Outcome UtilsModel UtilsSpec WordsModel WordsSpec BigintModel BigintSpec BigintProofs BigintClaims NumModel NumProofs FpModel FpSpec FpProofs FpClaims EcGroup EcGroupProofs ZpField EcModel EcSpec EcExact EcFeSpec EcTransfer EcScalar EcCurveModel EcClaims EcLaws EcCurveSpec EcCodec EcdsaModel EcdsaSpec EcdsaProofs EcSafe.
Import ListNotations.
Open Scope Z_scope.

Lemma naf_of_1 l : is_naf l 1 -> l = [1].
Proof.
  intros (V & D & N & L). destruct l as [|d t]; [discriminate|]. cbn [naf_value] in V. inversion D as [|? ? Hd Dt]; subst.
  destruct t as [|d' t]. { cbn in V. f_equal. lia. }
  cbn [non_adjacent] in N. destruct N as [N _]. assert (d' = 0) by lia. subst d'. cbn [naf_value] in V. assert (VT : naf_value t = 0) by lia. exfalso.
  destruct L as [L|L]; [discriminate|]. cbn [last] in L. inversion Dt as [|? ? _ Dt']; subst. clear V N Hd D Dt.
  destruct t as [|e t]; [discriminate|]. revert e VT L Dt'. induction t as [|e' t IH]; intros e VT L Dt'.
  - cbn in *. lia.
  - inversion Dt' as [|? ? He Dt'']; subst. cbn [naf_value] in VT. assert (e = 0) by lia. apply (IH e'); [cbn [naf_value]; lia|exact L|exact Dt''].
Qed.
Lemma rnaf_of_1 c x : valid c x -> value x = 1 -> room c (size x + 1) -> to_rnaf c x = Ok [1].
Proof.
  intros V E R. assert (N : neg x = false). { destruct (neg x) eqn:N; [|reflexivity]. pose proof (magnitude_range c x V). rewrite value_sgn, N in E. cbn [BigintProofs.sgn] in E. lia. }
  destruct (naf_claim c x V N R) as (l & _ & K & H). rewrite E in H. apply naf_of_1 in H. subst l. exact K.
Qed.

(** *** the chord construction over a field *)
Section CHORD.
Variable F : fieldT.
Add Field FldCh : (f_theory F).
Variable E : coeffs (exact_ops F).
Notation X := (exact_ops F).
Notation aa := (cv_a _ E : F).
Local Open Scope f_scope.
Ltac ev := cbn [bind o_add o_sub o_mul o_sqr o_neg o_addk o_mulk o_muli o_is_zero o_is_one o_eq0 o_eqb o_lit o_div o_inv exact_ops fz fpos EcModel.T].
(** addition of objects with different abscissas, on the curve or not *)
Lemma addex_chord P (x y z x' y' z' u1 u2 s1 s2 k : F) : x <> x' ->
  z <> 0 -> z' <> 0 -> k = z * z' -> u1 = x * (k * k) -> u2 = x' * (k * k) -> s1 = y * (k * k * k) -> s2 = y' * (k * k * k) ->
  exists R, jac_addex X E P z z' u1 u2 s1 s2 = Ok R /\ abs_jac R = padd aa (Aff x y) (Aff x' y').
Proof.
  intros Nx Nz Nz' Ek -> -> -> ->. assert (Nk : k <> 0) by (rewrite Ek; apply mul_ne; assumption).
  assert (Nkk : k * k <> 0) by (apply mul_ne; assumption). assert (Nkkk : k * k * k <> 0) by (apply mul_ne; assumption).
  unfold jac_addex. ev. rewrite (fb_ext F (_ - _) 0 ((x' - x) * (k * k)) 0) by ring. rewrite !(fb_scale0 F) by assumption.
  destruct (fb (x' - x) 0) eqn:Ex.
  - exfalso. apply (fb_true F) in Ex. apply Nx. symmetry. apply (sub_0 F). exact Ex.
  - apply (fb_false F) in Ex. rewrite padd_chord by exact Nx. unfold third.
    assert (D : x' * (k * k) - x * (k * k) <> 0) by (replace (x' * (k * k) - x * (k * k)) with ((x' - x) * (k * k)) by ring; apply mul_ne; assumption).
    rewrite (z3_eq F). eexists. split; [reflexivity|].
    replace ((x' * (k * k) - x * (k * k)) * z * z') with ((x' * (k * k) - x * (k * k)) * k) by (rewrite Ek; ring).
    apply (abs_jac_some F); [apply mul_ne; assumption| |]; field; assumption.
Qed.
Lemma chord_comm (x y x' y' : F) : x <> x' -> padd aa (Aff x y) (Aff x' y') = padd aa (Aff x' y') (Aff x y).
Proof.
  intros N. rewrite !padd_chord by congruence. assert (D : x' - x <> 0) by (intros K; apply N; symmetry; apply (sub_0 F), K). assert (D' : x - x' <> 0) by (intros K; apply N; apply (sub_0 F), K).
  unfold third. f_equal; field; auto.
Qed.
Lemma chord_opp (x y x' y' : F) : x <> x' -> popp (padd aa (Aff x (- y)) (Aff x' (- y'))) = padd aa (Aff x y) (Aff x' y').
Proof.
  intros N. rewrite !padd_chord by congruence. assert (D : x' - x <> 0) by (intros K; apply N; symmetry; apply (sub_0 F), K). unfold third. cbn [popp]. f_equal; field; auto.
Qed.
Lemma jac_add_chord P Q (x y x' y' : F) : abs_jac P = Aff x y -> abs_jac Q = Aff x' y' -> x <> x' -> exists R, jac_add X E P Q = Ok R /\ abs_jac R = padd aa (Aff x y) (Aff x' y').
Proof.
  intros AP AQ N. unfold jac_add. rewrite !(id3_jac F), AP, AQ.
  destruct (jac_inv F _ _ _ AP) as (z & Nz & EP). destruct (jac_inv F _ _ _ AQ) as (z' & Nz' & EQ). rewrite EP, EQ in *. clear P Q EP EQ. cbn [snd]. ev.
  destruct (fb z 1) eqn:E1; destruct (fb z' 1) eqn:E1'; cbn [andb]; try (apply (fb_true F) in E1; subst z); try (apply (fb_true F) in E1'; subst z').
  - unfold jac_add_z_1. apply (addex_chord _ _ _ _ _ _ _ _ _ _ _ 1); auto; ring.
  - unfold jac_add_z2_1. ev. rewrite chord_comm by assumption. apply (addex_chord _ _ _ _ _ _ _ _ _ _ _ z'); auto; try ring; congruence.
  - unfold jac_add_z2_1. ev. apply (addex_chord _ _ _ _ _ _ _ _ _ _ _ z); auto; ring.
  - unfold jac_add_ne. ev. apply (addex_chord _ _ _ _ _ _ _ _ _ _ _ (z * z')); auto; ring.
Qed.
End CHORD.

Section FORGE.
Variable F : fieldT.
Add Field FldFo : (f_theory F).
Local Open Scope f_scope.
Lemma square_roots (u v : F) : u * u = v * v -> u = v \/ u = - v.
Proof.
  intros H. destruct (feq_dec u v) as [K|K]; [left; exact K|right]. destruct (feq_dec (u + v) 0) as [L|L].
  - replace u with ((u + v) - v) by ring. rewrite L. ring.
  - exfalso. apply (mul_ne F (u - v) (u + v)); [intros M; apply K, (sub_0 F), M|exact L|]. replace ((u - v) * (u + v)) with (u * u - v * v) by ring. rewrite H. ring.
Qed.
(** a quadratic equation has at most two solutions *)
Lemma at_most_two (al be ga x y z : F) : al <> 0 -> (al * x + be) * (al * x + be) = ga -> (al * y + be) * (al * y + be) = ga -> (al * z + be) * (al * z + be) = ga ->
  x = y \/ x = z \/ y = z.
Proof.
  intros Na Hx Hy Hz. assert (I : forall u v, al * u + be = al * v + be -> u = v).
  { intros u v H. apply (mul_cancel F _ _ al Na). replace (u * al) with (al * u + be - be) by ring. rewrite H. ring. }
  destruct (square_roots (al * x + be) (al * y + be)) as [K|K]; [congruence|left; apply I, K|].
  destruct (square_roots (al * x + be) (al * z + be)) as [L|L]; [congruence|right; left; apply I, L|].
  right. right. apply I. replace (al * y + be) with (- - (al * y + be)) by ring. rewrite <- K, L. ring.
Qed.
Lemma few (B : F -> bool) l : NoDup l -> (forall x y z, B x = true -> B y = true -> B z = true -> x = y \/ x = z \/ y = z) -> (length l <= 2 + length (filter (fun x => negb (B x)) l))%nat.
Proof.
  intros ND T. assert (S : (length (filter B l) + length (filter (fun x => negb (B x)) l) = length l)%nat).
  { clear. induction l as [|x l IH]; [reflexivity|]. cbn [filter]. destruct (B x); cbn [negb length]; Lia.lia. }
  assert (K : (length (filter B l) <= 2)%nat); [|Lia.lia].
  assert (NF : NoDup (filter B l)) by (apply NoDup_filter; exact ND). assert (AF : forall x, In x (filter B l) -> B x = true) by (intros x H; apply filter_In in H; apply H).
  destruct (filter B l) as [|x [|y [|z m]]]; cbn [length]; try Lia.lia. exfalso.
  destruct (T x y z) as [H|[H|H]]; try (apply AF; cbn [In]; auto).
  - subst. inversion NF as [|? ? NI _]. apply NI. left. reflexivity.
  - subst. inversion NF as [|? ? NI _]. apply NI. right. left. reflexivity.
  - subst. inversion NF as [|? ? _ NF']. inversion NF' as [|? ? NI _]. apply NI. left. reflexivity.
Qed.
(** a pair off the curve whose sum with G has a chosen abscissa *)
Lemma off_curve_sum (a b xg yg e : F) (l : list F) : NoDup l -> (7 <= length l)%nat -> on_curve a b (Aff xg yg) -> e <> xg ->
  exists x y y3, xg <> x /\ x <> 0 /\ ~ on_curve a b (Aff x y) /\ padd a (Aff xg yg) (Aff x y) = Aff e y3.
Proof.
  intros ND L7 HG Ne.
  pose (B1 := fun t : F => fb (t * t) (xg + xg + e)). pose (B2 := fun t : F => fb (t * t) (xg + e)).
  pose (B3 := fun t : F => fb (((e - xg) * t + yg) * ((e - xg) * t + yg)) (e * e * e + a * e + b)).
  assert (N1 : (1 : F) <> 0) by apply (one_ne F).
  assert (Q : forall ga x y z : F, x * x = ga -> y * y = ga -> z * z = ga -> x = y \/ x = z \/ y = z).
  { intros ga x y z Hx Hy Hz. apply (at_most_two 1 0 ga); [exact N1| | |]; [rewrite <- Hx|rewrite <- Hy|rewrite <- Hz]; ring. }
  assert (De : e - xg <> 0) by (intros K; apply Ne, (sub_0 F), K).
  pose proof (few B1 l ND) as W1. specialize (W1 ltac:(unfold B1; intros x y z; rewrite !(fb_true F); apply Q)).
  pose proof (NoDup_filter (fun x => negb (B1 x)) ND) as ND1. remember (filter (fun x => negb (B1 x)) l) as l1 eqn:E1.
  pose proof (few B2 l1 ND1) as W2. specialize (W2 ltac:(unfold B2; intros x y z; rewrite !(fb_true F); apply Q)).
  pose proof (NoDup_filter (fun x => negb (B2 x)) ND1) as ND2. remember (filter (fun x => negb (B2 x)) l1) as l2 eqn:E2.
  pose proof (few B3 l2 ND2) as W3. specialize (W3 ltac:(unfold B3; intros x y z; rewrite !(fb_true F); apply (at_most_two (e - xg) yg); exact De)).
  destruct (filter (fun x => negb (B3 x)) l2) as [|t l3] eqn:E3; [cbn [length] in W3; Lia.lia|].
  assert (T3 : In t (filter (fun x => negb (B3 x)) l2)) by (rewrite E3; left; reflexivity). apply filter_In in T3. destruct T3 as (T2 & T3).
  rewrite E2 in T2. apply filter_In in T2. destruct T2 as (T1 & T2). rewrite E1 in T1. apply filter_In in T1. destruct T1 as (_ & T1).
  apply negb_true_iff in T1, T2, T3. unfold B1 in T1. unfold B2 in T2. unfold B3 in T3. apply (fb_false F) in T1, T2, T3. clear - T1 T2 T3 HG Ne De.
  assert (Nx : xg <> t * t - xg - e). { intros K. apply T1. replace (xg + xg + e) with (xg + (xg + e)) by ring. rewrite K at 1. ring. }
  assert (Dx : t * t - xg - e - xg <> 0) by (intros K; apply Nx; symmetry; apply (sub_0 F), K).
  exists (t * t - xg - e), (yg + t * (t * t - xg - e - xg)). eexists. split; [exact Nx|]. split; [|split].
  - intros K. apply T2. replace (t * t) with (t * t - xg - e + (xg + e)) by ring. rewrite K. ring.
  - cbn [on_curve] in HG |- *. intros K. apply T3. clear T1 T2 T3.
    assert (Z0 : (t * t - xg - e - xg) * (((e - xg) * t + yg) * ((e - xg) * t + yg) - (e * e * e + a * e + b)) = 0).
    { transitivity ((e - xg) * ((yg + t * (t * t - xg - e - xg)) * (yg + t * (t * t - xg - e - xg)) - ((t * t - xg - e) * (t * t - xg - e) * (t * t - xg - e) + a * (t * t - xg - e) + b))
        + (t * t - xg - e - xg - (e - xg)) * (yg * yg - (xg * xg * xg + a * xg + b))); [ring|]. rewrite K, HG. ring. }
    destruct (feq_dec (((e - xg) * t + yg) * ((e - xg) * t + yg) - (e * e * e + a * e + b)) 0) as [M|M]; [apply (sub_0 F), M|]. exfalso. exact (mul_ne F _ _ Dx M Z0).
  - rewrite padd_chord by exact Nx. unfold third.
    replace ((yg + t * (t * t - xg - e - xg) - yg) / (t * t - xg - e - xg)) with t by (field; exact Dx). f_equal. ring.
Qed.
End FORGE.

Section ANY.
Variable c : cap.
Variable C : curve.
Variable Pp : prime (value (cu_p C)).
Hypothesis EC : ecdsa_curve c C Pp.
Notation p := (cu_p C). Notation n := (cu_n C). Notation N := (value (cu_n C)). Notation P := (value (cu_p C)).
Notation O := (fe_ops c p). Notation F := (GFp p Pp).
Notation E := (cu_coeffs c C).
Let CO := eCO c C Pp EC.
Let Hn := eHn c C Pp EC.

Lemma combine_any u1 u2 q : reduced c n u1 -> reduced c n u2 -> good2 c p q ->
  exists R R', jac_mul_add O E c u1 (of_affine O (cu_g C)) u2 (of_affine O q) = Ok R /\ good3 c p R /\ jac_to_affine O R = Ok R' /\ good2 c p R' /\ raw_pt p Pp R' = jac_pt p Pp R.
Proof.
  intros H1 H2 Gq. destruct (jac_of_affine_claim c p Pp _ _ CO (cu_g C) (eGg c C Pp EC)) as (G1 & _). destruct (jac_of_affine_claim c p Pp _ _ CO q Gq) as (G2 & _).
  destruct CO as (Mp & P3 & Ra & Rb & _).
  destruct (jac_mul_add_def c p Pp (cu_a C) (cu_b C) Mp P3 Ra (cv_a_is_zero _ E) (cv_a_is_minus_3 _ E) (eP8 c C Pp EC) u1 (of_affine O (cu_g C)) u2 (of_affine O q) G1 G2) as (R & K & GR).
  - apply H1.
  - apply H2.
  - apply H1.
  - apply H2.
  - apply room_r with n; [exact Hn|apply (red_size c n Hn), H1].
  - apply room_r with n; [exact Hn|apply (red_size c n Hn), H2].
  - destruct (jac_to_affine_raw c p Pp _ _ CO R GR) as (R' & K' & GR' & XR'). exists R, R'. auto.
Qed.

Lemma verify_any q msg r s : good2 c p q -> all_bytes msg -> valid c r -> valid c s ->
  exists v, ecdsa_verify c C q msg r s = Ok v /\ (v = true -> aff_is_identity O q = false /\ 1 <= value r < N /\ 1 <= value s < N) /\
    (aff_is_identity O q = false -> 1 <= value r < N -> 1 <= value s < N -> P <= 2 * N -> forall w, (value s * w) mod N = 1 ->
      exists u1 u2 R R', reduced c n u1 /\ reduced c n u2 /\ value u1 = (lead n msg * w) mod N /\ value u2 = (value r * w) mod N /\
        jac_mul_add O E c u1 (of_affine O (cu_g C)) u2 (of_affine O q) = Ok R /\ jac_to_affine O R = Ok R' /\ raw_pt p Pp R' = jac_pt p Pp R /\
        (v = true <-> exists x y, raw_pt p Pp R' = Aff x y /\ coord p Pp x mod N = value r)).
Proof.
  intros Gq Am Vr Vs. pose proof (eN1 c C Pp EC) as N1. unfold ecdsa_verify.
  destruct (aff_is_identity O q) eqn:ID; [exists false; split; [reflexivity|]; split; discriminate|].
  rewrite (range_claim c) by (try assumption; apply Hn). destruct ((1 <=? value r) && (value r <? N) && (1 <=? value s) && (value s <? N)) eqn:RG; cbn [negb].
  2:{ exists false. split; [reflexivity|]. split; [discriminate|]. intros. exfalso. lia. }
  assert (Br : 1 <= value r < N) by (clear - RG; lia). assert (Bs : 1 <= value s < N) by (clear - RG; lia). clear RG.
  assert (Rr : reduced c n r) by (split; [exact Vr|clear - Br; lia]). assert (Rs : reduced c n s) by (split; [exact Vs|clear - Bs; lia]).
  destruct (digest_claim c n Hn msg Am) as (e & -> & Ve & Se & Ee & Le). cbn [bind].
  destruct (modinv_val c n Hn s Rs (prime_gcd c n Hn (value s) (ePn c C Pp EC) ltac:(lia))) as (w & -> & Rw & W). cbn [bind].
  assert (E0 : 0 <= value e) by (rewrite Ee; destruct (Z.gtb_spec (lead n msg) N); lia).
  destruct (op_mul_val c n Hn e w Ve (proj1 Rw) Se (red_size c n Hn w Rw)) as (V1 & E1).
  destruct (op_mod_pos c n Hn (op_mul c e w) V1) as (u1 & -> & R1 & X1); [rewrite E1; destruct Rw; nia|]. cbn [bind].
  destruct (mulmod_val c n Hn r w Rr Rw) as (u2 & -> & R2 & X2). cbn [bind].
  destruct (combine_any u1 u2 q R1 R2 Gq) as (R & R' & KM & G3 & KT & GR & XR). rewrite KM. cbn [bind]. rewrite KT. cbn [bind].
  assert (X1' : value u1 = (lead n msg * value w) mod N).
  { rewrite X1, E1, Zmult_mod, (digest_mod c n Hn msg e Ee), <- Zmult_mod. reflexivity. }
  assert (WU : forall w', (value s * w') mod N = 1 -> value u1 = (lead n msg * w') mod N /\ value u2 = (value r * w') mod N).
  { intros w' W'. pose proof (inv_unique N (value s) (value w) w' N1 W W') as U. rewrite X1', X2. split; apply mul_inv_mod; exact U. }
  clear X1 X1' X2 E1 E0 Ee Le.
  match goal with |- exists v, ?o = Ok v /\ _ => assert (K : exists v, o = Ok v /\ (P <= 2 * N -> (v = true <-> exists x y, raw_pt p Pp R' = Aff x y /\ coord p Pp x mod N = value r))) end.
  { change (aff O) with (option (fe * fe)) in R'. destruct R' as [[x y]|].
    - destruct GR as (Hx & Hy). rewrite (id_values c C Pp (eCB c C Pp EC) x y Hx Hy). cbn [raw_pt] in XR |- *. pose proof Hx as (_ & Vx & Rx).
      assert (EX : (exists x0 y0 : F, Aff (fval p Pp x) (fval p Pp y) = Aff x0 y0 /\ coord p Pp x0 mod N = value r) <-> value (fv x) mod N = value r).
      { split.
        - intros (x0 & y0 & H & K). injection H as <- <-. unfold coord in K. rewrite (zval_fval c p Pp x Hx) in K. exact K.
        - intros H. exists (fval p Pp x), (fval p Pp y). split; [reflexivity|]. unfold coord. rewrite (zval_fval c p Pp x Hx). exact H. }
      destruct ((value (fv x) =? 0) && (value (fv y) =? 0)) eqn:Z0.
      { exists false. split; [reflexivity|]. intros _. rewrite EX. split; [discriminate|]. assert (value (fv x) = 0) as -> by (clear - Z0; lia). rewrite Z.mod_0_l by (clear - N1; lia). clear - Br. lia. }
      clear Z0.
      assert (K : exists x', (if negb (compare (fv x) n <? 0) then fe_sub_big c x n else Ok x) = Ok x' /\ valid c (fv x') /\ value (fv x') = if value (fv x) <? N then value (fv x) else value (fv x) - N).
      { pose proof (compare_spec c (fv x) n Vx (proj1 Hn)) as CM. unfold cmp_result in CM. destruct (Z.ltb_spec (value (fv x)) N) as [L|L].
        - replace (compare (fv x) n <? 0) with true by (clear - CM L; lia). exists x. auto.
        - replace (compare (fv x) n <? 0) with false by (clear - CM L; lia). cbn [negb]. destruct (fe_sub_claim c p (proj1 CO) x (mkfe n (Some p)) Hx) as (z & K & (Hz & Vz)).
          + split; [reflexivity|]. split; [apply Hn|cbn [fv]; clear - N1 L Rx; lia].
          + unfold fe_sub in K. cbn [fv] in K, Vz. exists z. split; [exact K|]. split; [apply Hz|]. rewrite Vz, Z.mod_small by (clear - N1 L Rx; lia). reflexivity. }
      change (T O) with fe; destruct K as (x' & -> & Vx' & Ex'). cbn [bind]. pose proof (compare_spec c (fv x') r Vx' Vr) as CM. unfold cmp_result in CM.
      eexists. split; [reflexivity|]. intros PN. rewrite EX. assert (M : value (fv x) mod N = value (fv x')).
      { rewrite Ex'. destruct (Z.ltb_spec (value (fv x)) N) as [L|L]; [apply Z.mod_small; clear - Rx L; lia|]. symmetry. apply Zmod_unique with 1; clear - PN Rx L; lia. }
      rewrite M. clear - CM. lia.
    - exists false. split; [reflexivity|]. intros _. cbn [raw_pt]. split; [discriminate|]. intros (x & y & H & _). discriminate. }
  destruct K as (v & -> & HV). exists v. split; [reflexivity|]. split; [auto|]. intros _ _ _ PN w' W'. destruct (WU w' W') as (U1 & U2). exists u1, u2, R, R'.
  split; [exact R1|]. split; [exact R2|]. split; [exact U1|]. split; [exact U2|]. split; [exact KM|]. split; [exact KT|]. split; [exact XR|]. apply HV, PN.
Qed.

Lemma one_one u1 u2 q x y xg yg : reduced c n u1 -> reduced c n u2 -> good2 c p q -> value u1 = 1 -> value u2 = 1 -> aff_pt p Pp (cu_g C) = Aff xg yg -> aff_pt p Pp q = Aff x y -> xg <> x ->
  exists R, jac_mul_add O E c u1 (of_affine O (cu_g C)) u2 (of_affine O q) = Ok R /\ jac_pt p Pp R = padd (kval p Pp (cu_a C)) (Aff xg yg) (Aff x y).
Proof.
  intros H1 H2 Gq E1 E2 EG EQ Nx. pose proof (eE c C Pp EC) as CE. destruct (jac_of_affine_claim c p Pp _ _ CO (cu_g C) (eGg c C Pp EC)) as (G1 & X1). destruct (jac_of_affine_claim c p Pp _ _ CO q Gq) as (G2 & X2).
  rewrite EG in X1. rewrite EQ in X2. pose proof (eP8 c C Pp EC) as P8. revert G1 G2 X1 X2. generalize (of_affine O (cu_g C)). generalize (of_affine O q). intros Q1 P1 G1 G2 X1 X2.
  unfold jac_mul_add, mul_add_fast. rewrite (rnaf_of_1 c u1), (rnaf_of_1 c u2); try assumption; try apply H1; try apply H2;
    try (apply room_r with n; [exact Hn|apply (red_size c n Hn); assumption]). cbn [bind].
  destruct (jac_inverted_claim c p Pp _ _ CO P1 G1) as (P2 & -> & GP2 & XP2). cbn [bind]. destruct (jac_inverted_claim c p Pp _ _ CO Q1 G2) as (Q2 & -> & GQ2 & XQ2). cbn [bind].
  rewrite X1 in XP2. rewrite X2 in XQ2. cbn [popp] in XP2, XQ2.
  assert (K : exists R, jac_add O E P2 Q2 = Ok R /\ good3 c p R /\ jac_pt p Pp R = padd (kval p Pp (cu_a C)) (Aff xg (- yg)%f) (Aff x (- y)%f)).
  { rewrite CE. eapply (lift3j c p Pp); [apply jac_add_rel; try apply CO; try exact P8; apply good_R3; eassumption|]. eapply jac_add_chord; eassumption. }
  destruct K as (S & -> & GS & XS). cbn [bind].
  destruct CO as (Mp & P3 & Ra & Rb & D) eqn:ECO.
  destruct (jac_add_def c p Pp (cu_a C) (cu_b C) Mp P3 Ra (cv_a_is_zero _ E) (cv_a_is_minus_3 _ E) P8 P1 Q2 G1 GQ2) as (S' & K' & GS').
  assert (K2 : jac_add O E P1 Q2 = Ok S') by exact K'. rewrite K2. cbn [bind].
  destruct (jac_inverted_claim c p Pp _ _ CO S' GS') as (S2 & -> & _). cbn [bind].
  destruct (jac_inverted_claim c p Pp _ _ CO S GS) as (S3 & -> & _ & XS3). cbn [bind].
  exists S3. split; [reflexivity|]. rewrite XS3, XS. exact (chord_opp F (EcTransfer.E2 p Pp (cu_a C) (cu_b C) false false) _ _ _ _ Nx).
Qed.

Lemma small_elements : exists l : list F, NoDup l /\ (7 <= length l)%nat.
Proof.
  pose proof (eP8 c C Pp EC) as P8. pose (f := fun i : nat => zmk P Pp (Z.of_nat i) : F). exists (map f (seq 0 7)). split; [|reflexivity].
  assert (I : forall i j, (i < 7)%nat -> (j < 7)%nat -> f i = f j -> i = j). { intros i j Hi Hj H. apply (f_equal zval) in H. unfold f in H. rewrite !zval_mk, !Z.mod_small in H by lia. lia. }
  assert (K : forall l, NoDup l -> (forall i, In i l -> (i < 7)%nat) -> NoDup (map f l)).
  { induction l as [|i l IH]; intros ND B; [constructor|]. inversion ND as [|? ? N1 N2]; subst. cbn [map]. constructor.
    - intros H. apply in_map_iff in H. destruct H as (j & H & Hj). apply I in H; [subst; contradiction|apply B; right; exact Hj|apply B; left; reflexivity].
    - apply IH; [exact N2|]. intros j Hj. apply B. right. exact Hj. }
  apply K; [apply seq_NoDup|]. intros i H. apply in_seq in H. lia.
Qed.

(** for almost every digest a key off the curve is accepted *)
Lemma off_curve_key msg : all_bytes msg -> P <= 2 * N -> N < P -> lead n msg mod N <> 0 -> (forall x y, aff_pt p Pp (cu_g C) = Aff x y -> coord p Pp x <> lead n msg mod N) -> aff_pt p Pp (cu_g C) <> Inf ->
  exists x y, ~ on_curve (kval p Pp (cu_a C)) (kval p Pp (cu_b C)) (Aff x y) /\
    forall q r s, good2 c p q -> raw_pt p Pp q = Aff x y -> valid c r -> valid c s -> value r = lead n msg mod N -> value s = lead n msg mod N -> ecdsa_verify c C q msg r s = Ok true.
Proof.
  intros Am PN NP E0 EG G0. pose proof (eN1 c C Pp EC) as N1. pose proof (Z.mod_pos_bound (lead n msg) N ltac:(lia)) as Re. remember (lead n msg mod N) as e eqn:Ee.
  destruct (aff_pt p Pp (cu_g C)) as [|xg yg] eqn:GE; [contradiction|]. specialize (EG xg yg eq_refl).
  assert (GO : on_curve (kval p Pp (cu_a C)) (kval p Pp (cu_b C)) (Aff xg yg)) by (rewrite <- GE; apply (eGon c C Pp EC)).
  destruct small_elements as (l & ND & L7). pose (ef := zmk P Pp e : F).
  assert (CE : coord p Pp ef = e) by (unfold coord, ef; rewrite zval_mk; apply Z.mod_small; lia).
  destruct (off_curve_sum F (kval p Pp (cu_a C)) (kval p Pp (cu_b C)) xg yg ef l ND L7 GO) as (x & y & y3 & Nx & X0 & NO & SM).
  { intros K. apply EG. rewrite <- K. exact CE. }
  exists x, y. split; [exact NO|]. intros q r s Gq RQ Vr Vs Er Es.
  assert (EQ : aff_pt p Pp q = Aff x y).
  { change (aff O) with (option (fe * fe)) in q. destruct q as [[vx vy]|]; [|discriminate]. cbn [raw_pt] in RQ. injection RQ as Ex Ey. unfold aff_pt, option_map, fst, snd, abs_aff. rewrite Ex, Ey.
    replace (fb x 0%f) with false; [reflexivity|]. symmetry. apply (fb_false F). exact X0. }
  destruct (verify_any q msg r s Gq Am Vr Vs) as (v & -> & _ & HV). f_equal.
  assert (ID : aff_is_identity O q = false). { pose proof (aff_id_claim c p Pp _ _ CO _ Gq) as ID. destruct (aff_is_identity O _); [|reflexivity]. rewrite (proj1 ID eq_refl) in EQ. discriminate. }
  assert (PG : rel_prime e N). { apply rel_prime_sym, prime_rel_prime; [apply (ePn c C Pp EC)|]. intros D. apply Z.divide_pos_le in D; lia. }
  destruct (rel_prime_bezout _ _ PG) as [w k BZ]. assert (W : (e * w) mod N = 1). { replace (e * w) with (1 + (- k) * N) by lia. rewrite Z.mod_add, Z.mod_1_l by lia. reflexivity. }
  destruct (HV ID ltac:(lia) ltac:(lia) PN w) as (u1 & u2 & R & R' & R1 & R2 & U1 & U2 & KM & KT & XR & V); [rewrite Es; exact W|]. apply V. clear V HV.
  assert (U1' : value u1 = 1). { rewrite U1, Zmult_mod, <- Ee. rewrite <- (Z.mod_small e N) by lia. rewrite <- Zmult_mod. exact W. }
  rewrite Er, W in U2.
  destruct (one_one u1 u2 q x y xg yg R1 R2 Gq U1' U2 GE EQ Nx) as (S & KS & XS). rewrite KM in KS. injection KS as <-.
  exists ef, y3. rewrite XR, XS. split; [exact SM|]. rewrite CE, Er. apply Z.mod_small. lia.
Qed.
End ANY.
