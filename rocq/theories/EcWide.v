(** Decompression and decoding of every byte string, with abscissas that need not be reduced. *)
From Coq Require Import List ZArith Znumtheory Bool Lia.
From Verif Require Import Outcome LoopModel WordsModel WordsSpec UtilsSpec WordsProofs BigintModel BigintSpec BigintProofs BigintBits BigintBytes BigintClaims NumModel NumProofs JacobiSpec FpModel FpSpec FpProofs FpSqrt FpClaims FpWide EcGroup ZpField EcModel EcSpec EcFeSpec EcTransfer EcCurveModel EcClaims EcLaws EcCurveSpec EcCodec EcDecodeSpec.
Import ListNotations.
Open Scope Z_scope.

Section CURVE.
Variable c : cap.
Variable C : curve.
Notation p := (cu_p C). Notation P := (value (cu_p C)).
Variable Pp : prime P.
Hypothesis CB : curve_base c C Pp.
Notation Hp := (cHp c C Pp CB).
Lemma wide_compute_y x odd : wide_fe c p x ->
  exists y, compute_y c C x odd = Ok y /\ elem c p y /\
    (abscissa C (value (fv x)) -> satisfies C (value (fv x)) (value (fv y))) /\
    (~ abscissa C (value (fv x)) -> value (fv y) = 0) /\
    (value (fv y) <> 0 -> Z.odd (value (fv y)) = odd).
Proof.
  intros Hx. pose proof (cP3 c C Pp CB) as P3. unfold compute_y.
  destruct (wide_fe_sqr c p Hp P3 x Hx) as (t1 & -> & E1 & V1). cbn [bind].
  destruct (fe_add_claim c p Hp t1 (mkfe (cu_a C) (Some p)) E1 (conj eq_refl (cHa c C Pp CB))) as (t2 & K2 & E2 & V2). unfold fe_add in K2. cbn [fv] in K2, V2. rewrite K2. cbn [bind].
  destruct (wide_fe_mul c p Hp P3 t2 x E2 Hx) as (t3 & -> & E3 & V3). cbn [bind].
  destruct (wide_fe_add c p Hp Pp P3 t3 (cu_b C) E3 (cHb c C Pp CB)) as (t4 & -> & E4 & V4). cbn [bind].
  rewrite V1, Zplus_mod_idemp_l in V2. rewrite V2, Zmult_mod_idemp_l in V3. rewrite Zplus_mod, V3, <- Zplus_mod in V4.
  assert (V : value (fv t4) mod P = rhs C (value (fv x)) mod P) by (rewrite V4; unfold rhs; f_equal; ring).
  destruct (wide_fe_sqrt c p Hp Pp P3 t4 E4) as (y & -> & Ey & S1 & S2). cbn [bind]. rewrite (bit0 c C y Ey).
  assert (AS : abscissa C (value (fv x)) <-> square_mod (value (fv t4)) P).
  { unfold abscissa, satisfies, square_mod. rewrite V. tauto. }
  destruct (Bool.eqb odd (Z.odd (value (fv y)))) eqn:Q; cbn [negb].
  - exists y. split; [reflexivity|]. split; [exact Ey|]. apply Bool.eqb_prop in Q. split; [|split; [tauto|auto]].
    intros A. unfold satisfies. rewrite S1 by tauto. exact V.
  - destruct (fe_neg_claim c p Hp y Ey) as (z & -> & Ez & Vz). exists z. split; [reflexivity|]. split; [exact Ez|]. split; [|split].
    + intros A. unfold satisfies. rewrite Vz, <- Zmult_mod, Z.mul_opp_opp, S1 by tauto. exact V.
    + intros A. rewrite Vz, S2 by tauto. reflexivity.
    + intros NZ. destruct Ey as (_ & _ & Ry). rewrite Vz. rewrite (odd_neg c C Pp CB).
      * apply Bool.eqb_false_iff in Q. destruct odd, (Z.odd (value (fv y))); cbn; congruence.
      * destruct (Z.eq_dec (value (fv y)) 0) as [Z0|]; [|lia]. rewrite Vz, Z0 in NZ. exfalso. apply NZ. reflexivity.
Qed.
Lemma wide_decompress x odd : wide c p x ->
  exists R, decompress_point c C x odd false = Ok R /\
    match R with
    | None => forall y, 0 <= y < P -> satisfies C (value x) y -> y = 0
    | Some (u, y) => u = mkfe x (Some p) /\ elem c p y /\ satisfies C (value x) (value (fv y)) /\ value (fv y) <> 0 /\ Z.odd (value (fv y)) = odd
    end.
Proof.
  intros Hx. assert (Ex : wide_fe c p (mkfe x (Some p))) by (split; [reflexivity|exact Hx]).
  unfold decompress_point, make_field_element. cbn [bind]. unfold decompress_fe. destruct (wide_compute_y _ odd Ex) as (y & -> & Ey & A & NA & O). cbn [bind fv] in *.
  destruct (fe_pred_claim c p Hp y y Ey Ey) as (_ & -> & _). destruct (Z.eqb_spec (value (fv y)) 0) as [Z0|NZ].
  - exists None. split; [reflexivity|]. rewrite Z0 in A. intros z Rz Sz.
    specialize (A (ex_intro _ z Sz)). unfold satisfies in *. assert (SQ : (z * z) mod P = (0 * 0) mod P) by congruence. clear - Rz SQ Pp.
    destruct (roots_claim P z 0 Pp SQ) as [E|E]; clear SQ; rewrite Z.mod_0_l in E by lia.
    + rewrite Z.mod_small in E by lia. auto.
    + destruct (Z.eq_dec z 0); [assumption|]. replace ((- z) mod P) with (P - z) in E by (apply Z.mod_unique with (-1); lia). lia.
  - unfold make_point_fe. cbn [bind]. eexists. split; [reflexivity|]. cbn [fv]. split; [reflexivity|]. split; [exact Ey|].
    split; [|split; [exact NZ|exact (O NZ)]]. destruct (abscissa_dec c C Pp CB (value x)) as [D|D]; [auto|]. exfalso. auto.
Qed.
Notation pl := (Z.to_nat (byte_length (cu_p C))).
Lemma plen_size : byte_length p <= 4 * Z.of_nat (size p).
Proof.
  destruct Hp as (V & _). destruct (byte_length_bounds c p V) as (A1 & A2 & A3). destruct (Z_le_gt_dec (byte_length p) (4 * Z.of_nat (size p))) as [|G]; [assumption|]. pose proof V as (_ & Sz & _).
  specialize (A3 ltac:(lia)). pose proof (magnitude_range c p V) as R. rewrite Bn_pow2 in R. change 256 with (2 ^ 8) in A3. rewrite <- Z.pow_mul_r in A3 by lia.
  pose proof (Z.pow_le_mono_r 2 (32 * Z.of_nat (size p)) (8 * (byte_length p - 1)) ltac:(lia) ltac:(lia)). lia.
Qed.
Lemma word_wide d r : all_bytes d -> length d = pl -> valid c r -> value r = be_value d -> wide c p r.
Proof.
  intros A L V E. pose proof (be_range d A) as R. rewrite L in R. destruct Hp as (Vp & _). pose proof (byte_length_pos c p Vp) as B1. rewrite Z2Nat.id in R by lia.
  split; [exact V|]. split; [lia|]. apply (size_le_iff c r (size p) V); [apply Vp|]. rewrite (mag_abs c r V) by lia. rewrite Bn_pow2. pose proof plen_size as S.
  assert (Q : 256 ^ byte_length p <= 2 ^ (32 * Z.of_nat (size p))). { change 256 with (2 ^ 8). rewrite <- Z.pow_mul_r by lia. apply Z.pow_le_mono_r; lia. }
  lia.
Qed.
Lemma plen_unique n : (0 < n)%nat -> 256 ^ (Z.of_nat n - 1) <= P < 256 ^ Z.of_nat n -> n = pl.
Proof.
  intros N H. pose proof (cP3 c C Pp CB) as P3. destruct Hp as (V & _). destruct (byte_length_bounds c p V) as (A1 & A2 & A3). rewrite (mag_abs c p V) in * by lia.
  assert (A4 : 256 ^ (byte_length p - 1) <= P). { destruct (Z.eq_dec (byte_length p) 1) as [->|]; [cbn; lia|apply A3; lia]. }
  assert (Z.of_nat n - 1 < byte_length p) by (apply (Z.pow_lt_mono_r_iff 256); lia).
  assert (byte_length p - 1 < Z.of_nat n) by (apply (Z.pow_lt_mono_r_iff 256); lia). lia.
Qed.
Lemma decode_any_claim n e : (0 < n)%nat -> 256 ^ (Z.of_nat n - 1) <= P < 256 ^ Z.of_nat n -> all_bytes e -> decodes C n e (coords (decode_point c C e)).
Proof.
  intros N HN A. pose proof (plen_unique n N HN) as ->. destruct e as [|t d]; [constructor|]. apply Forall_cons_iff in A. destruct A as (At & A). unfold is_byte in At.
  destruct (proj2 (decode_types_claim c C (t :: d)) t d eq_refl ltac:(lia)) as (T0 & T1 & T2 & T4).
  assert (D : t = 0 \/ (t = 1 \/ 4 < t) \/ (t = 2 \/ t = 3) \/ t = 4) by lia. destruct D as [->|[D|[D| ->]]].
  - rewrite T0 by reflexivity. constructor.
  - rewrite T1 by exact D. constructor. exact D.
  - destruct (Nat.eq_dec (length d) pl) as [L|L]; [|rewrite T2 by assumption; constructor; assumption].
    clear T0 T1 T2 T4. unfold decode_point. replace ((t <=? 4) && negb (t =? 1)) with true by lia. cbn [check bind]. replace ((t =? 2) || (t =? 3)) with true by lia.
    replace (Nat.eqb (length (t :: d)) (pl + 1)) with true by (symmetry; apply Nat.eqb_eq; cbn [length]; lia). cbn [check bind].
    rewrite <- L, firstn_all. destruct (decode_word c C Pp CB d A L) as (r & -> & V & E & Z0). cbn [bind].
    destruct (wide_decompress r (Z.odd t) (word_wide d r A L V E)) as (R & -> & H). rewrite E in H. rewrite L.
    destruct R as [[x y]|]; cbn [coords].
    + destruct H as (-> & (_ & _ & Ry) & S1 & S2 & S3). cbn [fv]. rewrite E. apply D_compressed; auto. lia.
    + apply D_compressed_none; auto. intros y Ry Sy. specialize (H y ltac:(lia) Sy). lia.
  - destruct (Nat.eq_dec (length d) (2 * pl)) as [L|L]; [|rewrite T4 by auto; constructor; assumption].
    destruct (decode_uncompressed_claim c C Pp CB d A L) as (K1 & K2).
    assert (Lf : length (firstn pl d) = pl) by (rewrite firstn_length; lia). assert (Ls : length (skipn pl d) = pl) by (rewrite skipn_length; lia).
    destruct (Z_lt_ge_dec (be_value (firstn pl d)) P) as [Q1|Q1]; [destruct (Z_lt_ge_dec (be_value (skipn pl d)) P) as [Q2|Q2]|].
    + destruct (K2 Q1 Q2) as (u & v & -> & _ & _ & E1 & E2). cbn [coords]. rewrite E1, E2. rewrite <- (firstn_skipn pl d) at 1. apply D_uncompressed; assumption.
    + rewrite K1 by lia. cbn [coords]. rewrite <- (firstn_skipn pl d). apply D_uncompressed_range; try assumption. lia.
    + rewrite K1 by lia. cbn [coords]. rewrite <- (firstn_skipn pl d). apply D_uncompressed_range; try assumption. lia.
Qed.
(** the reading of a string is unique *)
Lemma decodes_unique n e o o' : decodes C n e o -> decodes C n e o' -> o = o'.
Proof.
  assert (S : forall dx dy ex ey : list Z, dx ++ dy = ex ++ ey -> length dx = n -> length ex = n -> dx = ex /\ dy = ey).
  { clear. intros dx. revert n. induction dx as [|a dx IH]; intros n dy [|b ex] ey E L1 L2; cbn in *; try lia; [auto|]. injection E as -> E. destruct (IH (length dx) dy ex ey E eq_refl ltac:(lia)) as (-> & ->). auto. }
  intros H H'. inversion H; subst; inversion H'; subst; try reflexivity; try lia; try (cbn [length] in *; rewrite ?app_length in *; lia).
  - repeat f_equal. eapply (ordinate_unique c C Pp CB); eauto; try lia; congruence.
  - exfalso. match goal with X : forall y, _ -> ~ _, Y : satisfies _ _ ?y |- _ => exact (X y ltac:(lia) Y) end.
  - exfalso. match goal with X : forall y, _ -> ~ _, Y : satisfies _ _ ?y |- _ => exact (X y ltac:(lia) Y) end.
  - match goal with X : _ ++ _ = _ ++ _ |- _ => destruct (S _ _ _ _ X ltac:(assumption) eq_refl) as (Q1 & Q2) || destruct (S _ _ _ _ X eq_refl ltac:(assumption)) as (Q1 & Q2) end. subst. reflexivity.
  - match goal with X : _ ++ _ = _ ++ _ |- _ => destruct (S _ _ _ _ X ltac:(assumption) eq_refl) as (Q1 & Q2) || destruct (S _ _ _ _ X eq_refl ltac:(assumption)) as (Q1 & Q2) end. subst. lia.
  - match goal with X : _ ++ _ = _ ++ _ |- _ => destruct (S _ _ _ _ X ltac:(assumption) eq_refl) as (Q1 & Q2) || destruct (S _ _ _ _ X eq_refl ltac:(assumption)) as (Q1 & Q2) end. subst. lia.
Qed.
Lemma wide_decompress_claim x odd : valid c x -> 0 <= value x -> (size x <= size p)%nat ->
  exists R, decompress_point c C x odd false = Ok R /\
    (R = None <-> forall y, 0 <= y < P -> satisfies C (value x) y -> y = 0) /\
    (forall u y, R = Some (u, y) -> u = mkfe x (Some p) /\ elem c p y /\ satisfies C (value x) (value (fv y)) /\ Z.odd (value (fv y)) = odd /\
       forall y', 0 <= y' < P -> satisfies C (value x) y' -> Z.odd y' = odd -> y' = value (fv y)).
Proof.
  intros V R0 Sz. destruct (wide_decompress x odd (conj V (conj R0 Sz))) as (R & K & H). exists R. split; [exact K|]. split.
  - destruct R as [[u y]|]; [|tauto]. destruct H as (_ & (_ & _ & Ry) & S1 & NZ & _). split; [discriminate|]. intros Q. exfalso. auto.
  - intros u y ->. destruct H as (-> & Ey & S1 & NZ & O). split; [reflexivity|]. split; [exact Ey|]. split; [exact S1|]. split; [exact O|].
    intros y' R' S' O'. destruct Ey as (_ & _ & Ry). apply (ordinate_unique c C Pp CB (value x)); auto. congruence.
Qed.
End CURVE.
Lemma decode_satisfies_claim : forall c C (Pp : prime (value (cu_p C))) t d x y, curve_base c C Pp -> all_bytes (t :: d) -> t <> 4 ->
  decode_point c C (t :: d) = Ok (Some (x, y)) -> satisfies C (value (fv x)) (value (fv y)) /\ value (fv x) = be_value d.
Proof.
  intros c C Pp t d x y CB A T K. pose proof (cHp c C Pp CB) as (V & _). destruct (byte_length_bounds c _ V) as (A1 & A2 & A3). pose proof (cP3 c C Pp CB) as P3. rewrite (mag_abs c _ V) in * by lia.
  assert (A4 : 256 ^ (byte_length (cu_p C) - 1) <= value (cu_p C)). { destruct (Z.eq_dec (byte_length (cu_p C)) 1) as [->|]; [cbn; lia|apply A3; lia]. }
  pose proof (decode_any_claim c C Pp CB (Z.to_nat (byte_length (cu_p C))) (t :: d) ltac:(lia) ltac:(rewrite Z2Nat.id by lia; lia) A) as D. rewrite K in D. cbn [coords] in D.
  inversion D; subst; try congruence. split; assumption.
Qed.
