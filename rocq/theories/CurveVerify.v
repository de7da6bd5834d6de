(** ec_curve_fp::verify. *)
From Coq Require Import Ascii String List ZArith Znumtheory Bool Lia.
From Verif Require Import Outcome UtilsModel UtilsSpec UtilsProofs LoopModel WordsModel WordsSpec WordsProofs BigintModel BigintSpec BigintProofs BigintBits BigintBytes BigintClaims NumModel NumProofs JacobiSpec FpModel FpSpec FpProofs FpSqrt FpClaims EcGroup EcGroupProofs ZpField EcModel EcSpec EcScalar EcFeSpec EcTransfer EcCurveModel EcClaims EcLaws EcCurveSpec EcCodec EcCurveClaims EcdsaModel EcdsaSpec EcdsaProofs EcdsaRecover EcdsaClaims EcdsaExamples NamedModel NamedSpec NamedProofs EcQuotSpec EcQuot.
Import ListNotations.
Open Scope Z_scope.

Section CV.
Variable c : cap. Variable C : curve.
Notation p := (cu_p C). Notation n := (cu_n C). Notation P := (value (cu_p C)).
Variable Mp : modulus_ok c p.
Variable P3 : 3 < P.
Variable Pp : prime P.

(** an element that need not be reduced: the literal 27 is stored as it is when its factor is 1 *)
Definition loose (x : fe) : Prop := fm x = Some p /\ valid c (fv x) /\ 0 <= value (fv x) /\ (size (fv x) <= size p)%nat.
Lemma elem_loose x : elem c p x -> loose x.
Proof. intros (E & H). split; [exact E|]. split; [apply H|]. split; [apply H|]. apply (red_size c p Mp). exact H. Qed.
Lemma mul27_claim x : elem c p x -> exists r, fe_mul_int c x 27 = Ok r /\ loose r /\ value (fv r) mod P = (value (fv x) * 27) mod P.
Proof.
  intros Hx. destruct (Z.eq_dec (value (fv x)) 1) as [E|E].
  - pose proof Hx as (Ex & Hr). unfold fe_mul_int, with_m. rewrite (is_one_value c) by apply Hr. rewrite E, Ex. cbn [Z.eqb Pos.eqb bind].
    destruct (of_int_value c 27 (valid_room1 c p (proj1 Mp)) ltac:(lia)) as ((V & _) & Ek). eexists. split; [reflexivity|]. cbn [fv fm].
    split; [|rewrite Ek; reflexivity]. split; [reflexivity|]. split; [exact V|]. split; [cbn [fv]; rewrite Ek; lia|]. cbn [fv].
    assert (S1 : (size (of_int c 27) <= 1)%nat) by (apply (size_le_iff c _ 1 V ltac:(lia)); rewrite Bn_pow2, (abs_magnitude c), Ek by exact V; cbn; lia).
    assert (S2 : (1 <= size p)%nat) by apply (proj1 Mp). lia.
  - destruct (fe_mul_int_claim c p Mp x 27 Hx ltac:(lia) ltac:(lia) ltac:(lia)) as (r & K & F & V). exists r. split; [exact K|]. split; [apply elem_loose; exact F|]. rewrite V. apply Z.mod_mod. lia.
Qed.
Lemma add_loose_claim x y : elem c p x -> loose y -> exists r, fe_add c x y = Ok r /\ loose r /\ value (fv r) mod P = (value (fv x) + value (fv y)) mod P.
Proof.
  intros (Ex & Hx) (_ & Vy & Py & Sy). unfold fe_add, fe_add_big, with_m. rewrite Ex. cbn [bind]. eexists. split; [reflexivity|]. cbn [fv fm].
  pose proof (red_size c p Mp _ Hx) as Sx. destruct (op_add_val c p Mp (fv x) (fv y) (proj1 Hx) Vy Sx Sy) as (V & E). unfold fp_add, fp_add_tail.
  pose proof (proj1 Mp) as Vp. pose proof (compare_spec c (op_add c (fv x) (fv y)) p V Vp) as K. unfold cmp_result in K. destruct Hx as (Vx & Rx).
  destruct (Z.geb_spec (compare (op_add c (fv x) (fv y)) p) 0) as [G|G].
  - assert (NS : neg (op_add c (fv x) (fv y)) = false). { pose proof (magnitude_range c _ V) as M. rewrite value_sgn in K. destruct (neg (op_add c (fv x) (fv y))); [cbn [sgn] in *; lia|reflexivity]. }
    assert (NP : neg p = false). { pose proof (magnitude_range c p Vp) as M. pose proof P3 as P3'. rewrite (value_sgn p) in P3'. destruct (neg p); [cbn [sgn] in *; lia|reflexivity]. }
    destruct (sub_same_claim c (op_add c (fv x) (fv y)) (op_add c (fv x) (fv y)) p V V Vp ltac:(congruence)) as (V' & E'). rewrite E in E'. split.
    + split; [reflexivity|]. split; [exact V'|]. cbn [fv]. rewrite E'. split; [lia|]. apply Nat.le_trans with (size (fv y)); [|exact Sy]. apply (size_le c); [exact V'|exact Vy|]. rewrite E'. lia.
    + rewrite E'. replace (value (fv x) + value (fv y) - P) with (value (fv x) + value (fv y) + (-1) * P) by ring. apply Z_mod_plus_full.
  - split; [|rewrite E; reflexivity]. split; [reflexivity|]. split; [exact V|]. cbn [fv]. rewrite E. split; [lia|]. apply (size_le c); [exact V|exact Vp|]. rewrite E. lia.
Qed.
Lemma fe_eq0_claim x : loose x -> exists d, fe_mul_int c x (-16) = Ok d /\ valid c (fv d) /\ (value (fv d) = 0 <-> value (fv x) mod P = 0).
Proof.
  intros (Ex & V & R & S). unfold fe_mul_int, with_m. rewrite !(is_one_value c) by exact V. rewrite Ex. destruct (Z.eqb_spec (value (fv x)) 1) as [E|E].
  - destruct (of_int_value c (-16) (valid_room1 c p (proj1 Mp)) ltac:(lia)) as ((V' & _) & Ek). eexists. split; [reflexivity|]. cbn [fv]. split; [exact V'|]. rewrite Ek, E, Z.mod_1_l by lia. lia.
  - replace (-16 =? 1) with false by reflexivity. unfold fp_mul_int.
    destruct (muls1_spec c (zero c) (fv x) (-16) (zst c p Mp) V ltac:(unfold int32; lia) (room_r c p Mp (fv x) S)) as (V' & E').
    destruct (op_mod_val c p Mp _ V') as (r & -> & Vr & Er). cbn [bind]. eexists. split; [reflexivity|]. cbn [fv]. split; [exact Vr|]. rewrite Er, E'. clear - P3 Pp.
    split; intros H.
    + apply Z.rem_divide in H; [|lia]. replace (value (fv x) * -16) with (- (2 * (2 * (2 * (2 * value (fv x)))))) in H by ring. apply Z.divide_opp_r in H. rewrite ?Z.opp_involutive in H.
      assert (N2 : ~ (P | 2)) by (intros K; apply Z.divide_pos_le in K; lia).
      do 4 (apply prime_mult in H; [|exact Pp]; destruct H as [H|H]; [contradiction|]). apply Z.mod_divide; [lia|exact H].
    + apply Z.mod_divide in H; [|lia]. apply Z.rem_divide; [lia|]. apply Z.divide_mul_l. exact H.
Qed.
Hypothesis EC : reduced c p (cu_a C) -> reduced c p (cu_b C) -> cu_coeffs c C = coeffs_of c p (cu_a C) (cu_b C).
(** for any account [VAL] of what the check of the generator accepts *)
Lemma curve_verify_gen (VAL : Prop) : valid c (cu_a C) -> valid c (cu_b C) -> (curve_ok c p Pp (cu_a C) (cu_b C) -> exists v, aff_is_valid (fe_ops c p) (coeffs_of c p (cu_a C) (cu_b C)) n (cu_g C) = Ok v /\ (v = true <-> VAL)) -> good2 c p (cu_g C) -> valid c n -> room c (size n + 1) -> 0 <= cu_h C < 2 ^ 32 ->
  exists v, curve_verify c C = Ok v /\ (v = true <->
    0 < value n /\ 0 <= value (cu_a C) < P /\ 0 <= value (cu_b C) < P /\ (4 * value (cu_a C) ^ 3 + 27 * value (cu_b C) ^ 2) mod P <> 0 /\
    VAL /\
    1 <= cu_h C < P /\ value n * cu_h C <> P - 1).
Proof.
  intros Va Vb B0 GG Vn Rn Hh. unfold curve_verify. pose proof (proj1 Mp) as Vp.
  pose proof (compares1_spec c p 3 Vp ltac:(unfold int32; lia)) as M3. pose proof (compares1_spec c n 0 Vn ltac:(unfold int32; lia)) as M0. unfold cmp_result in M3, M0.
  replace (compares1 p 3 >? 0) with true by (clear - M3 P3; lia). cbn [negb orb]. destruct (Z.gtb_spec (compares1 n 0) 0) as [N0|N0]; cbn [negb].
  2:{ exists false. split; [reflexivity|]. split; [discriminate|]. clear - M0 N0. lia. }
  assert (N1 : 0 < value n) by (clear - M0 N0; lia). clear M3 M0 N0.
  assert (RNG : forall x, valid c x -> is_negative x || negb (compare x p <? 0) = negb ((0 <=? value x) && (value x <? P))).
  { intros x V. rewrite <- (make_integer c p x Mp V). unfold is_valid_integer. rewrite negb_andb, negb_involutive. reflexivity. }
  rewrite (RNG _ Va). destruct ((0 <=? value (cu_a C)) && (value (cu_a C) <? P)) eqn:Ra; cbn [negb].
  2:{ exists false. split; [reflexivity|]. split; [discriminate|]. clear - Ra. lia. }
  rewrite (RNG _ Vb). destruct ((0 <=? value (cu_b C)) && (value (cu_b C) <? P)) eqn:Rb; cbn [negb].
  2:{ exists false. split; [reflexivity|]. split; [discriminate|]. clear - Rb. lia. }
  assert (Ha : 0 <= value (cu_a C) < P) by (clear - Ra; lia). assert (Hb : 0 <= value (cu_b C) < P) by (clear - Rb; lia). clear Ra Rb RNG.
  unfold make_field_element. cbn [bind]. set (af := mkfe (cu_a C) (Some p)). set (bf := mkfe (cu_b C) (Some p)).
  assert (Fa : elem c p af) by (split; [reflexivity|split; [exact Va|exact Ha]]). assert (Fb : elem c p bf) by (split; [reflexivity|split; [exact Vb|exact Hb]]).
  destruct (fe_sqr_claim c p Mp af Fa) as (t1 & -> & F1 & E1). cbn [bind].
  assert (P4 : 4 < P).
  { destruct (Z.eq_dec P 4) as [E4|E4]; [|clear - P3 E4; lia]. exfalso. pose proof (prime_divisors P Pp 2 ltac:(exists 2; rewrite E4; reflexivity)) as D. clear - D E4. lia. }
  destruct (fe_mul_int_claim c p Mp t1 4 F1 ltac:(lia) ltac:(lia) ltac:(lia)) as (t2 & K2 & F2 & E2). unfold int_times_fe at 1. rewrite K2. cbn [bind].
  destruct (fe_mul_claim c p Mp t2 af F2 Fa) as (t3 & -> & F3 & E3). cbn [bind].
  destruct (fe_sqr_claim c p Mp bf Fb) as (u1 & -> & G1 & X1). cbn [bind].
  destruct (mul27_claim u1 G1) as (u2 & K4 & G2 & X2). unfold int_times_fe at 1. rewrite K4. cbn [bind].
  destruct (add_loose_claim t3 u2 F3 G2) as (y & -> & Fy & Ey). cbn [bind].
  destruct (fe_eq0_claim y Fy) as (d & K5 & Vd & D0). unfold int_times_fe. rewrite K5. cbn [bind].
  assert (DY : value (fv y) mod P = (4 * value (cu_a C) ^ 3 + 27 * value (cu_b C) ^ 2) mod P).
  { rewrite E1, Zmult_mod_idemp_l in E2. rewrite X1, Zmult_mod_idemp_l in X2. rewrite E2, Zmult_mod_idemp_l in E3. rewrite Ey, <- Zplus_mod_idemp_r, X2, E3, Zplus_mod_idemp_l, Zplus_mod_idemp_r. subst af bf. cbn [fv]. clear. f_equal. ring. }
  pose proof (compares1_spec c (fv d) 0 Vd ltac:(unfold int32; lia)) as MD. unfold cmp_result in MD.
  destruct (Z.eqb_spec (compares1 (fv d) 0) 0) as [Z0|Z0].
  { exists false. split; [reflexivity|]. split; [discriminate|]. intros (_ & _ & _ & H & _). exfalso. apply H. rewrite <- DY. apply D0. clear - MD Z0. lia. }
  assert (ND : (4 * value (cu_a C) ^ 3 + 27 * value (cu_b C) ^ 2) mod P <> 0) by (rewrite <- DY; intros H; apply D0 in H; clear - MD Z0 H; lia).
  clear Z0 MD DY D0 K5 Ey E3 X2 X1 E2 E1 K4 K2.
  rewrite EC by (split; assumption).
  assert (CO : curve_ok c p Pp (cu_a C) (cu_b C)).
  { split; [exact Mp|]. split; [exact P3|]. split; [split; assumption|]. split; [split; assumption|]. intros Z0. apply ND. apply (f_equal (@zval P)) in Z0. unfold GFp, EcFeSpec.kval in Z0. rewrite zp_disc, zval_mk in Z0.
    replace (4 * value (cu_a C) ^ 3 + 27 * value (cu_b C) ^ 2) with (4 * value (cu_a C) * value (cu_a C) * value (cu_a C) + 27 * value (cu_b C) * value (cu_b C)) by ring. rewrite Z0. change (0 mod P = 0). apply Z.mod_0_l. lia. }
  destruct (B0 CO) as (v & -> & Hv). cbn [bind]. destruct v; cbn [negb].
  2:{ exists false. split; [reflexivity|]. split; [discriminate|]. intros (_ & _ & _ & _ & H & _). apply Hv in H. discriminate. }
  pose proof (proj1 Hv eq_refl) as HG. clear Hv.
  pose proof (compareu1_spec c p (cu_h C) Vp ltac:(rewrite <- B_eq; clear - Hh; lia) ltac:(clear - P3; lia)) as MH. unfold cmp_result in MH.
  destruct ((cu_h C <? 1) || negb (compareu1 p (cu_h C) >? 0)) eqn:H1.
  { exists false. split; [reflexivity|]. split; [discriminate|]. intros (_ & _ & _ & _ & _ & H & _). clear - H1 MH H. lia. }
  assert (RH : 1 <= cu_h C < P) by (clear - H1 MH; lia).
  destruct (mulu1_spec c (zero c) n (cu_h C) (zst c p Mp) Vn ltac:(rewrite <- B_eq; clear - Hh; lia) Rn) as (Vm & Em & _).
  assert (S1 : valid c (subs1 c false (zero c) p 1) /\ value (subs1 c false (zero c) p 1) = P - 1)
    by (apply subs1_spec; [apply (zst _ _ Mp)|apply Mp|unfold int32; lia|apply (room_1 _ _ Mp)|discriminate]).
  destruct S1 as (Vs & Es). destruct (compare_claim c _ _ Vm Vs) as (-> & _). rewrite Em, Es.
  destruct (Z.eqb_spec (value n * cu_h C) (P - 1)) as [E|E].
  - exists false. split; [reflexivity|]. split; [discriminate|]. tauto.
  - exists true. split; [reflexivity|]. tauto.
Qed.
Lemma curve_verify_claim : valid c (cu_a C) -> valid c (cu_b C) -> good2 c p (cu_g C) -> valid c n -> room c (size n + 1) -> 0 <= cu_h C < 2 ^ 32 ->
  exists v, curve_verify c C = Ok v /\ (v = true <->
    0 < value n /\ 0 <= value (cu_a C) < P /\ 0 <= value (cu_b C) < P /\ (4 * value (cu_a C) ^ 3 + 27 * value (cu_b C) ^ 2) mod P <> 0 /\
    (aff_pt p Pp (cu_g C) <> Inf /\ on_curve (kval p Pp (cu_a C)) (kval p Pp (cu_b C)) (aff_pt p Pp (cu_g C)) /\ (zmul (kval p Pp (cu_a C)) (value n) (aff_pt p Pp (cu_g C)) = Inf \/ (value (cu_b C) = 0 /\ zmul (kval p Pp (cu_a C)) (value n) (aff_pt p Pp (cu_g C)) = origin))) /\
    1 <= cu_h C < P /\ value n * cu_h C <> P - 1).
Proof.
  intros Va Vb GG Vn. apply curve_verify_gen; auto. intros CO. destruct (Z.eq_dec (value (cu_b C)) 0) as [B0|B0].
  - destruct (aff_valid_cls c p Pp _ _ CO B0 n (cu_g C) GG Vn) as (v & K & H). exists v. split; [exact K|]. rewrite H. tauto.
  - destruct (aff_valid_claim c p Pp _ _ CO B0 n (cu_g C) GG Vn) as (v & K & H). exists v. split; [exact K|]. rewrite H. tauto.
Qed.
End CV.

(** *** what the last check does *)
(** y^2 = x^3 - 3x + 26 over GF(251) with the wrong cofactor 2 *)
Definition E251h : curve := small_curve 251 248 26 2 167 223 2.
Lemma prime_251h : prime (value (cu_p E251h)). Proof. apply small_prime; vm_compute; reflexivity. Qed.
Lemma E251h_ok : ecdsa_curve ex_c E251h prime_251h.
Proof. apply small_ok; [exact prime_223|lia|lia|lia|lia|lia|lia|vm_compute; discriminate|vm_compute; reflexivity|reflexivity]. Qed.
(** y^2 = x^3 + x + 10 over GF(47) has 46 points; (1, 23) generates a subgroup of order 23 *)
Definition E47 : curve := small_curve 47 1 10 1 23 23 2.
Lemma prime_E47 : prime (value (cu_p E47)). Proof. apply small_prime; vm_compute; reflexivity. Qed.
Lemma prime_23 : prime 23. Proof. apply small_prime; vm_compute; reflexivity. Qed.
Lemma E47_ok : ecdsa_curve ex_c E47 prime_E47.
Proof. apply small_ok; [exact prime_23|lia|lia|lia|lia|lia|lia|vm_compute; discriminate|vm_compute; reflexivity|reflexivity]. Qed.
Lemma verify_accepts_refute : exists c C (Pp : prime (value (cu_p C))), ecdsa_curve c C Pp /\ curve_verify c C = Ok true /\
  (value (cu_p C) + 1 - value (cu_n C) * cu_h C) ^ 2 > 4 * value (cu_p C).
Proof. exists ex_c, E251h, prime_251h. split; [exact E251h_ok|]. split; vm_compute; reflexivity. Qed.
Lemma verify_rejects_refute : exists c C (Pp : prime (value (cu_p C))), ecdsa_curve c C Pp /\ curve_verify c C = Ok false /\
  zmul (kval (cu_p C) Pp (cu_a C)) (value (cu_n C)) (aff_pt (cu_p C) Pp (cu_g C)) = Inf /\ aff_pt (cu_p C) Pp (cu_g C) <> Inf /\ 1 <= cu_h C < value (cu_p C) /\
  (value (cu_p C) + 1 - value (cu_n C) * cu_h C) ^ 2 <= 4 * value (cu_p C).
Proof.
  exists ex_c, E47, prime_E47. split; [exact E47_ok|]. split; [vm_compute; reflexivity|]. split; [apply not_finite; vm_compute; reflexivity|]. split; [apply finite_neq; vm_compute; reflexivity|].
  split; [vm_compute; split; [discriminate|reflexivity]|vm_compute; discriminate].
Qed.
(** the modulus is not checked: y^2 = x^3 + 6x + 28 modulo 35 with the generator (1, 0) and n = 2 *)
Definition E35 : curve := small_curve 35 6 28 1 0 2 1.
Lemma verify_composite_refute : exists c C, modulus_ok c (cu_p C) /\ cu_coeffs c C = coeffs_of c (cu_p C) (cu_a C) (cu_b C) /\ ~ prime (value (cu_p C)) /\ Z.odd (value (cu_p C)) = true /\
  Z.gcd (4 * value (cu_a C) ^ 3 + 27 * value (cu_b C) ^ 2) (value (cu_p C)) = 1 /\ curve_verify c C = Ok true.
Proof.
  exists ex_c, E35. split; [apply small_mod; lia|]. split; [reflexivity|]. split; [|split; [reflexivity|split; vm_compute; reflexivity]].
  intros H. pose proof (prime_divisors _ H 5 ltac:(exists 7; vm_compute; reflexivity)) as D. vm_compute in D. destruct D as [D|[D|[D|D]]]; discriminate.
Qed.
Lemma curve_verify_std c C (Pp : prime (value (cu_p C))) : modulus_ok c (cu_p C) -> cu_coeffs c C = coeffs_of c (cu_p C) (cu_a C) (cu_b C) ->
  valid c (cu_a C) -> valid c (cu_b C) -> good2 c (cu_p C) (cu_g C) -> valid c (cu_n C) -> room c (size (cu_n C) + 1) -> 0 <= cu_h C < 2 ^ 32 ->
  exists v, curve_verify c C = Ok v /\ (v = true <->
    3 < value (cu_p C) /\ 0 < value (cu_n C) /\ 0 <= value (cu_a C) < value (cu_p C) /\ 0 <= value (cu_b C) < value (cu_p C) /\ (4 * value (cu_a C) ^ 3 + 27 * value (cu_b C) ^ 2) mod value (cu_p C) <> 0 /\
    (aff_pt (cu_p C) Pp (cu_g C) <> Inf /\ on_curve (kval (cu_p C) Pp (cu_a C)) (kval (cu_p C) Pp (cu_b C)) (aff_pt (cu_p C) Pp (cu_g C)) /\
      (zmul (kval (cu_p C) Pp (cu_a C)) (value (cu_n C)) (aff_pt (cu_p C) Pp (cu_g C)) = Inf \/
       (value (cu_b C) = 0 /\ zmul (kval (cu_p C) Pp (cu_a C)) (value (cu_n C)) (aff_pt (cu_p C) Pp (cu_g C)) = origin))) /\
    1 <= cu_h C < value (cu_p C) /\ value (cu_n C) * cu_h C <> value (cu_p C) - 1).
Proof.
  intros Mp EC Va Vb GG Vn Rn Hh. destruct (Z.lt_ge_cases 3 (value (cu_p C))) as [P3|P3].
  - destruct (curve_verify_claim c C Mp P3 Pp (fun _ _ => EC) Va Vb GG Vn Rn Hh) as (v & K & H). exists v. split; [exact K|]. rewrite H. tauto.
  - exists false. split; [|split; [discriminate|intros (H & _); lia]]. unfold curve_verify. pose proof (compares1_spec c (cu_p C) 3 (proj1 Mp) ltac:(unfold int32; lia)) as M3. unfold cmp_result in M3.
    replace (compares1 (cu_p C) 3 >? 0) with false by lia. reflexivity.
Qed.
Lemma named_holds wasm m : In m named_curves -> exists C, named_curve wasm m = Ok C /\
  holds (named_cap wasm m) C (hexval (pm_p m)) (hexval (pm_a m)) (hexval (pm_b m)) (hexval (pm_gx m)) (hexval (pm_gy m)) (hexval (pm_n m)) (pm_h m).
Proof. intros H. apply named_claim, params_in, H. Qed.
Lemma named_consistent m : In m named_curves ->
  consistent (hexval (pm_p m)) (hexval (pm_a m)) (hexval (pm_b m)) (hexval (pm_gx m)) (hexval (pm_gy m)) (hexval (pm_n m)) (pm_h m) /\
  bitlen (hexval (pm_p m)) = pm_bits m /\ hexval (pm_n m) < hexval (pm_p m) <= 2 * hexval (pm_n m) /\ hexval (pm_b m) <> 0.
Proof. intros H. destruct (params_parts m (params_in m H)) as (_ & _ & _ & BL & CC & N & PN & B0 & _). split; [exact CC|]. split; [exact BL|]. split; [lia|exact B0]. Qed.
Lemma named_ecdsa wasm m C (Pp : prime (value (cu_p C))) : In m named_curves -> named_curve wasm m = Ok C -> prime (hexval (pm_n m)) -> ecdsa_curve (named_cap wasm m) C Pp.
Proof.
  intros H K Pn. destruct (named_holds wasm m H) as (C' & K' & HH). rewrite K in K'. injection K' as <-. destruct (params_parts m (params_in m H)) as (_ & _ & P8 & _ & CC & _).
  apply (holds_ecdsa _ C _ _ _ _ _ _ _ Pp HH CC P8 Pn).
Qed.
