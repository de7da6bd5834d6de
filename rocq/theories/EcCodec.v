(** Decompression and the SEC1 encoding of points. *)
From Coq Require Import List ZArith Znumtheory Bool Lia.
From Verif Require Import Outcome LoopModel WordsModel WordsSpec UtilsSpec WordsProofs BigintModel BigintSpec BigintProofs BigintBits BigintBytes BigintClaims NumModel NumProofs JacobiSpec FpModel FpSpec FpProofs FpSqrt FpClaims EcGroup ZpField EcModel EcSpec EcFeSpec EcTransfer EcCurveModel EcClaims EcLaws EcCurveSpec.
Import ListNotations.
Open Scope Z_scope.

Lemma square_dec a p : 0 < p -> square_mod a p \/ ~ square_mod a p.
Proof.
  intros Hp. assert (H : forall n, (exists x, 0 <= x < Z.of_nat n /\ (x * x) mod p = a mod p) \/ ~ (exists x, 0 <= x < Z.of_nat n /\ (x * x) mod p = a mod p)).
  { induction n as [|n [IH|IH]].
    - right. intros (x & H & _). lia.
    - left. destruct IH as (x & H & E). exists x. split; [lia|exact E].
    - destruct (Z.eq_dec ((Z.of_nat n * Z.of_nat n) mod p) (a mod p)) as [E|E].
      + left. exists (Z.of_nat n). split; [lia|exact E].
      + right. intros (x & H & E'). destruct (Z.eq_dec x (Z.of_nat n)) as [->|N]; [auto|]. apply IH. exists x. split; [lia|exact E']. }
  destruct (H (Z.to_nat p)) as [(x & _ & E)|N]; [left; exists x; exact E|right]. intros (x & E). apply N. exists (x mod p).
  split; [rewrite Z2Nat.id by lia; apply Z.mod_pos_bound; lia|]. rewrite <- Zmult_mod. exact E.
Qed.

Section CURVE.
Variable c : cap.
Variable C : curve.
Notation p := (cu_p C). Notation P := (value (cu_p C)).
Variable Pp : prime P.
Hypothesis CB : curve_base c C Pp.
Lemma cHp : modulus_ok c p. Proof. apply CB. Qed.
Lemma cP3 : 3 < P. Proof. apply CB. Qed.
Lemma cHa : reduced c p (cu_a C). Proof. apply CB. Qed.
Lemma cHb : reduced c p (cu_b C). Proof. apply CB. Qed.
Lemma p_odd : Z.odd P = true.
Proof.
  pose proof cP3. rewrite <- Z.negb_even. destruct (Z.even P) eqn:E; [|reflexivity]. apply Z.even_spec in E. destruct E as (k & E).
  destruct (prime_divisors _ Pp 2) as [D|[D|[D|D]]]; try lia. exists k. lia.
Qed.
Lemma odd_neg y : 0 < y < P -> Z.odd ((- y) mod P) = negb (Z.odd y).
Proof.
  intros H. replace ((- y) mod P) with (P - y).
  - rewrite Z.odd_sub, p_odd. reflexivity.
  - apply Z.mod_unique with (-1); lia.
Qed.
Lemma bit0 y : elem c p y -> test_bit (fv y) 0 = Z.odd (value (fv y)).
Proof. intros (_ & V & R). rewrite (test_bit_claim c _ 0 V) by lia. rewrite Z.bit0_odd, Z.abs_eq by lia. reflexivity. Qed.

Lemma compute_y_claim x odd : elem c p x ->
  exists y, compute_y c C x odd = Ok y /\ elem c p y /\
    (abscissa C (value (fv x)) -> satisfies C (value (fv x)) (value (fv y))) /\
    (~ abscissa C (value (fv x)) -> value (fv y) = 0) /\
    (value (fv y) <> 0 -> Z.odd (value (fv y)) = odd).
Proof.
  intros Hx. pose proof cP3 as P3. unfold compute_y.
  destruct (fe_sqr_claim c p cHp x Hx) as (t1 & -> & E1 & V1). cbn [bind].
  destruct (fe_add_claim c p cHp t1 (mkfe (cu_a C) (Some p)) E1 (conj eq_refl cHa)) as (t2 & K2 & E2 & V2). unfold fe_add in K2. cbn [fv] in K2, V2. rewrite K2. cbn [bind].
  destruct (fe_mul_claim c p cHp t2 x E2 Hx) as (t3 & -> & E3 & V3). cbn [bind].
  destruct (fe_add_claim c p cHp t3 (mkfe (cu_b C) (Some p)) E3 (conj eq_refl cHb)) as (t4 & K4 & E4 & V4). unfold fe_add in K4. cbn [fv] in K4, V4. rewrite K4. cbn [bind].
  rewrite V1, Zplus_mod_idemp_l in V2. rewrite V2, Zmult_mod_idemp_l in V3. rewrite V3, Zplus_mod_idemp_l in V4.
  assert (V : value (fv t4) = rhs C (value (fv x)) mod P) by (rewrite V4; unfold rhs; f_equal; ring).
  destruct (fe_sqrt_claim c p t4 cHp Pp E4) as (y & -> & Ey & S1 & S2). cbn [bind]. rewrite (bit0 y Ey).
  assert (AS : abscissa C (value (fv x)) <-> square_mod (value (fv t4)) P).
  { unfold abscissa, satisfies, square_mod. rewrite V, Z.mod_mod by lia. tauto. }
  destruct (Bool.eqb odd (Z.odd (value (fv y)))) eqn:Q; cbn [negb].
  - exists y. split; [reflexivity|]. split; [exact Ey|]. apply Bool.eqb_prop in Q. split; [|split; [tauto|auto]].
    intros A. unfold satisfies. rewrite S1 by tauto. exact V.
  - destruct (fe_neg_claim c p cHp y Ey) as (z & -> & Ez & Vz). exists z. split; [reflexivity|]. split; [exact Ez|]. split; [|split].
    + intros A. unfold satisfies. rewrite Vz, <- Zmult_mod, Z.mul_opp_opp, S1 by tauto. exact V.
    + intros A. rewrite Vz, S2 by tauto. reflexivity.
    + intros NZ. destruct Ey as (_ & _ & Ry). rewrite Vz. rewrite odd_neg.
      * apply Bool.eqb_false_iff in Q. destruct odd, (Z.odd (value (fv y))); cbn; congruence.
      * destruct (Z.eq_dec (value (fv y)) 0) as [Z0|]; [|lia]. rewrite Vz, Z0 in NZ. exfalso. apply NZ. reflexivity.
Qed.
(** the ordinate is determined by its parity *)
Lemma ordinate_unique x y z : satisfies C x y -> satisfies C x z -> 0 <= y < P -> 0 <= z < P -> Z.odd y = Z.odd z -> y = z.
Proof.
  unfold satisfies. intros Sy Sz Ry Rz O. destruct (roots_claim P y z Pp ltac:(congruence)) as [E|E].
  - rewrite !Z.mod_small in E by lia. auto.
  - rewrite (Z.mod_small z) in E by lia. destruct (Z.eq_dec y 0) as [->|N]; [cbn in E; rewrite E; reflexivity|].
    rewrite E, odd_neg in O by lia. destruct (Z.odd y); discriminate.
Qed.
Lemma abscissa_dec x : abscissa C x \/ ~ abscissa C x.
Proof. pose proof cP3. destruct (square_dec (rhs C x) P ltac:(lia)) as [H1|H1]; [left|right]; exact H1. Qed.
Lemma valid_integer x : valid c x -> is_valid_integer p x = (0 <=? value x) && (value x <? P).
Proof.
  intros V. unfold is_valid_integer. rewrite (is_negative_spec c x V). pose proof (compare_spec c x p V (proj1 cHp)) as M. unfold cmp_result in M. lia.
Qed.
Lemma decompress_reduced x odd v : reduced c p x ->
  exists R, decompress_point c C x odd v = Ok R /\
    match R with
    | None => forall y, 0 <= y < P -> satisfies C (value x) y -> y = 0
    | Some (u, y) => u = mkfe x (Some p) /\ elem c p y /\ satisfies C (value x) (value (fv y)) /\ value (fv y) <> 0 /\ Z.odd (value (fv y)) = odd
    end.
Proof.
  intros Hx. pose proof Hx as (Vx & Rx). assert (Ex : elem c p (mkfe x (Some p))) by (split; [reflexivity|exact Hx]).
  unfold decompress_point, make_field_element.
  assert (K : (if v then check (is_valid_integer p x) else Ok tt) = Ok tt).
  { destruct v; [|reflexivity]. rewrite valid_integer by assumption. replace ((0 <=? value x) && (value x <? P)) with true by lia. reflexivity. }
  rewrite K. cbn [bind]. unfold decompress_fe. destruct (compute_y_claim _ odd Ex) as (y & -> & Ey & A & NA & O). cbn [bind fv] in *.
  destruct (fe_pred_claim c p cHp y y Ey Ey) as (_ & -> & _). destruct (Z.eqb_spec (value (fv y)) 0) as [Z0|NZ].
  - exists None. split; [reflexivity|]. rewrite Z0 in A. intros z Rz Sz.
    specialize (A (ex_intro _ z Sz)). unfold satisfies in *. assert (SQ : (z * z) mod P = (0 * 0) mod P) by congruence. clear - Rz SQ Pp.
    destruct (roots_claim P z 0 Pp SQ) as [E|E]; clear SQ; rewrite Z.mod_0_l in E by lia.
    + rewrite Z.mod_small in E by lia. auto.
    + destruct (Z.eq_dec z 0); [assumption|]. replace ((- z) mod P) with (P - z) in E by (apply Z.mod_unique with (-1); lia). lia.
  - unfold make_point_fe. cbn [bind]. eexists. split; [reflexivity|]. cbn [fv]. split; [reflexivity|]. split; [exact Ey|].
    split; [|split; [exact NZ|exact (O NZ)]]. destruct (abscissa_dec (value x)) as [D|D]; [auto|]. exfalso. auto.
Qed.

(** *** lengths *)
Lemma mag_abs x : valid c x -> 0 <= value x -> magnitude x = value x.
Proof. intros V H. rewrite (abs_magnitude c) by assumption. lia. Qed.
Lemma byte_length_pos x : valid c x -> 1 <= byte_length x. Proof. intros V. apply (byte_length_bounds c x V). Qed.
Lemma byte_length_mono x y : valid c x -> valid c y -> 0 <= value x <= value y -> byte_length x <= byte_length y.
Proof.
  intros Vx Vy H. destruct (byte_length_bounds c x Vx) as (A1 & A2 & A3). destruct (byte_length_bounds c y Vy) as (B1 & B2 & B3).
  rewrite (mag_abs x Vx) in * by lia. rewrite (mag_abs y Vy) in * by lia. destruct (Z_le_gt_dec (byte_length x) (byte_length y)) as [|G]; [assumption|].
  specialize (A3 ltac:(lia)). pose proof (Z.pow_le_mono_r 256 (byte_length y) (byte_length x - 1) ltac:(lia) ltac:(lia)). lia.
Qed.
Lemma p1 : valid c (subs1 c false (zero c) p 1) /\ value (subs1 c false (zero c) p 1) = P - 1.
Proof. apply subs1_spec; [exact (zst c p cHp)|apply cHp|unfold int32; lia|exact (room_1 c p cHp)|discriminate]. Qed.
(** p is not a power of 256, so p - 1 has as many bytes *)
Lemma byte_length_p1 : byte_length (subs1 c false (zero c) p 1) = byte_length p.
Proof.
  pose proof cP3 as P3. destruct p1 as (V & E). apply Z.le_antisymm; [apply byte_length_mono; try assumption; [apply cHp|lia]|].
  destruct (byte_length_bounds c p (proj1 cHp)) as (A1 & A2 & A3). destruct (byte_length_bounds c _ V) as (B1 & B2 & B3).
  rewrite (mag_abs p (proj1 cHp)) in * by lia. rewrite (mag_abs _ V), E in * by lia.
  destruct (Z_le_gt_dec (byte_length p) (byte_length (subs1 c false (zero c) p 1))) as [|G]; [assumption|exfalso].
  set (k := byte_length (subs1 c false (zero c) p 1)) in *. specialize (A3 ltac:(lia)).
  pose proof (Z.pow_le_mono_r 256 k (byte_length p - 1) ltac:(lia) ltac:(lia)). assert (Q : P = 256 ^ k) by lia.
  pose proof p_odd as O. rewrite Q, Z.odd_pow in O by lia. discriminate.
Qed.
Definition plen : nat := Z.to_nat (byte_length p).
Lemma plen_pos : Z.of_nat plen = byte_length p. Proof. unfold plen. pose proof (byte_length_pos p (proj1 cHp)). lia. Qed.
Lemma plen_room : room c (Nat.max 1 ((plen + 3) / 4)).
Proof.
  apply room_le with (2 * size p)%nat; [apply cHp|]. destruct cHp as (V & _). pose proof V as (_ & Sz & _).
  assert (byte_length p <= 4 * Z.of_nat (size p)).
  { destruct (byte_length_bounds c p V) as (A1 & A2 & A3). destruct (Z_le_gt_dec (byte_length p) (4 * Z.of_nat (size p))) as [|G]; [assumption|].
    specialize (A3 ltac:(lia)). pose proof (magnitude_range c p V) as R. rewrite Bn_pow2 in R. change 256 with (2 ^ 8) in A3. rewrite <- Z.pow_mul_r in A3 by lia.
    pose proof (Z.pow_le_mono_r 2 (32 * Z.of_nat (size p)) (8 * (byte_length p - 1)) ltac:(lia) ltac:(lia)). lia. }
  pose proof plen_pos. assert (((plen + 3) / 4 < size p + 1)%nat) by (apply Nat.div_lt_upper_bound; lia). lia.
Qed.
Lemma octets_digits v n : octets n v = digits v n.
Proof. induction n as [|n IH]; [reflexivity|]. rewrite digits_S, <- IH. reflexivity. Qed.
Lemma octets_spec n v : 0 <= v < 256 ^ Z.of_nat n -> all_bytes (octets n v) /\ length (octets n v) = n /\ be_value (octets n v) = v.
Proof. intros H. rewrite octets_digits. destruct (digits_spec v n) as (A & L & E). rewrite E, Z.mod_small by assumption. auto. Qed.
Lemma p_octets v : 0 <= v < P -> 0 <= v < 256 ^ Z.of_nat plen.
Proof. intros H. rewrite plen_pos. destruct (byte_length_bounds c p (proj1 cHp)) as (_ & A & _). rewrite (mag_abs p (proj1 cHp)) in A by lia. lia. Qed.
Lemma to_bytes_octets x : elem c p x -> fe_to_bytes c x = octets plen (value (fv x)).
Proof.
  intros Hx. pose proof Hx as (M & V & R). unfold fe_to_bytes, fe_max_byte_length, fe_to_bytes_len.
  destruct (fe_pred_claim c p cHp x x Hx Hx) as (-> & _). rewrite M, byte_length_p1.
  destruct (bytes_of_spec c (fv x) V) as (A & L & E & _). unfold to_bytes. rewrite (mag_abs _ V) in E by lia.
  destruct (octets_spec plen (value (fv x)) (p_octets _ R)) as (OA & OL & OE). pose proof plen_pos as PL.
  assert (LE : byte_length (fv x) <= byte_length p) by (apply byte_length_mono; [exact V|apply cHp|lia]).
  destruct (byte_length p >? Z.of_nat (length (bytes_of (fv x)))) eqn:G; apply be_inj; try assumption.
  - apply bytes_app. split; [|exact A]. apply Forall_forall. intros b Hb. apply repeat_spec in Hb. subst b. unfold UtilsSpec.is_byte. lia.
  - rewrite app_length, repeat_length. lia.
  - rewrite be_repeat0. congruence.
  - lia.
  - congruence.
Qed.
Lemma decode_octets v : 0 <= v < P -> exists r, of_bytes c (octets plen v) = Ok r /\ reduced c p r /\ value r = v.
Proof.
  intros H. destruct (octets_spec plen v (p_octets v H)) as (A & L & E). destruct (of_bytes_claim c (octets plen v) A) as (r & K & (V & _) & Er).
  - rewrite L. exact plen_room.
  - exists r. rewrite K, Er, E. split; [reflexivity|]. split; [split; [exact V|lia]|reflexivity].
Qed.

(** *** the curve equation over integers and over the field *)
Notation F := (GFp (cu_p C) Pp).
Notation mk := (zmk P Pp).
Lemma P1 : 1 < P. Proof. pose proof cP3. lia. Qed.
Lemma hom_add x y : fadd (mk x : F) (mk y) = mk (x + y). Proof. apply zmk_eq. rewrite !zval_mk. symmetry. apply Zplus_mod. Qed.
Lemma hom_mul x y : fmul (mk x : F) (mk y) = mk (x * y). Proof. apply zmk_eq. rewrite !zval_mk. symmetry. apply Zmult_mod. Qed.
Lemma on_satisfies x y : on_curve (kval p Pp (cu_a C)) (kval p Pp (cu_b C)) (Aff (fval p Pp x) (fval p Pp y)) <-> satisfies C (value (fv x)) (value (fv y)).
Proof.
  unfold on_curve, fval, kval. rewrite !hom_mul, !hom_add. unfold satisfies, rhs. split.
  - intros H. apply (f_equal zval) in H. exact H.
  - intros H. apply zmk_eq. exact H.
Qed.
Lemma id_values x y : elem c p x -> elem c p y -> aff_is_identity (fe_ops c p) (Some (x, y)) = (value (fv x) =? 0) && (value (fv y) =? 0).
Proof.
  intros Hx Hy. unfold aff_is_identity, fe_ops, o_is_zero. destruct (fe_pred_claim c p cHp x x Hx Hx) as (_ & -> & _). destruct (fe_pred_claim c p cHp y y Hy Hy) as (_ & -> & _). reflexivity.
Qed.
(** *** encoding *)
Lemma encode_point_claim Q compress : good2 c p Q -> encode_point c C Q compress =
  match Q with
  | None => [0]
  | Some (x, y) => if (value (fv x) =? 0) && (value (fv y) =? 0) then [0]
                   else if compress then (if Z.odd (value (fv y)) then 3 else 2) :: octets (Z.to_nat (byte_length p)) (value (fv x))
                   else 4 :: octets (Z.to_nat (byte_length p)) (value (fv x)) ++ octets (Z.to_nat (byte_length p)) (value (fv y))
  end.
Proof.
  intros G. unfold encode_point. destruct Q as [[x y]|]; [|reflexivity]. destruct G as (Hx & Hy). rewrite id_values by assumption.
  destruct ((value (fv x) =? 0) && (value (fv y) =? 0)); [reflexivity|]. rewrite !to_bytes_octets by assumption. rewrite (bit0 y Hy).
  destruct compress; [|reflexivity]. destruct (Z.odd (value (fv y))); reflexivity.
Qed.
Lemma encode_length_claim Q compress : good2 c p Q ->
  all_bytes (encode_point c C Q compress) /\
  length (encode_point c C Q compress) =
    (if aff_is_identity (fe_ops c p) Q then 1 else if compress then 1 + Z.to_nat (byte_length p) else 1 + 2 * Z.to_nat (byte_length p))%nat /\
  256 ^ (byte_length p - 1) <= P < 256 ^ byte_length p.
Proof.
  intros G. split; [|split].
  - rewrite encode_point_claim by assumption. destruct Q as [[x y]|]; [|repeat constructor; unfold is_byte; lia]. destruct G as ((_ & _ & Rx) & (_ & _ & Ry)).
    destruct (octets_spec _ _ (p_octets _ Rx)) as (Ax & _). destruct (octets_spec _ _ (p_octets _ Ry)) as (Ay & _). unfold plen in *.
    destruct ((value (fv x) =? 0) && (value (fv y) =? 0)); [repeat constructor; unfold is_byte; lia|].
    destruct compress; constructor; [destruct (Z.odd _); unfold is_byte; lia|exact Ax|unfold is_byte; lia|]. apply bytes_app. auto.
  - rewrite encode_point_claim by assumption. destruct Q as [[x y]|]; [|reflexivity]. destruct G as (Hx & Hy). rewrite id_values by assumption.
    destruct ((value (fv x) =? 0) && (value (fv y) =? 0)); [reflexivity|]. destruct Hx as (_ & _ & Rx), Hy as (_ & _ & Ry).
    destruct (octets_spec _ _ (p_octets _ Rx)) as (_ & Lx & _). destruct (octets_spec _ _ (p_octets _ Ry)) as (_ & Ly & _). unfold plen in *.
    destruct compress; cbn [length]; rewrite ?app_length; lia.
  - pose proof cP3. destruct (byte_length_bounds c p (proj1 cHp)) as (A1 & A2 & A3). rewrite (mag_abs p (proj1 cHp)) in * by lia. split; [|lia].
    destruct (Z.eq_dec (byte_length p) 1) as [->|]; [cbn; lia|apply A3; lia].
Qed.
(** *** decoding *)
Notation pl := (Z.to_nat (byte_length (cu_p C))).
Lemma decode_word d : all_bytes d -> length d = pl -> exists r, of_bytes c d = Ok r /\ valid c r /\ value r = be_value d /\ 0 <= be_value d.
Proof.
  intros A L. destruct (of_bytes_claim c d A) as (r & K & (V & _) & E); [rewrite L; exact plen_room|]. exists r. pose proof (be_range d A). repeat (split; auto); lia.
Qed.
Lemma decode_types_claim e : decode_point c C [] = Abort /\
  (forall t d, e = t :: d -> 0 <= t ->
    (t = 0 -> decode_point c C e = Ok None) /\
    (t = 1 \/ 4 < t -> decode_point c C e = Abort) /\
    (t = 2 \/ t = 3 -> length d <> pl -> decode_point c C e = Abort) /\
    (t = 4 -> length d <> (2 * pl)%nat -> decode_point c C e = Abort)).
Proof.
  split; [reflexivity|]. intros t d -> Ht. unfold decode_point. split; [intros ->; reflexivity|]. split; [|split].
  - intros [->|H]; [reflexivity|]. replace ((t <=? 4) && negb (t =? 1)) with false by lia. reflexivity.
  - intros H L. replace ((t <=? 4) && negb (t =? 1)) with true by lia. cbn [check bind]. replace ((t =? 2) || (t =? 3)) with true by lia.
    replace (Nat.eqb (length (t :: d)) (pl + 1)) with false; [reflexivity|]. symmetry. apply Nat.eqb_neq. cbn [length]. lia.
  - intros -> L. cbn [Z.leb Z.compare Pos.compare Pos.compare_cont Z.eqb Pos.eqb negb andb orb check bind].
    replace (Nat.eqb (length (4 :: d)) (2 * pl + 1)) with false; [reflexivity|]. symmetry. apply Nat.eqb_neq. cbn [length]. lia.
Qed.
Lemma decode_compressed_claim t d : t = 2 \/ t = 3 -> all_bytes d -> length d = pl -> be_value d < P ->
  exists R, decode_point c C (t :: d) = Ok R /\ good2 c p R /\
    match R with
    | None => forall y, 0 <= y < P -> satisfies C (be_value d) y -> y = 0
    | Some (x, y) => value (fv x) = be_value d /\ satisfies C (be_value d) (value (fv y)) /\ value (fv y) <> 0 /\ Z.odd (value (fv y)) = Z.odd t
    end.
Proof.
  intros Ht A L B. unfold decode_point. replace ((t <=? 4) && negb (t =? 1)) with true by lia. cbn [check bind]. replace ((t =? 2) || (t =? 3)) with true by lia.
  replace (Nat.eqb (length (t :: d)) (pl + 1)) with true by (symmetry; apply Nat.eqb_eq; cbn [length]; lia). cbn [check bind].
  rewrite <- L, firstn_all. destruct (decode_word d A L) as (r & -> & V & E & Z0). cbn [bind].
  assert (Rr : reduced c p r) by (split; [exact V|lia]). destruct (decompress_reduced r (Z.odd t) false Rr) as (R & -> & H). exists R. split; [reflexivity|]. rewrite E in H.
  destruct R as [[x y]|]; [|split; [exact I|exact H]]. destruct H as (-> & Hy & S1 & S2 & S3). split; [split; [split; [reflexivity|exact Rr]|exact Hy]|]. auto.
Qed.
Lemma decode_uncompressed_claim d : all_bytes d -> length d = (2 * pl)%nat ->
  let x := be_value (firstn pl d) in let y := be_value (skipn pl d) in
  (P <= x \/ P <= y -> decode_point c C (4 :: d) = Abort) /\
  (x < P -> y < P -> exists u v, decode_point c C (4 :: d) = Ok (Some (u, v)) /\ elem c p u /\ elem c p v /\ value (fv u) = x /\ value (fv v) = y).
Proof.
  intros A L x y. unfold decode_point. cbn [Z.leb Z.compare Pos.compare Pos.compare_cont Z.eqb Pos.eqb negb andb orb check bind].
  replace (Nat.eqb (length (4 :: d)) (2 * pl + 1)) with true by (symmetry; apply Nat.eqb_eq; cbn [length]; lia). cbn [check bind].
  destruct (decode_word (firstn pl d)) as (r & -> & V & E & Z0); [apply bytes_firstn, A|rewrite firstn_length; lia|]. cbn [bind].
  rewrite (firstn_all2 (skipn pl d)) by (rewrite skipn_length; lia).
  destruct (decode_word (skipn pl d)) as (s & -> & V' & E' & Z0'); [apply bytes_skipn, A|rewrite skipn_length; lia|]. cbn [bind]. fold x in E, Z0. fold y in E', Z0'.
  unfold make_point. rewrite !valid_integer, E, E' by assumption. split.
  - intros [H|H].
    + replace ((0 <=? x) && (x <? P)) with false by lia. reflexivity.
    + replace ((0 <=? y) && (y <? P)) with false by lia. destruct ((0 <=? x) && (x <? P)); reflexivity.
  - intros Hx Hy. replace ((0 <=? x) && (x <? P)) with true by lia. replace ((0 <=? y) && (y <? P)) with true by lia. cbn [check bind make_field_element make_point_fe].
    do 2 eexists. split; [reflexivity|]. cbn [fv]. split; [split; [reflexivity|split; [exact V|cbn [fv]; lia]]|]. split; [split; [reflexivity|split; [exact V'|cbn [fv]; lia]]|]. auto.
Qed.
(** *** round trip *)
Lemma eqb_values x y u v : elem c p x -> elem c p y -> elem c p u -> elem c p v -> value (fv x) = value (fv u) -> value (fv y) = value (fv v) ->
  aff_eqb (fe_ops c p) (Some (x, y)) (Some (u, v)) = true.
Proof.
  intros Hx Hy Hu Hv E1 E2. cbn. destruct (fe_pred_claim c p cHp x u Hx Hu) as (_ & _ & _ & ->). destruct (fe_pred_claim c p cHp y v Hy Hv) as (_ & _ & _ & ->). rewrite E1, E2, !Z.eqb_refl. reflexivity.
Qed.
Lemma octets_split n x y : length (octets n x) = n -> firstn n (octets n x ++ octets n y) = octets n x /\ skipn n (octets n x ++ octets n y) = octets n y.
Proof. intros L. split; [rewrite firstn_app|rewrite skipn_app]; rewrite L, Nat.sub_diag; [rewrite firstn_all2 by lia; cbn; apply app_nil_r|rewrite skipn_all2 by lia; reflexivity]. Qed.
Lemma roundtrip_claim Q compress : good2 c p Q ->
  (compress = true -> match Q with None => True | Some (x, y) => satisfies C (value (fv x)) (value (fv y)) /\ value (fv y) <> 0 end) ->
  exists R, decode_point c C (encode_point c C Q compress) = Ok R /\ good2 c p R /\ aff_eqb (fe_ops c p) R Q = true.
Proof.
  intros G H. rewrite encode_point_claim by assumption. destruct Q as [[x y]|]; [|exists None; repeat split]. destruct G as (Hx & Hy). pose proof Hx as (_ & _ & Rx). pose proof Hy as (_ & _ & Ry).
  destruct ((value (fv x) =? 0) && (value (fv y) =? 0)) eqn:Z0.
  { exists None. split; [reflexivity|]. split; [exact I|]. cbn [aff_eqb o_eq0 fe_ops]. pose proof (compares1_spec c (fv x) 0 ltac:(apply Hx) ltac:(unfold int32; lia)) as M1. pose proof (compares1_spec c (fv y) 0 ltac:(apply Hy) ltac:(unfold int32; lia)) as M2.
    unfold cmp_result in *. lia. }
  destruct (octets_spec _ _ (p_octets _ Rx)) as (Ax & Lx & Ex). destruct (octets_spec _ _ (p_octets _ Ry)) as (Ay & Ly & Ey). unfold plen in *.
  destruct compress.
  - destruct (H eq_refl) as (S1 & NZ). set (t := if Z.odd (value (fv y)) then 3 else 2).
    assert (Ht : t = 2 \/ t = 3) by (unfold t; destruct (Z.odd _); auto). assert (Ot : Z.odd t = Z.odd (value (fv y))) by (unfold t; destruct (Z.odd _); reflexivity).
    destruct (decode_compressed_claim t (octets pl (value (fv x))) Ht Ax Lx ltac:(lia)) as (R & -> & GR & HR). exists R. split; [reflexivity|]. split; [exact GR|]. rewrite Ex in HR.
    destruct R as [[u v]|].
    + destruct HR as (E1 & S2 & N2 & O2). destruct GR as (Hu & Hv). apply eqb_values; try assumption. apply (ordinate_unique (value (fv x))); try assumption; [apply Hv|congruence].
    + exfalso. apply NZ. apply HR; assumption.
  - destruct (decode_uncompressed_claim (octets pl (value (fv x)) ++ octets pl (value (fv y)))) as (_ & D); [apply bytes_app; auto|rewrite app_length; lia|].
    destruct (octets_split pl (value (fv x)) (value (fv y)) Lx) as (F1 & F2). rewrite F1, F2, Ex, Ey in D.
    destruct D as (u & v & -> & Hu & Hv & E1 & E2); try lia. exists (Some (u, v)). split; [reflexivity|]. split; [split; assumption|]. apply eqb_values; assumption.
Qed.
End CURVE.
