(** The square root with assertions enabled computes what it computes in the release build. *)
From Coq Require Import List ZArith Znumtheory Bool Lia.
From Verif Require Import Outcome LoopModel LoopProofs WordsModel WordsSpec WordsProofs BigintModel BigintSpec BigintProofs BigintBytes BigintClaims NumModel NumProofs NumPow NumClaims JacobiSpec Residues Legendre JacobiProofs FpModel FpSpec FpProofs FpSqrt EcModel EcCurveModel EcdsaModel AssertModel AssertSpec AssertProofs AssertRefine AssertSim AssertExact AssertLoops AssertPow DebugEcModel DebugFp.
Import ListNotations.
Open Scope Z_scope.

Section SQRT.
Variable c : cap.
Variable p : bigint.
Hypothesis Hp : modulus_ok c p.
Hypothesis Pp : prime (value p).
Hypothesis Op : Z.odd (value p) = true.
Let Vp : valid c p. Proof. apply Hp. Qed.
Let P1 : 1 < value p. Proof. apply Hp. Qed.
Notation fits := (fits c p).
Let zst : storage_ok c (zero c). Proof. apply (FpProofs.zst c p Hp). Qed.

Lemma d_sqr_mod_eq x : fits x -> d_sqr_mod c x p = sqr_mod c x p.
Proof.
  intros (V & S). pose proof (d_mul_ok c false false (zero c) x x zst V V ltac:(discriminate) ltac:(discriminate)) as (H & _).
  destruct (H (room_sum c p Hp x x S S)) as (r & E & Vr & _). unfold d_sqr_mod, sqr_mod, d_sqr, sqr. rewrite E. cbn [bind snd].
  destruct (b_mul c false false (zero c) x x) as [Q|Q]; [congruence|]. rewrite E in Q. injection Q as <-. cbn [snd]. apply d_op_mod_eq; [exact Vr|exact Vp].
Qed.
(** a number the double capacity can multiply, possibly not reduced *)
Definition pfits (x : bigint) : Prop := fits x /\ 0 <= value x.
Lemma red_pfits x : reduced c p x -> pfits x. Proof. intros H. split; [apply (red_fits c p Hp), H|apply H]. Qed.
Lemma sqr_mod_pos x : pfits x -> exists r, d_sqr_mod c x p = Ok r /\ sqr_mod c x p = Ok r /\ reduced c p r.
Proof.
  intros ((V & S) & N). rewrite (d_sqr_mod_eq x) by (split; assumption). unfold sqr_mod, sqr.
  destruct (mul_spec c false false (zero c) x x zst V V (room_sum c p Hp x x S S) ltac:(discriminate) ltac:(discriminate)) as (r & -> & Vr & E). cbn [snd].
  destruct (op_mod_pos c p Hp r Vr) as (r' & -> & R & _); [rewrite E; apply Z.mul_nonneg_nonneg; assumption|]. eauto.
Qed.
Lemma mul_pos x y : pfits x -> pfits y -> exists r, d_fp_mul c x y p = Ok r /\ op_mod c (op_mul c x y) p = Ok r /\ reduced c p r.
Proof.
  intros (Fx & Nx) (Fy & Ny). rewrite (d_fp_mul_eq c p Hp x y Fx Fy). unfold fp_mul. destruct Fx as (Vx & Sx), Fy as (Vy & Sy).
  destruct (FpProofs.op_mul_val c p Hp x y Vx Vy Sx Sy) as (V & E). destruct (op_mod_pos c p Hp _ V) as (r' & -> & R & _); [rewrite E; apply Z.mul_nonneg_nonneg; assumption|]. eauto.
Qed.
Lemma sqr_mod_red x : reduced c p x -> exists r, d_sqr_mod c x p = Ok r /\ sqr_mod c x p = Ok r /\ reduced c p r.
Proof. intros H. apply sqr_mod_pos, red_pfits, H. Qed.
Lemma mul_red x y : reduced c p x -> reduced c p y -> exists r, d_fp_mul c x y p = Ok r /\ op_mod c (op_mul c x y) p = Ok r /\ reduced c p r.
Proof. intros H K. apply mul_pos; apply red_pfits; assumption. Qed.
Lemma modexp_fits x y : pfits x -> valid c y -> neg y = false -> exists r, d_op_modexp c x y p = Ok r /\ op_modexp c x y p = Ok r /\ pfits r.
Proof.
  intros ((V & S) & N) Vy Ny. rewrite (d_op_modexp_eq c p Hp x y) by (first [split; assumption|assumption]). unfold op_modexp.
  pose proof (modexp_spec c (zero c) x y p zst V Vy Vp N Ny ltac:(lia)) as H. destruct (modexp c (zero c) x y p) as [[r|]| | |]; try contradiction.
  - cbn [bind]. destruct H as (Vr & Pr & _ & H2 & H1 & H0). exists r. split; [reflexivity|]. split; [reflexivity|]. split; [|exact Pr]. split; [exact Vr|].
    assert (Py : 0 <= value y) by (pose proof (magnitude_range _ _ Vy); rewrite value_sgn, Ny; cbn; lia).
    destruct (Z.eq_dec (value y) 0) as [E|E]; [|destruct (Z.eq_dec (value y) 1) as [E'|E']].
    + apply (size_le c); [exact Vr|exact Vp|]. rewrite (H0 E). lia.
    + apply Nat.le_trans with (size x); [|exact S]. apply (size_le c); [exact Vr|exact V|]. rewrite (H1 E'). lia.
    + apply (size_le c); [exact Vr|exact Vp|]. specialize (H2 ltac:(lia)). lia.
  - exfalso. apply H. apply room_le with (2 * size p)%nat; [apply Hp|lia].
Qed.
Lemma d_find_m_eq k : forall m z, reduced c p z -> d_find_m c p k m z = find_m c p k m z.
Proof.
  induction k as [|k IH]; intros m z H; [reflexivity|]. cbn [d_find_m find_m]. destruct (sqr_mod_red z H) as (r & -> & -> & R). cbn [bind].
  destruct k as [|k]; [reflexivity|]. destruct (_ =? _); [reflexivity|]. apply IH, R.
Qed.
Lemma d_sqr_times_eq k : forall b, reduced c p b -> d_sqr_times c p k b = sqr_times c p k b.
Proof. induction k as [|k IH]; intros b H; [reflexivity|]. cbn [d_sqr_times sqr_times]. destruct (sqr_mod_red b H) as (r & -> & -> & R). cbn [bind]. apply IH, R. Qed.
Lemma of_int_fits k : - 2 ^ 31 < k < 2 ^ 31 -> fits (of_int c k).
Proof.
  intros K. destruct (of_int_value c k (valid_room1 c p Vp) ltac:(lia)) as ((V & _) & E). split; [exact V|].
  apply Nat.le_trans with 1%nat; [|apply Vp]. apply (size_le_iff c _ 1 V ltac:(lia)). rewrite Bn_pow2, (abs_magnitude c), E by exact V. cbn. lia.
Qed.
Lemma d_tonelli_eq fuel : forall cc r t s, reduced c p cc -> reduced c p r -> reduced c p t -> same fits (d_tonelli fuel c p cc r t s) (tonelli fuel c p cc r t s).
Proof.
  induction fuel as [|fuel IH]; intros cc r t s Hc Hr Ht; cbn [d_tonelli tonelli]; destruct (_ =? _); try (apply same_ok, (red_fits c p Hp), Hr).
  - split; [reflexivity|discriminate].
  - rewrite (d_find_m_eq s 0 t Ht). destruct (find_m c p s 0 t) as [[m|]| | |]; cbn [bind]; try (split; [reflexivity|discriminate]); [|apply same_ok, of_int_fits; lia].
    rewrite (d_sqr_times_eq _ cc Hc). destruct (sqr_times_val c p Hp Op (s - m - 1)%nat cc Hc) as (b & -> & Rb & _). cbn [bind].
    destruct (sqr_mod_red b Rb) as (c1 & -> & -> & R1). cbn [bind]. destruct (mul_red r b Hr Rb) as (r1 & -> & -> & Rr). cbn [bind].
    destruct (mul_red t c1 Ht R1) as (t1 & -> & -> & Rt). cbn [bind]. apply IH; assumption.
Qed.
Lemma d_adds1_fits s z x k : storage_ok c z -> fits x -> int32 k -> k <> - 2 ^ 31 -> (s = true -> z = x) -> d_adds1 c s z x k = Ok (adds1 c s z x k).
Proof. intros Hz (V & S) K N Q. eapply exact_eq; [apply (d_adds1_ok c s z x k Hz V K Q)|apply b_adds1|]. split; [exact N|]. intros _. apply (room_r c p Hp x S). Qed.
Lemma d_subs1_fits s z x k : storage_ok c z -> fits x -> int32 k -> k <> - 2 ^ 31 -> (s = true -> z = x) -> d_subs1 c s z x k = Ok (subs1 c s z x k).
Proof. intros Hz (V & S) K N Q. eapply exact_eq; [apply (d_subs1_ok c s z x k Hz V K Q)|apply b_subs1|]. split; [exact N|]. intros _. apply (room_r c p Hp x S). Qed.
Lemma d_divs1_eq x k : valid c x -> int32 k -> k <> 0 -> k <> - 2 ^ 31 -> d_divs1 c (zero c) x k = divs1 c (zero c) x k.
Proof.
  intros V K N0 N. destruct (b_divs1 c (zero c) x k) as [E|E]; [|exact E]. destruct (d_divs1_exact c (zero c) x k (zero_storage c x V) V K) as (H & _).
  destruct (H (conj N0 N)) as (r & E' & _). congruence.
Qed.
Lemma d_find_z_eq : run_loop (32 * size p + 1) (d_find_z_step c p) (of_int c 2) = run_loop (32 * size p + 1) (find_z_step c p) (of_int c 2).
Proof.
  destruct (nonresidue (value p) Pp Op) as (z0 & R0 & G0). pose proof (valid_room1 c p Vp) as R1.
  apply (run_eq _ _ (fun z => valid c z /\ 2 <= value z <= z0)).
  - intros z (Vz & Rz). assert (Hz : reduced c p z) by (split; [exact Vz|lia]). unfold d_find_z_step, find_z_step. rewrite (d_jacobi_eq c z p Vz Vp Op).
    destruct (jacobi c z p) as [j| | |]; cbn [bind step_of]; try reflexivity. destruct (j =? -1); [reflexivity|].
    rewrite (d_adds1_fits true z z 1 (valid_storage _ _ Vz) (red_fits c p Hp z Hz)) by (unfold int32; first [reflexivity|lia]). reflexivity.
  - intros z s' (Vz & Rz). assert (Hz : reduced c p z) by (split; [exact Vz|lia]). unfold find_z_step.
    rewrite (jacobi_gs_spec c z p Vz Vp (Op' c p Hp Op)).
    assert (Rel : rel_prime (value z) (value p)). { apply (coprime (value p) Pp). intros D. apply Z.divide_pos_le in D; lia. }
    destruct (rel_prime_dec (value z) (value p)) as [_|N]; [|contradiction].
    destruct (Z.eqb_spec (gs (value z) (value p)) (-1)) as [E|E]; [discriminate|]. intros Q. injection Q as <-.
    destruct (adds1_spec c true z z 1 (valid_storage _ _ Vz) Vz ltac:(unfold int32; lia) (room_r c p Hp z (red_size c p Hp z Hz)) ltac:(reflexivity)) as (V' & E').
    assert (value z <> z0) by (intros Q; apply E; rewrite Q; exact G0). split; [exact V'|lia].
  - destruct (of_int_value c 2 R1 ltac:(lia)) as ((V & _) & ->). split; [exact V|lia].
Qed.
Lemma d_fp_sqrt_same n : pfits n -> same fits (d_fp_sqrt c n p) (fp_sqrt c n p).
Proof.
  intros Hn. pose proof Hn as ((Vn & Sn) & Rn). unfold d_fp_sqrt, fp_sqrt. rewrite (d_jacobi_eq c n p Vn Vp Op). destruct (jacobi c n p) as [j| | |]; cbn [bind]; try (split; [reflexivity|discriminate]).
  destruct (j =? 1); cbn [negb]; [|apply same_ok, of_int_fits; lia]. rewrite (d_mods1_eq c (zero c) p 4 Vp) by (unfold int32; lia). destruct (mods1 (zero c) p 4) as [p4| | |]; cbn [bind]; try (split; [reflexivity|discriminate]).
  destruct (compares1 p4 3 =? 0).
  - rewrite (d_adds1_fits false (zero c) p 1 zst (p_fits c p Hp)) by (unfold int32; first [discriminate|lia]). cbn [bind].
    destruct (adds1_spec c false (zero c) p 1 zst Vp ltac:(unfold int32; lia) (room_r c p Hp p (le_n _)) ltac:(discriminate)) as (V1 & E1).
    rewrite (d_divs1_eq _ 4 V1) by (unfold int32; lia). destruct (divs1_spec c (zero c) _ 4 zst V1 ltac:(unfold int32; lia) ltac:(lia)) as (e & Ee & Ve & _). rewrite Ee. cbn [bind].
    assert (Ne : neg e = false). { apply (divs1_pos c (zero c) _ 4 e) in Ee; [exact Ee| |reflexivity|lia]. apply (pos_neg c _ V1); lia. }
    destruct (modexp_fits n e Hn Ve Ne) as (r & -> & -> & (Fr & _)). apply same_ok, Fr.
  - rewrite (d_subs1_fits false (zero c) p 1 zst (p_fits c p Hp)) by (unfold int32; first [discriminate|lia]). cbn [bind].
    destruct (subs1_spec c false (zero c) p 1 zst Vp ltac:(unfold int32; lia) (room_r c p Hp p (le_n _)) ltac:(discriminate)) as (V1 & E1).
    pose proof (d_ctz_eq c (subs1 c false (zero c) p 1) V1) as Q. unfold d_count_trailing_zero, count_trailing_zero in Q. rewrite Q. clear Q.
    destruct (ctz_spec c (subs1 c false (zero c) p 1) V1 ltac:(lia)) as (q & s & Eq & Vq & S0 & Es & Oq & Pq). unfold count_trailing_zero in Eq. rewrite Eq. cbn [bind].
    rewrite E1 in Es. assert (Hq : reduced c p q). { split; [exact Vq|]. pose proof (Z.pow_pos_nonneg 2 s ltac:(lia) S0). split; [lia|]. clear -Es Pq P1 H. nia. }
    rewrite d_find_z_eq. destruct (FpSqrt.find_z c p Hp Pp Op) as (z & -> & Hz & _). cbn [bind].
    rewrite (d_op_modexp_eq c p Hp z q (red_fits c p Hp z Hz)) by (first [apply Hz|exact Vq]).
    destruct (modexp_val c p Hp Op z q Hz Vq (FpSqrt.neg_of_pos c p Op q Vq Pq)) as (cc & -> & Rc & _). cbn [bind].
    rewrite (d_subs1_fits false (zero c) q 1 zst (red_fits c p Hp q Hq)) by (unfold int32; first [discriminate|lia]). cbn [bind].
    destruct (subs1_spec c false (zero c) q 1 zst Vq ltac:(unfold int32; lia) (room_r c p Hp q (red_size c p Hp q Hq)) ltac:(discriminate)) as (V2 & E2).
    rewrite (d_divs1_eq _ 2 V2) by (unfold int32; lia). destruct (divs1_spec c (zero c) _ 2 zst V2 ltac:(unfold int32; lia) ltac:(lia)) as (e & Ee & Ve & _). rewrite Ee. cbn [bind].
    assert (Ne : neg e = false). { apply (divs1_pos c (zero c) _ 2 e) in Ee; [exact Ee| |reflexivity|lia]. apply subs1_pos; [exact Vq|apply (FpSqrt.neg_of_pos c p Op); assumption|exact Pq]. }
    destruct (modexp_fits n e Hn Ve Ne) as (r & -> & -> & Rr). cbn [bind].
    destruct (sqr_mod_pos r Rr) as (r2 & -> & -> & Rr2). cbn [bind]. destruct (mul_pos r2 n (red_pfits r2 Rr2) Hn) as (t & -> & -> & Rt). cbn [bind].
    destruct (mul_pos n r Hn Rr) as (r' & -> & -> & Rr'). cbn [bind]. apply d_tonelli_eq; assumption.
Qed.
Lemma d_fp_sqrt_eq n : reduced c p n -> d_fp_sqrt c n p = fp_sqrt c n p.
Proof. intros H. apply (d_fp_sqrt_same n (red_pfits n H)). Qed.
End SQRT.
