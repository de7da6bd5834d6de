(** ECDSA key recovery, textbook signing, and the message integer in terms of bits. *)
From Coq Require Import List ZArith Znumtheory Bool Lia.
From Verif Require Import Outcome LoopModel WordsModel WordsSpec UtilsSpec WordsProofs BigintModel BigintSpec BigintProofs BigintBits BigintBytes BigintClaims NumModel NumProofs JacobiSpec FpModel FpSpec FpProofs FpSqrt FpClaims EcGroup EcGroupProofs ZpField EcModel EcSpec EcScalar EcFeSpec EcTransfer EcCurveModel EcClaims EcLaws EcCurveSpec EcCodec EcCurveClaims EcdsaModel EcdsaSpec EcdsaProofs.
Import ListNotations.
Open Scope Z_scope.

(** *** the group equations of recovery, over any curve group *)
Section GROUP.
Variable F : fieldT.
Variables a b : F.
Hypothesis two_ne : (1 + 1)%f <> (0%f : F).
Hypothesis Hdisc : disc a b <> 0%f.
Notation on := (on_curve a b).
Variable N : Z.
Hypothesis N1 : 1 < N.
Definition killed (X : point F) : Prop := on X /\ zmul a N X = Inf.
Lemma killed_cong X j k : killed X -> j mod N = k mod N -> zmul a j X = zmul a k X.
Proof. intros (C & K) E. rewrite <- (zmul_mod F a b two_ne Hdisc N j X C K), E. apply (zmul_mod F a b two_ne Hdisc N k X C K). Qed.
Lemma killed_mul X k : killed X -> killed (zmul a k X).
Proof.
  intros (C & K). split; [apply (zmul_curve F a b two_ne); exact C|]. rewrite <- (zmul_mul F a b two_ne Hdisc), Z.mul_comm, (zmul_mul F a b two_ne Hdisc), K by exact C. apply (zmul_inf F a).
Qed.
Lemma killed_add X Y : killed X -> killed Y -> killed (padd a X Y).
Proof.
  intros (C & K) (C' & K'). split; [apply padd_curve; assumption|]. rewrite (zmul_sum F a b two_ne Hdisc), K, K' by assumption. reflexivity.
Qed.
Lemma combine2 G X i1 j1 i2 j2 : on G -> on X ->
  padd a (zmul a i1 G) (zmul a j1 (padd a (zmul a i2 G) (zmul a j2 X))) = padd a (zmul a (i1 + j1 * i2) G) (zmul a (j1 * j2) X).
Proof.
  intros CG CX. rewrite (zmul_sum F a b two_ne Hdisc) by (apply (zmul_curve F a b two_ne); assumption).
  rewrite <- !(zmul_mul F a b two_ne Hdisc) by assumption. rewrite (zmul_add F a b two_ne Hdisc) by assumption.
  rewrite (padd_assoc F a b two_ne Hdisc); [reflexivity|apply (zmul_curve F a b two_ne); assumption..].
Qed.
(** i1 + j1 i2 = 0 and j1 j2 = 1 modulo the order: the second combination undoes the first *)
Lemma combine_inverse G X i1 j1 i2 j2 : killed G -> killed X -> (i1 + j1 * i2) mod N = 0 -> (j1 * j2) mod N = 1 ->
  padd a (zmul a i1 G) (zmul a j1 (padd a (zmul a i2 G) (zmul a j2 X))) = X.
Proof.
  intros KG KX E1 E2. rewrite combine2 by (try apply KG; apply KX).
  rewrite (killed_cong G (i1 + j1 * i2) 0 KG) by (rewrite E1, Z.mod_0_l by lia; reflexivity).
  rewrite (killed_cong X (j1 * j2) 1 KX) by (rewrite E2, Z.mod_1_l by lia; reflexivity). rewrite (zmul_1 F a). reflexivity.
Qed.
End GROUP.
Arguments killed {F}.

(** the arithmetic of the exponents *)
Lemma one_mod N x : 1 < N -> x mod N = 1 -> exists k, x = 1 + k * N.
Proof. intros H E. exists (x / N). pose proof (Z.div_mod x N ltac:(lia)). lia. Qed.
Lemma mod_zero N x k : 1 < N -> x = k * N -> x mod N = 0. Proof. intros H ->. apply Z.mod_mul. lia. Qed.
Lemma mod_one N x k : 1 < N -> x = 1 + k * N -> x mod N = 1. Proof. intros H ->. rewrite Z.mod_add by lia. apply Z.mod_1_l. lia. Qed.
Lemma verify_after_recover N e r s w w' i j : 1 < N -> (s * w) mod N = 1 -> (r * w') mod N = 1 -> i mod N = (- e * w') mod N -> j mod N = (s * w') mod N ->
  ((e * w) mod N + (r * w) mod N * i) mod N = 0 /\ ((r * w) mod N * j) mod N = 1.
Proof.
  intros N1 H1 H2 H3 H4. apply one_mod in H1; [|lia]. apply one_mod in H2; [|lia]. apply congmod in H3; [|lia]. apply congmod in H4; [|lia].
  destruct H1 as (k1 & H1), H2 as (k2 & H2), H3 as (k3 & H3), H4 as (k4 & H4). split.
  - rewrite Zplus_mod_idemp_l, <- Zplus_mod_idemp_r, Zmult_mod_idemp_l, Zplus_mod_idemp_r. replace i with (- e * w' + k3 * N) by lia.
    apply (mod_zero N _ (- e * w * k2 + r * w * k3) N1). replace (e * w + r * w * (- e * w' + k3 * N)) with (e * w - e * w * (r * w') + r * w * k3 * N) by ring. rewrite H2. ring.
  - rewrite Zmult_mod_idemp_l. replace j with (s * w' + k4 * N) by lia. apply (mod_one N _ (k1 + k2 + k1 * k2 * N + r * w * k4) N1).
    replace (r * w * (s * w' + k4 * N)) with (s * w * (r * w') + r * w * k4 * N) by ring. rewrite H1, H2. ring.
Qed.
Lemma recover_after_verify N e r s w w' i j : 1 < N -> (s * w) mod N = 1 -> (r * w') mod N = 1 -> i mod N = (- e * w') mod N -> j mod N = (s * w') mod N ->
  (i + j * ((e * w) mod N)) mod N = 0 /\ (j * ((r * w) mod N)) mod N = 1.
Proof.
  intros N1 H1 H2 H3 H4. apply one_mod in H1; [|lia]. apply one_mod in H2; [|lia]. apply congmod in H3; [|lia]. apply congmod in H4; [|lia].
  destruct H1 as (k1 & H1), H2 as (k2 & H2), H3 as (k3 & H3), H4 as (k4 & H4). split.
  - rewrite <- Zplus_mod_idemp_r, Zmult_mod_idemp_r, Zplus_mod_idemp_r. replace i with (- e * w' + k3 * N) by lia. replace j with (s * w' + k4 * N) by lia.
    apply (mod_zero N _ (k3 + e * w' * k1 + k4 * e * w) N1). replace (- e * w' + k3 * N + (s * w' + k4 * N) * (e * w)) with (- e * w' + k3 * N + e * w' * (s * w) + k4 * e * w * N) by ring. rewrite H1. ring.
  - rewrite Zmult_mod_idemp_r. replace j with (s * w' + k4 * N) by lia. apply (mod_one N _ (k1 + k2 + k1 * k2 * N + r * w * k4) N1).
    replace ((s * w' + k4 * N) * (r * w)) with (s * w * (r * w') + r * w * k4 * N) by ring. rewrite H1, H2. ring.
Qed.

Section RECOVER.
Variable c : cap.
Variable C : curve.
Variable Pp : prime (value (cu_p C)).
Hypothesis EC : ecdsa_curve c C Pp.
Hypothesis PN : cu_p_minus_n C = op_sub c (cu_p C) (cu_n C).
Notation p := (cu_p C). Notation P := (value (cu_p C)). Notation n := (cu_n C). Notation N := (value (cu_n C)).
Notation F := (GFp p Pp). Notation A := (kval p Pp (cu_a C)). Notation B := (kval p Pp (cu_b C)).
Notation G := (aff_pt p Pp (cu_g C)).
Notation on := (on_curve A B).
Notation O := (fe_ops c p).
Notation kill := (killed A B N).
Let CO := eCO c C Pp EC.
Let CB := eCB c C Pp EC.
Let Hn := eHn c C Pp EC.
Let N1 := eN1 c C Pp EC.
Let Pn := ePn c C Pp EC.
Let two := two_ne c p Pp _ _ CO.
Let Hdi := Hd c p Pp _ _ CO.
Lemma raw_aff (R : option (fe * fe)) : aff_pt p Pp R = Inf \/ aff_pt p Pp R = raw_pt p Pp R.
Proof. destruct R as [[x y]|]; [|left; reflexivity]. unfold aff_pt. cbn [option_map fst snd abs_aff raw_pt]. destruct (_ && _); auto. Qed.
Lemma pmn_claim : valid c (cu_p_minus_n C) /\ value (cu_p_minus_n C) = P - N.
Proof.
  rewrite PN. pose proof CO as (Hp & _). destruct (le_ge_dec (size p) (size n)) as [L|L].
  - apply (op_sub_val c n Hn); [apply Hp|apply Hn|exact L|apply le_n].
  - apply (op_sub_val c p Hp); [apply Hp|apply Hn|apply le_n|exact L].
Qed.
(** the last lines of ecdsa_recover *)
Lemma core_claim e (R : option (fe * fe)) (r s : bigint) : valid c e -> (size e <= size n)%nat -> value e <= N -> 0 <= value e -> reduced c n r -> 0 < value r -> reduced c n s -> good2 c p R -> on (aff_pt p Pp R) ->
  exists Q, (let* w := op_modinv c r n in
             let* ew := op_mod c (op_mul c (op_sub c n e) w) n in
             let* sw := op_mod c (op_mul c s w) n in
             let* Q := jac_mul_add O (cu_coeffs c C) c ew (of_affine O (cu_g C)) sw (of_affine O R) in
             jac_to_affine O Q) = Ok Q /\ good2 c p Q /\
    exists w' i j, (value r * w') mod N = 1 /\ i mod N = (- value e * w') mod N /\ j mod N = (value s * w') mod N /\ raw_pt p Pp Q = padd A (zmul A i G) (zmul A j (aff_pt p Pp R)).
Proof.
  intros Ve Se Le E0 Rr R0 Rs GR CR. destruct (modinv_val c n Hn r Rr (prime_gcd c n Hn (value r) Pn ltac:(destruct Rr; lia))) as (w & -> & Rw & W). cbn [bind].
  destruct (op_sub_val c n Hn n e ltac:(apply Hn) Ve (le_n _) Se) as (V1 & E1).
  assert (S1 : (size (op_sub c n e) <= size n)%nat).
  { pose proof (proj1 Hn) as Vn. apply (size_le_iff c _ (size n) V1); [apply Vn|]. pose proof (magnitude_range c n Vn) as M. rewrite Bn_pow2 in *. rewrite (abs_magnitude c) by exact V1. rewrite (abs_magnitude c) in M by exact Vn. lia. }
  destruct (op_mul_val c n Hn (op_sub c n e) w V1 (proj1 Rw) S1 (red_size c n Hn w Rw)) as (V2 & E2).
  destruct (op_mod_pos c n Hn _ V2) as (ew & -> & Rew & Eew); [rewrite E2, E1; destruct Rw; nia|]. cbn [bind].
  destruct (mulmod_val c n Hn s w Rs Rw) as (sw & -> & Rsw & Esw). cbn [bind].
  destruct (combine_claim c C Pp EC ew sw R Rew Rsw GR CR) as (Q & Q' & -> & KT & GQ & XQ). cbn [bind]. exists Q'. split; [exact KT|]. split; [exact GQ|].
  exists (value w), (value ew), (value sw). split; [exact W|]. split; [|split; [rewrite Esw, Z.mod_mod by lia; reflexivity|exact XQ]].
  rewrite Eew, Z.mod_mod, E2, E1 by lia. replace ((N - value e) * value w) with (- value e * value w + value w * N) by ring. apply Z.mod_add. lia.
Qed.
Lemma recover_cases msg r s id v : all_bytes msg -> lead n msg <= 2 * N -> reduced c n r -> 0 < value r -> reduced c n s -> 0 < value s -> 0 <= id <= 3 ->
  (v = true -> value (cu_b C) <> 0) -> value r < P ->
  exists Q, ecdsa_recover c C msg r s id v = Ok Q /\ good2 c p Q /\
  (2 <= id /\ P <= value r + N /\ Q = None \/
   exists x R, value x = value r + (if 2 <=? id then N else 0) /\ reduced c p x /\ decompress_point c C x (Z.odd id) false = Ok R /\ good2 c p R /\
     ((R = None \/ v = true /\ zmul A N (aff_pt p Pp R) <> Inf) /\ Q = None \/
      R <> None /\ (v = true -> zmul A N (aff_pt p Pp R) = Inf) /\
      exists w i j, (value r * w) mod N = 1 /\ i mod N = (- lead n msg * w) mod N /\ j mod N = (value s * w) mod N /\ raw_pt p Pp Q = padd A (zmul A i G) (zmul A j (aff_pt p Pp R)))).
Proof.
  intros Am L2 Rr R0 Rs S0 Hid Hb RP. unfold ecdsa_recover. rewrite (range_claim c) by (try apply Hn; try apply Rr; apply Rs).
  replace ((1 <=? value r) && (value r <? N) && (1 <=? value s) && (value s <? N)) with true by (destruct Rr, Rs; lia). cbn [negb orb].
  assert (IDS : Z.land id 3 =? id = true /\ negb (Z.land id 1 =? 0) = Z.odd id /\ negb (Z.shiftr id 1 =? 0) = (2 <=? id)).
  { assert (id = 0 \/ id = 1 \/ id = 2 \/ id = 3) as [->|[->|[->| ->]]] by lia; repeat split; reflexivity. }
  destruct IDS as (-> & -> & ->). cbn [negb].
  destruct pmn_claim as (Vm & Em). pose proof (compare_spec c r _ (proj1 Rr) Vm) as CM. unfold cmp_result in CM. rewrite Em in CM.
  destruct ((2 <=? id) && negb (compare r (cu_p_minus_n C) <? 0)) eqn:SK.
  { exists None. split; [reflexivity|]. split; [exact I|]. left. split; [lia|]. split; [lia|reflexivity]. }
  destruct (digest_claim c n Hn msg Am) as (e & -> & Ve & Se & Ee & Le). cbn [bind].
  assert (X : exists x, (if 2 <=? id then decompress_point c C (op_add c r n) (Z.odd id) false else decompress_point c C r (Z.odd id) false) = decompress_point c C x (Z.odd id) false /\ value x = value r + (if 2 <=? id then N else 0) /\ reduced c p x).
  { destruct (2 <=? id) eqn:I2.
    - exists (op_add c r n). split; [reflexivity|]. destruct (op_add_val c n Hn r n (proj1 Rr) ltac:(apply Hn) (red_size c n Hn r Rr) (le_n _)) as (V & E). split; [exact E|]. split; [exact V|]. lia.
    - exists r. split; [reflexivity|]. split; [lia|]. split; [apply Rr|lia]. }
  destruct X as (x & -> & Ex & Rx). destruct (decompress_claim c C Pp x (Z.odd id) false CB Rx) as (R & K & GR & _ & H). rewrite K. cbn [bind].
  destruct R as [[u y]|].
  2:{ cbn [aff_is_identity]. exists None. split; [reflexivity|]. split; [exact I|]. right. exists x, None. repeat (split; [assumption|]). left. auto. }
  destruct (H u y eq_refl) as (Eu & _ & _ & CR & _).
  destruct (aff_is_identity O (Some (u, y))) eqn:ID.
  { exfalso. assert (ID2 : decompress_point c C x (Z.odd id) false = Ok (Some (u, y))) by exact K. unfold decompress_point, make_field_element, decompress_fe in ID2. cbn [bind] in ID2.
    destruct (compute_y c C (mkfe x (Some p)) (Z.odd id)) as [z| | |]; try discriminate. cbn [bind] in ID2. destruct (fe_is_zero z) eqn:FZ; [discriminate|].
    unfold make_point_fe in ID2. cbn [bind] in ID2. injection ID2 as <- <-. cbn in ID. unfold fe_is_zero in *. rewrite FZ in ID. rewrite andb_false_r in ID. discriminate. }
  assert (OKV : exists ok, (if v then let* nR := aff_mul O (cu_coeffs c C) (Some (u, y)) n in Ok (aff_is_identity O nR) else Ok true) = Ok ok /\ (ok = true <-> (v = true -> zmul A N (aff_pt p Pp (Some (u, y))) = Inf))).
  { destruct v; [|exists true; split; [reflexivity|]; split; [discriminate|reflexivity]]. rewrite (eE c C Pp EC).
    destruct (aff_mul_claim c p Pp _ _ CO (Hb eq_refl) (Some (u, y)) n GR CR (proj1 Hn)) as (T & KT & GT & XT). rewrite KT. cbn [bind]. eexists. split; [reflexivity|].
    rewrite (aff_id_claim c p Pp _ _ CO T GT), XT. tauto. }
  destruct OKV as (ok & -> & OKV). cbn [bind]. destruct ok; cbn [negb].
  - assert (E0 : 0 <= value e <= N) by (rewrite Ee; destruct (Z.gtb_spec (lead n msg) N); lia).
    destruct (core_claim e (Some (u, y)) r s Ve Se ltac:(lia) ltac:(lia) Rr R0 Rs GR CR) as (Q & -> & GQ & w & i & j & W & I & J & XQ).
    exists Q. split; [reflexivity|]. split; [exact GQ|]. right. exists x, (Some (u, y)). repeat (split; [assumption|]). right. split; [discriminate|]. split; [apply OKV; reflexivity|].
    exists w, i, j. split; [exact W|]. split; [|split; assumption]. rewrite I. rewrite Zmult_mod, (Zmult_mod (- lead n msg)). f_equal. f_equal.
    rewrite Ee. destruct (lead n msg >? N); [|reflexivity]. replace (- (lead n msg - N)) with (- lead n msg + 1 * N) by lia. apply Z.mod_add. lia.
  - exists None. split; [reflexivity|]. split; [exact I|]. right. exists x, (Some (u, y)). repeat (split; [assumption|]). left. split; [|reflexivity]. right.
    destruct v; [split; [reflexivity|]|exfalso; discriminate (proj2 OKV ltac:(discriminate))]. intros Z. discriminate (proj2 OKV (fun _ => Z)).
Qed.
Lemma decompressed_pt x o u y : decompress_point c C x o false = Ok (Some (u, y)) -> elem c p u -> elem c p y -> value (fv y) <> 0 /\ aff_pt p Pp (Some (u, y)) = Aff (fval p Pp u) (fval p Pp y).
Proof.
  intros K Hu Hy. unfold decompress_point, make_field_element, decompress_fe in K. cbn [bind] in K. destruct (compute_y c C (mkfe x (Some p)) o) as [z| | |]; try discriminate. cbn [bind] in K.
  destruct (fe_is_zero z) eqn:FZ; [discriminate|]. unfold make_point_fe in K. cbn [bind] in K. injection K as _ <-.
  assert (Y : value (fv z) <> 0). { destruct (fe_pred_claim c p (proj1 CO) z z Hy Hy) as (_ & E & _). rewrite E in FZ. lia. }
  split; [exact Y|]. destruct (raw_aff (Some (u, z))) as [I|I]; [|exact I]. exfalso. apply (aff_id_claim c p Pp _ _ CO (Some (u, z)) (conj Hu Hy)) in I.
  rewrite (id_values c C Pp CB u z Hu Hy) in I. lia.
Qed.
(** a recovered key accepts the signature *)
Lemma recover_sound_claim msg r s id v : all_bytes msg -> lead n msg <= 2 * N -> valid c r -> valid c s -> 0 <= id ->
  zmul A N G = Inf -> (v = true -> value (cu_b C) <> 0) -> (v = false -> forall X, on X -> zmul A N X = Inf) -> value r < P ->
  exists Q, ecdsa_recover c C msg r s id v = Ok Q /\ good2 c p Q /\
    (aff_pt p Pp Q <> Inf -> on (aff_pt p Pp Q) /\ accepts (coord p Pp) A G N (aff_pt p Pp Q) (lead n msg) (value r) (value s)).
Proof.
  intros Am L2 Vr Vs Hid KG Hb HX RP. destruct ((1 <=? value r) && (value r <? N) && (1 <=? value s) && (value s <? N)) eqn:RG.
  2:{ exists None. split; [|split; [exact I|intros H; exfalso; apply H; reflexivity]]. unfold ecdsa_recover. rewrite (range_claim c), RG by (try assumption; apply Hn). reflexivity. }
  assert (Rr : reduced c n r) by (split; [exact Vr|lia]). assert (Rs : reduced c n s) by (split; [exact Vs|lia]).
  destruct (Z_le_gt_dec id 3) as [I3|I3].
  2:{ exists None. split; [|split; [exact I|intros H; exfalso; apply H; reflexivity]]. unfold ecdsa_recover. replace (Z.land id 3 =? id) with false; [rewrite orb_true_r; reflexivity|].
      symmetry. apply Z.eqb_neq. intros E. pose proof (Z.land_ones id 2 ltac:(lia)) as LO. change (Z.ones 2) with 3 in LO. rewrite E in LO. pose proof (Z.mod_pos_bound id (2 ^ 2) ltac:(lia)). lia. }
  destruct (recover_cases msg r s id v Am L2 Rr ltac:(lia) Rs ltac:(lia) ltac:(lia) Hb RP) as (Q & K & GQ & H). exists Q. split; [exact K|]. split; [exact GQ|]. intros NI.
  destruct H as [(_ & _ & ->)|(x & R & Ex & Rx & KD & GR & [(_ & ->)|(RN & KV & w' & i & j & W' & Hi & Hj & XQ)])]; [exfalso; apply NI; reflexivity..|].
  destruct R as [[u y]|]; [|exfalso; apply RN; reflexivity]. destruct GR as (Hu & Hy). destruct (decompressed_pt _ _ _ _ KD Hu Hy) as (Y0 & XR).
  destruct (decompress_claim c C Pp x (Z.odd id) false CB Rx) as (R' & KD' & _ & _ & D). rewrite KD in KD'. injection KD' as <-. destruct (D u y eq_refl) as (Eu & _ & _ & CR & _).
  destruct (raw_aff Q) as [I|I]; [exfalso; apply NI; exact I|]. rewrite <- I in XQ.
  assert (KR : kill (aff_pt p Pp (Some (u, y)))). { split; [exact CR|]. destruct v; [apply KV; reflexivity|apply HX; [reflexivity|exact CR]]. }
  assert (KGG : kill G) by (split; [apply (eGon c C Pp EC)|exact KG]).
  assert (KQ : kill (aff_pt p Pp Q)). { rewrite XQ. apply killed_add; auto; apply killed_mul; auto. }
  split; [apply KQ|]. split; [exact NI|]. split; [lia|]. split; [lia|].
  destruct (modinv_val c n Hn s Rs (prime_gcd c n Hn (value s) Pn ltac:(lia))) as (w & _ & _ & W).
  exists (value w), (fval p Pp u), (fval p Pp y). split; [exact W|]. split.
  - rewrite XQ, <- XR. destruct (verify_after_recover N (lead n msg) (value r) (value s) (value w) w' i j N1 W W' Hi Hj) as (E1 & E2).
    apply (combine_inverse F A B two Hdi N N1); assumption.
  - unfold coord. rewrite (zval_fval c p Pp u Hu), Eu, Ex. destruct (2 <=? id); [rewrite <- (Z.mul_1_l N) at 1; rewrite Z.mod_add|rewrite Z.add_0_r]; try rewrite Z.mod_small; lia.
Qed.
(** the key that verifies a signature is recovered by one of the four identifiers *)
Lemma recover_complete_claim msg r s v (q : option (fe * fe)) : all_bytes msg -> lead n msg <= 2 * N -> valid c r -> valid c s -> 2 < N -> P <= 2 * N ->
  (v = true -> value (cu_b C) <> 0) -> zmul A N G = Inf -> value r < P ->
  on (aff_pt p Pp q) -> zmul A N (aff_pt p Pp q) = Inf -> accepts (coord p Pp) A G N (aff_pt p Pp q) (lead n msg) (value r) (value s) ->
  exists id Q, 0 <= id <= 3 /\ ecdsa_recover c C msg r s id v = Ok Q /\ good2 c p Q /\ raw_pt p Pp Q = aff_pt p Pp q.
Proof.
  intros Am L2 Vr Vs N2 PN2 Hb KG RP CQ KQ (NI & Hr & Hs & w & x & y & W & XR & Ex).
  assert (Rr : reduced c n r) by (split; [exact Vr|lia]). assert (Rs : reduced c n s) by (split; [exact Vs|lia]).
  assert (KGG : kill G) by (split; [apply (eGon c C Pp EC)|exact KG]). assert (KQQ : kill (aff_pt p Pp q)) by (split; assumption).
  assert (KR : kill (Aff x y)). { rewrite <- XR. apply killed_add; auto; apply killed_mul; auto. }
  assert (Y0 : zval (y : zp P) <> 0).
  { intros E. destruct KR as (CR & KR). assert (Ey : y = 0%f) by (apply zval_inj; rewrite E; symmetry; apply (zval_0 p Pp ltac:(apply CO))).
    assert (T2 : zmul A 2 (Aff x y) = Inf). { change 2 with (1 + 1). rewrite (zmul_add F A B two Hdi), !(zmul_1 F A) by exact CR. replace (Aff x y) with (popp (Aff x y)) at 2 by (rewrite Ey; cbn [popp]; f_equal; apply zval_inj; reflexivity). apply padd_opp_r. }
    assert (OD : N mod 2 = 1). { pose proof (Z.mod_pos_bound N 2 ltac:(lia)). destruct (Z.eq_dec (N mod 2) 0) as [Z0|]; [|lia]. apply Z.mod_divide in Z0; [|lia]. destruct (prime_divisors N Pn 2 Z0) as [|[|[|]]]; lia. }
    rewrite <- (zmul_mod F A B two Hdi 2 N _ CR T2), OD, (zmul_1 F A) in KR. discriminate. }
  set (xv := zval (x : zp P)) in *. set (yv := zval (y : zp P)) in *. pose proof (zval_range P x) as BX. pose proof (zval_range P y) as BY. fold xv in BX. fold yv in BY.
  unfold coord in Ex. change (zval x) with xv in Ex.
  set (id := (if xv <? N then 0 else 2) + (if Z.odd yv then 1 else 0)).
  assert (Hid : 0 <= id <= 3 /\ Z.odd id = Z.odd yv /\ (2 <=? id) = negb (xv <? N)) by (unfold id; destruct (xv <? N), (Z.odd yv); cbn; lia). destruct Hid as (I3 & IO & I2).
  assert (EX : value r + (if 2 <=? id then N else 0) = xv).
  { rewrite I2. destruct (Z.ltb_spec xv N) as [L|L]; cbn [negb]; [rewrite Z.mod_small in Ex; lia|]. replace xv with (xv - N + 1 * N) in Ex by lia. rewrite Z.mod_add, Z.mod_small in Ex by lia. lia. }
  destruct (recover_cases msg r s id v Am L2 Rr ltac:(lia) Rs ltac:(lia) I3 Hb RP) as (Q & K & GQ & H).
  assert (FX : forall u, elem c p u -> value (fv u) = xv -> fval p Pp u = x). { intros u Hu E. apply zval_inj. rewrite (zval_fval c p Pp u Hu), E. reflexivity. }
  assert (FY : forall u, elem c p u -> value (fv u) = yv -> fval p Pp u = y). { intros u Hu E. apply zval_inj. rewrite (zval_fval c p Pp u Hu), E. reflexivity. }
  assert (SAT : satisfies C xv yv). { destruct KR as (CR & _). unfold on_curve in CR. rewrite <- (zmk_val P Pp x), <- (zmk_val P Pp y) in CR. unfold kval in CR. rewrite !hom_mul, !hom_add in CR. apply (f_equal (@zval P)) in CR. exact CR. }
  exists id, Q. split; [exact I3|]. split; [exact K|]. split; [exact GQ|].
  destruct H as [(J2 & J & _)|(x' & R & Ex' & Rx & KD & GR & H)]; [replace (2 <=? id) with true in EX by lia; lia|].
  rewrite EX in Ex'. destruct (decompress_claim c C Pp x' (Z.odd id) false CB Rx) as (R' & KD' & _ & DN & D). rewrite KD in KD'. injection KD' as <-. rewrite Ex' in DN, D.
  destruct R as [[u z]|]. 2:{ exfalso. apply Y0. apply (proj1 DN eq_refl yv BY SAT). }
  destruct GR as (Hu & Hz). destruct (decompressed_pt _ _ _ _ KD Hu Hz) as (_ & XR'). destruct (D u z eq_refl) as (Eu & _ & _ & _ & U). specialize (U yv BY SAT ltac:(congruence)).
  rewrite (FX u Hu Eu), (FY z Hz (eq_sym U)) in XR'. rewrite XR' in H. destruct H as [([H|(_ & H)] & _)|(_ & _ & w' & i & j & W' & Hi & Hj & XQ)]; [discriminate|exfalso; apply H, KR|].
  rewrite XQ, <- XR. destruct (recover_after_verify N (lead n msg) (value r) (value s) w w' i j N1 W W' Hi Hj) as (E1 & E2).
  apply (combine_inverse F A B two Hdi N N1); assumption.
Qed.
(** a signature made by the private key d is accepted by the public key d G *)
Lemma sign_claim d k e r s : kill G -> zmul A d G <> Inf -> signature (coord p Pp) A G N d k e r s -> accepts (coord p Pp) A G N (zmul A d G) e r s.
Proof.
  intros KG NI (Hr & Hs & HS & x & y & HK & HX). split; [exact NI|]. split; [exact Hr|]. split; [exact Hs|].
  assert (CP : rel_prime s N) by (apply rel_prime_le_prime; [exact Pn|lia]). apply rel_prime_bezout in CP. destruct CP as [w t BZ].
  assert (W : (s * w) mod N = 1) by (apply (mod_one N _ (- t) N1); lia).
  exists w, x, y. split; [exact W|]. split; [|exact HX]. rewrite <- HK. rewrite <- (zmul_mul F A B two Hdi), <- (zmul_add F A B two Hdi) by apply KG.
  apply (killed_cong F A B two Hdi N G _ _ KG). rewrite Zplus_mod_idemp_l, <- Zplus_mod_idemp_r, Zmult_mod_idemp_l, Zplus_mod_idemp_r.
  apply congmod in HS; [|lia]. destruct HS as (h & HS). apply one_mod in W; [|exact N1]. destruct W as (l & W). replace (e * w + r * w * d) with (k + (k * l - h * w) * N); [apply Z.mod_add; lia|].
  replace (e * w + r * w * d) with (w * (e + r * d)) by ring. replace (e + r * d) with (k * s - h * N) by lia. replace (w * (k * s - h * N)) with (k * (s * w) - h * w * N) by ring. rewrite W. ring.
Qed.
End RECOVER.
