(** ecdsa_recover computes the key of SEC 1 for every identifier; recovering and comparing is verifying. *)
From Coq Require Import List ZArith Znumtheory Bool Lia.
From Verif Require Import Outcome LoopModel WordsModel WordsSpec UtilsSpec WordsProofs BigintModel BigintSpec BigintProofs BigintBits BigintBytes BigintClaims NumModel NumProofs JacobiSpec FpModel FpSpec FpProofs FpSqrt FpClaims EcGroup EcGroupProofs ZpField EcModel EcSpec EcScalar EcFeSpec EcTransfer EcCurveModel EcClaims EcLaws EcCurveSpec EcCodec EcCurveClaims EcdsaModel EcdsaSpec EcdsaProofs EcdsaRecover EcdsaClaims EcdsaLong NamedModel NamedSpec GroupSpec NamedGroup RecoverSpec RecoverModel.
Import ListNotations.
Open Scope Z_scope.

Section GROUP.
Variable F : fieldT.
Variables a b : F.
Hypothesis two_ne : (1 + 1)%f <> (0%f : F).
Hypothesis Hdisc : disc a b <> 0%f.
Variable N : Z.
Hypothesis N1 : 1 < N.
Notation kill := (killed a b N).
Lemma recover_form G R w e s : on_curve a b G -> on_curve a b R ->
  zmul a w (padd a (zmul a s R) (popp (zmul a e G))) = padd a (zmul a (- e * w) G) (zmul a (s * w) R).
Proof.
  intros CG CR. assert (C1 : on_curve a b (zmul a s R)) by (apply (zmul_curve F a b two_ne); exact CR). assert (C2 : on_curve a b (zmul a (- e) G)) by (apply (zmul_curve F a b two_ne); exact CG).
  rewrite <- (zmul_opp F a b) by exact CG. rewrite (zmul_sum F a b two_ne Hdisc) by assumption. rewrite <- !(zmul_mul F a b two_ne Hdisc) by assumption.
  rewrite (padd_comm F a b) by (try assumption; apply (zmul_curve F a b two_ne); assumption). f_equal; f_equal; ring.
Qed.
Lemma inv_unique r w w' : (r * w) mod N = 1 -> (r * w') mod N = 1 -> w mod N = w' mod N.
Proof.
  intros H H'. apply one_mod in H; [|exact N1]. apply one_mod in H'; [|exact N1]. destruct H as (k & H), H' as (k' & H').
  replace w with (w' + (w * (- k') + w' * k) * N); [apply Z.mod_add; lia|]. replace ((w * - k' + w' * k) * N) with (w * (- (k' * N)) + w' * (k * N)) by ring. replace (k' * N) with (r * w' - 1) by lia. replace (k * N) with (r * w - 1) by lia. ring.
Qed.
(** the nonce point is determined by the key *)
Lemma nonce_of_key G R w e r s t : kill G -> kill R -> (r * w) mod N = 1 -> (s * t) mod N = 1 ->
  padd a (zmul a (e * t) G) (zmul a (r * t) (zmul a w (padd a (zmul a s R) (popp (zmul a e G))))) = R.
Proof.
  intros KG KR W T. rewrite recover_form by (try apply KG; apply KR). apply (combine_inverse F a b two_ne Hdisc N N1); auto.
  - apply one_mod in W; [|exact N1]. destruct W as (k & W). apply (mod_zero N _ (- (e * t * k)) N1). replace (r * t * (- e * w)) with (- (e * t) * (r * w)) by ring. rewrite W. ring.
  - apply one_mod in W; [|exact N1]. apply one_mod in T; [|exact N1]. destruct W as (k & W), T as (l & T). apply (mod_one N _ (k + l + k * l * N) N1). replace (r * t * (s * w)) with (r * w * (s * t)) by ring. rewrite W, T. ring.
Qed.
End GROUP.

Section EXACT.
Variables (c : cap) (C : curve).
Variable Pp : prime (value (cu_p C)).
Hypothesis U : usable c C Pp.
Notation p := (cu_p C). Notation P := (value (cu_p C)). Notation n := (cu_n C). Notation N := (value (cu_n C)).
Notation F := (GFp p Pp). Notation A := (kval p Pp (cu_a C)). Notation B := (kval p Pp (cu_b C)).
Notation G := (aff_pt p Pp (cu_g C)).
Notation on := (on_curve A B).
Notation rec := (recovers (coord p Pp) A B G N).
Notation acc := (accepts (coord p Pp) A G N).
Notation e_of msg := (leftmost (bitlen N) msg).
Let EC : ecdsa_curve c C Pp := proj1 U.
Let CO := eCO c C Pp EC.
Let CB := eCB c C Pp EC.
Let Hn := eHn c C Pp EC.
Let N1 := eN1 c C Pp EC.
Let Pn := ePn c C Pp EC.
Let two := two_ne c p Pp _ _ CO.
Let Hdi := Hd c p Pp _ _ CO.
Lemma uKill X : on X -> killed A B N X. Proof. intros H. split; [exact H|]. apply U. exact H. Qed.
Lemma uGon : on G. Proof. apply (eGon c C Pp EC). Qed.
Lemma raw_on (Q : option (fe * fe)) : good2 c p Q -> on (raw_pt p Pp Q) -> raw_pt p Pp Q = aff_pt p Pp Q.
Proof.
  destruct Q as [[x y]|]; [|reflexivity]. intros (Hx & Hy) O'. destruct (raw_aff C Pp (Some (x, y))) as [I|I]; [|symmetry; exact I]. exfalso.
  apply (aff_id_claim c p Pp _ _ CO (Some (x, y)) (conj Hx Hy)) in I. rewrite (id_values c C Pp CB x y Hx Hy) in I. cbn [raw_pt] in O'. apply (on_satisfies C Pp) in O'.
  assert (Y0 : value (fv y) = 0) by lia. rewrite Y0 in O'. pose proof U as (_ & _ & _ & _ & _ & _ & NS & _). exact (NS _ O').
Qed.
Lemma on_sat x y : on (Aff x y) -> satisfies C (coord p Pp x) (coord p Pp y).
Proof. intros CR. unfold on_curve in CR. rewrite <- (zmk_val P Pp x), <- (zmk_val P Pp y) in CR. unfold kval in CR. rewrite !hom_mul, !hom_add in CR. apply (f_equal (@zval P)) in CR. exact CR. Qed.
Lemma recover_lead msg r s id v : all_bytes msg -> lead n msg <= 2 * N -> valid c r -> valid c s -> 0 <= id ->
  exists Q, ecdsa_recover c C msg r s id v = Ok Q /\ good2 c p Q /\ on (aff_pt p Pp Q) /\
    forall X, X <> Inf -> (aff_pt p Pp Q = X <-> rec id X (lead n msg) (value r) (value s)).
Proof.
  intros Am L2 Vr Vs Hid.
  destruct ((1 <=? value r) && (value r <? N) && (1 <=? value s) && (value s <? N)) eqn:RG.
  2:{ exists None. split; [|split; [exact I|split; [exact I|]]]. { unfold ecdsa_recover. rewrite (range_claim c), RG by (try assumption; apply Hn). reflexivity. }
      intros X NI. split; [intros E; exfalso; apply NI; symmetry; exact E|]. intros (_ & H1 & H2 & _). lia. }
  assert (Rr : reduced c n r) by (split; [exact Vr|lia]). assert (Rs : reduced c n s) by (split; [exact Vs|lia]).
  destruct (Z_le_gt_dec id 3) as [I3|I3].
  2:{ exists None. split; [|split; [exact I|split; [exact I|]]]. { unfold ecdsa_recover. replace (Z.land id 3 =? id) with false; [rewrite orb_true_r; reflexivity|].
      symmetry. apply Z.eqb_neq. intros E. pose proof (Z.land_ones id 2 ltac:(lia)) as LO. change (Z.ones 2) with 3 in LO. rewrite E in LO. pose proof (Z.mod_pos_bound id (2 ^ 2) ltac:(lia)). lia. }
      intros X NI. split; [intros E; exfalso; apply NI; symmetry; exact E|]. intros (H1 & _). lia. }
  pose proof U as (_ & B0 & PN2 & NP & PMN & G0 & NS & ALL).
  destruct (recover_cases c C Pp EC PMN msg r s id v Am ltac:(lia) Rr ltac:(lia) Rs ltac:(lia) ltac:(lia) ltac:(intros _; exact B0) ltac:(lia)) as (Q & K & GQ & H). exists Q. split; [exact K|]. split; [exact GQ|].
  assert (IDH : id / 2 * N = if 2 <=? id then N else 0). { assert (H2 : id / 2 = if 2 <=? id then 1 else 0) by (assert (id = 0 \/ id = 1 \/ id = 2 \/ id = 3) as [->|[->|[->| ->]]] by lia; reflexivity). rewrite H2. destruct (2 <=? id); lia. }
  assert (NONE : Q = None -> (forall X, ~ rec id X (lead n msg) (value r) (value s)) -> on (aff_pt p Pp Q) /\ forall X, X <> Inf -> (aff_pt p Pp Q = X <-> rec id X (lead n msg) (value r) (value s))).
  { intros -> NR. split; [exact I|]. intros X NI. split; [intros E; exfalso; apply NI; symmetry; exact E|]. intros R'. exfalso. exact (NR X R'). }
  destruct H as [(I2 & J & E)|(x & R & Ex & Rx & KD & GR & H)].
  { apply NONE; [exact E|]. intros X (_ & _ & _ & R & w & (x & y & _ & _ & Ex & _) & _). rewrite IDH in Ex. replace (2 <=? id) with true in Ex by lia. pose proof (zval_range P x). unfold coord in Ex. change (zval x) with (zval (x : zp P)) in Ex. lia. }
  destruct (decompress_claim c C Pp x (Z.odd id) false CB Rx) as (R' & KD' & _ & DN & D). rewrite KD in KD'. injection KD' as <-.
  (* the point of the identifier is the one the code computes *)
  assert (UNI : forall x' y', on (Aff x' y') -> coord p Pp x' = value r + id / 2 * N -> Z.odd (coord p Pp y') = Z.odd id -> exists u y, R = Some (u, y) /\ aff_pt p Pp R = Aff x' y').
  { intros x' y' O' E1 E2. pose proof (on_sat x' y' O') as S. assert (BY : 0 <= coord p Pp y' < P) by apply (zval_range P y'). rewrite IDH, <- Ex in E1. rewrite E1 in S. destruct R as [[u y]|].
    2:{ exfalso. pose proof (proj1 DN eq_refl _ BY S) as Y0. rewrite Y0 in S. exact (NS _ S). }
    destruct (D u y eq_refl) as (Eu & _ & _ & _ & UU). specialize (UU _ BY S E2). exists u, y. split; [reflexivity|]. destruct GR as (Hu & Hy). destruct (decompressed_pt c C Pp EC _ _ _ _ KD Hu Hy) as (_ & ->).
    f_equal; apply zval_inj; rewrite (zval_fval c p Pp) by assumption; [rewrite Eu; symmetry; exact E1|symmetry; exact UU]. }
  destruct H as [(NR & E)|(RN & _ & w & i & j & W & Hi & Hj & XQ)].
  { apply NONE; [exact E|]. intros X (_ & _ & _ & R1 & w & (x' & y' & -> & O' & E1 & E2) & _). destruct (UNI x' y' O' E1 E2) as (u & y & ER & EX). destruct NR as [NR|(_ & NR)]; [rewrite ER in NR; discriminate|]. apply NR. rewrite EX. apply ALL. exact O'. }
  destruct R as [[u y]|]; [|exfalso; apply RN; reflexivity]. destruct GR as (Hu & Hy). destruct (D u y eq_refl) as (Eu & _ & OY & CR & _). destruct (decompressed_pt c C Pp EC _ _ _ _ KD Hu Hy) as (_ & XR). rewrite XR in *.
  pose proof (uKill _ CR) as KR. pose proof (uKill _ uGon) as KG.
  assert (FORM : forall w', (value r * w') mod N = 1 -> raw_pt p Pp Q = zmul A w' (padd A (zmul A (value s) (Aff (fval p Pp u) (fval p Pp y))) (popp (zmul A (lead n msg) G)))).
  { intros w' W'. pose proof (inv_unique N N1 _ _ _ W W') as WW. rewrite (recover_form F A B two Hdi) by (try apply uGon; exact CR). rewrite XQ. f_equal.
    - apply (killed_cong F A B two Hdi N G _ _ KG). rewrite Hi, Zmult_mod, WW, <- Zmult_mod. reflexivity.
    - apply (killed_cong F A B two Hdi N _ _ _ KR). rewrite Hj, Zmult_mod, WW, <- Zmult_mod. reflexivity. }
  assert (RON : on (raw_pt p Pp Q)). { rewrite XQ. apply padd_curve; [exact two|apply (zmul_curve F A B two); [exact uGon || exact CR]..]. }
  pose proof (raw_on Q GQ RON) as RA. rewrite RA in *. split; [exact RON|]. intros X NI. split.
  - intros <-. split; [lia|]. split; [lia|]. split; [lia|]. exists (Aff (fval p Pp u) (fval p Pp y)), w. split; [|split; [exact W|apply FORM; exact W]].
    eexists _, _. split; [reflexivity|]. split; [exact CR|]. unfold coord. rewrite !(zval_fval c p Pp) by assumption. rewrite IDH, Eu. split; [exact Ex|exact OY].
  - intros (_ & _ & _ & R1 & w' & (x' & y' & -> & O' & E1 & E2) & W' & ->). destruct (UNI x' y' O' E1 E2) as (_ & _ & _ & EX). rewrite <- EX. apply FORM. exact W'.
Qed.
Lemma recover_exact msg r s id v : all_bytes msg -> fits_order C msg -> valid c r -> valid c s -> 0 <= id ->
  exists Q, ecdsa_recover c C msg r s id v = Ok Q /\ good2 c p Q /\ on (aff_pt p Pp Q) /\
    forall X, X <> Inf -> (aff_pt p Pp Q = X <-> rec id X (e_of msg) (value r) (value s)).
Proof.
  intros Am Fm Vr Vs Hid. rewrite <- (digest_bits c n Hn msg Am Fm). pose proof (lead_below c n Hn msg Am Fm) as L2. apply recover_lead; try assumption. lia.
Qed.
(** every digest: whole bytes are taken, and values above 2n are treated as 0 *)
Lemma recover_any msg r s id v : all_bytes msg -> valid c r -> valid c s -> 0 <= id ->
  exists Q, ecdsa_recover c C msg r s id v = Ok Q /\ good2 c p Q /\ on (aff_pt p Pp Q) /\
    forall X, X <> Inf -> (aff_pt p Pp Q = X <-> rec id X (if leftmost (8 * byte_length n) msg <=? 2 * N then leftmost (8 * byte_length n) msg else 0) (value r) (value s)).
Proof.
  intros Am Vr Vs Hid. pose proof (byte_length_bounds c n (proj1 Hn)) as (B1 & _). destruct (Z.leb_spec (leftmost (8 * byte_length n) msg) (2 * N)) as [L|L].
  - rewrite <- lead_leftmost in * by (try exact Am; lia). apply recover_lead; assumption.
  - rewrite (recover_long c C Pp EC msg r s id v Am Vr Vs L). replace 0 with (lead n []) by (unfold lead; rewrite firstn_nil; reflexivity).
    apply recover_lead; try assumption; [constructor|]. unfold lead. rewrite firstn_nil. cbn [be_value]. change (0 <= 2 * N). lia.
Qed.
(** a signature and a key determine the identifier *)
Lemma id_unique id id' X e r s : rec id X e r s -> rec id' X e r s -> id = id'.
Proof.
  intros (I1 & Hr & Hs & R & w & (x & y & ER & O1 & E1 & E2) & W & EX) (I1' & _ & _ & R' & w' & (x' & y' & ER' & O1' & E1' & E2') & W' & EX').
  assert (CP : rel_prime s N) by (apply rel_prime_le_prime; [exact Pn|lia]). apply rel_prime_bezout in CP. destruct CP as [t k BZ].
  assert (T : (s * t) mod N = 1) by (apply (mod_one N _ (- k) N1); lia). pose proof (uKill _ uGon) as KG.
  pose proof (nonce_of_key F A B two Hdi N N1 G R w e r s t KG (uKill _ O1) W T) as Q1. pose proof (nonce_of_key F A B two Hdi N N1 G R' w' e r s t KG (uKill _ O1') W' T) as Q2.
  rewrite <- EX in Q1. rewrite <- EX', Q1 in Q2. rewrite ER, ER' in Q2. injection Q2 as <- <-. rewrite E1 in E1'. rewrite E2 in E2'.
  assert (id / 2 = id' / 2) by nia. assert (id = 0 \/ id = 1 \/ id = 2 \/ id = 3) as [->|[->|[->| ->]]] by lia; assert (id' = 0 \/ id' = 1 \/ id' = 2 \/ id' = 3) as [->|[->|[->| ->]]] by lia; cbn in *; congruence.
Qed.
(** acceptance by a key is recovery of the key by one of the identifiers *)
Lemma accepts_recovers msg r s (q : option (fe * fe)) : all_bytes msg -> fits_order C msg -> valid c r -> valid c s -> good2 c p q -> on (aff_pt p Pp q) -> aff_pt p Pp q <> Inf ->
  (acc (aff_pt p Pp q) (e_of msg) (value r) (value s) <-> exists id, rec id (aff_pt p Pp q) (e_of msg) (value r) (value s)).
Proof.
  intros Am Fm Vr Vs Gq Cq NI. pose proof U as (_ & B0 & PN2 & NP & PMN & G0 & NS & ALL). pose proof (lead_below c n Hn msg Am Fm) as L2. split.
  - intros H. rewrite <- (digest_bits c n Hn msg Am Fm) in H. pose proof H as (_ & Hr & _).
    destruct (recover_complete_claim c C Pp EC PMN msg r s false q Am ltac:(lia) Vr Vs ltac:(lia) ltac:(lia) ltac:(discriminate) (ALL _ uGon) ltac:(lia) Cq (ALL _ Cq) H) as (id & Q & I3 & K & GQ & RQ).
    exists id. destruct (recover_exact msg r s id false Am Fm Vr Vs ltac:(lia)) as (Q' & K' & _ & _ & HQ). rewrite K in K'. injection K' as <-. apply (HQ _ NI).
    rewrite <- RQ. symmetry. apply raw_on; [exact GQ|]. rewrite RQ. exact Cq.
  - intros (id & H). pose proof H as (I3 & Hr & _). destruct (recover_exact msg r s id false Am Fm Vr Vs ltac:(lia)) as (Q & K & _ & _ & HQ). apply (HQ _ NI) in H. rewrite <- H, <- (digest_bits c n Hn msg Am Fm).
    destruct (recover_sound_claim c C Pp EC PMN msg r s id false Am ltac:(lia) Vr Vs ltac:(lia) (ALL _ uGon) ltac:(discriminate) ltac:(intros _; exact ALL) ltac:(lia)) as (Q' & K' & _ & HS). rewrite K in K'. injection K' as <-.
    apply HS. rewrite H. exact NI.
Qed.
(** recovering and comparing *)
Lemma recover_check_exact msg r s id v (q : option (fe * fe)) : all_bytes msg -> fits_order C msg -> valid c r -> valid c s -> 0 <= id -> good2 c p q ->
  (recover_check c C msg r s id v q = Ok tt \/ recover_check c C msg r s id v q = Abort) /\
  (aff_pt p Pp q <> Inf -> (recover_check c C msg r s id v q = Ok tt <-> rec id (aff_pt p Pp q) (e_of msg) (value r) (value s))) /\
  (aff_pt p Pp q = Inf -> (recover_check c C msg r s id v q = Ok tt <-> forall X, X <> Inf -> ~ rec id X (e_of msg) (value r) (value s))).
Proof.
  intros Am Fm Vr Vs Hid Gq. destruct (recover_exact msg r s id v Am Fm Vr Vs Hid) as (Q & K & GQ & _ & HQ). unfold recover_check. rewrite K. cbn [bind].
  pose proof (aff_eqb_claim c p Pp _ _ CO Q q GQ Gq) as EQ. set (t := aff_eqb _ _ _) in *. assert (T : check t = Ok tt <-> t = true) by (unfold check; destruct t; split; congruence). split; [unfold check; destruct t; auto|]. rewrite T, EQ. split.
  - intros NI. apply HQ. exact NI.
  - intros ->. split.
    + intros E X NI H. apply HQ in H; [|exact NI]. apply NI. rewrite <- H. exact E.
    + intros NR. destruct (aff_pt p Pp Q) as [|x y] eqn:E; [reflexivity|]. exfalso. apply (NR (Aff x y)); [discriminate|]. apply HQ; [discriminate|reflexivity].
Qed.
Lemma recover_check_verifies msg r s v (q : option (fe * fe)) : all_bytes msg -> fits_order C msg -> valid c r -> valid c s -> good2 c p q -> on (aff_pt p Pp q) -> aff_is_identity (fe_ops c p) q = false ->
  (ecdsa_verify c C q msg r s = Ok true <-> exists id, 0 <= id <= 3 /\ recover_check c C msg r s id v q = Ok tt) /\
  (forall id id', 0 <= id -> 0 <= id' -> recover_check c C msg r s id v q = Ok tt -> recover_check c C msg r s id' v q = Ok tt -> id = id').
Proof.
  intros Am Fm Vr Vs Gq Cq NI. assert (NI' : aff_pt p Pp q <> Inf). { intros E. apply (aff_id_claim c p Pp _ _ CO q Gq) in E. congruence. }
  assert (RC : forall id, 0 <= id -> (recover_check c C msg r s id v q = Ok tt <-> rec id (aff_pt p Pp q) (e_of msg) (value r) (value s))). { intros id Hid. apply recover_check_exact; assumption. }
  split.
  - destruct (verify_std c C Pp EC q msg r s ltac:(apply U) Gq Cq Am Fm Vr Vs) as (t & -> & HV). assert (T : Ok t = Ok true <-> t = true) by (split; congruence). rewrite T, HV, (accepts_recovers msg r s q) by assumption. split.
    + intros (id & H). pose proof H as (I3 & _). exists id. split; [exact I3|]. apply RC; [lia|exact H].
    + intros (id & I3 & H). exists id. apply RC; [lia|exact H].
  - intros id id' H0 H0' H H'. apply RC in H; [|exact H0]. apply RC in H'; [|exact H0']. exact (id_unique _ _ _ _ _ _ H H').
Qed.
End EXACT.

(** *** the named curves *)
Section NAMED.
Variables (wasm : bool) (m : params) (C : curve).
Hypothesis IN : In m named_curves.
Hypothesis NC : named_curve wasm m = Ok C.
Variable Pp : prime (value (cu_p C)).
Notation c := (named_cap wasm m). Notation p := (cu_p C).
Notation A := (kval p Pp (cu_a C)). Notation B := (kval p Pp (cu_b C)). Notation G := (aff_pt p Pp (cu_g C)). Notation N := (value (cu_n C)).
Let U := nU wasm m C IN NC Pp.
Lemma named_recover_exact msg r s id v : all_bytes msg -> digest_fits m msg -> valid c r -> valid c s -> 0 <= id ->
  exists Q, ecdsa_recover c C msg r s id v = Ok Q /\ good2 c p Q /\ on_curve A B (aff_pt p Pp Q) /\
    forall X, X <> Inf -> (aff_pt p Pp Q = X <-> recovers (coord p Pp) A B G N id X (leftmost (bitlen N) msg) (value r) (value s)).
Proof. intros Am Fm. apply (recover_exact c C Pp U); [exact Am|]. apply (nFit wasm m C IN NC). exact Fm. Qed.
Lemma named_recover_any msg r s id v : all_bytes msg -> valid c r -> valid c s -> 0 <= id ->
  exists Q, ecdsa_recover c C msg r s id v = Ok Q /\ good2 c p Q /\ on_curve A B (aff_pt p Pp Q) /\
    forall X, X <> Inf -> (aff_pt p Pp Q = X <-> recovers (coord p Pp) A B G N id X (if leftmost (8 * byte_length (cu_n C)) msg <=? 2 * N then leftmost (8 * byte_length (cu_n C)) msg else 0) (value r) (value s)).
Proof. apply (recover_any c C Pp U). Qed.
Lemma named_recover_check msg r s v (q : option (fe * fe)) : all_bytes msg -> digest_fits m msg -> valid c r -> valid c s -> good2 c p q -> on_curve A B (aff_pt p Pp q) -> aff_is_identity (fe_ops c p) q = false ->
  (ecdsa_verify c C q msg r s = Ok true <-> exists id, 0 <= id <= 3 /\ recover_check c C msg r s id v q = Ok tt) /\
  (forall id id', 0 <= id -> 0 <= id' -> recover_check c C msg r s id v q = Ok tt -> recover_check c C msg r s id' v q = Ok tt -> id = id').
Proof. intros Am Fm. apply (recover_check_verifies c C Pp U); [exact Am|]. apply (nFit wasm m C IN NC). exact Fm. Qed.
End NAMED.
(** the comparison with the identity passes when nothing is recovered *)
Lemma recover_check_identity c C (Pp : prime (value (cu_p C))) msg r s id v : usable c C Pp -> valid c r -> valid c s -> ~ 1 <= value r < value (cu_n C) ->
  recover_check c C msg r s id v None = Ok tt /\ ecdsa_verify c C None msg r s = Ok false.
Proof.
  intros U Vr Vs NR. pose proof (eHn c C Pp (proj1 U)) as Hn. unfold recover_check, ecdsa_recover, ecdsa_verify. rewrite (range_claim c) by (try assumption; apply Hn).
  replace ((1 <=? value r) && (value r <? value (cu_n C)) && (1 <=? value s) && (value s <? value (cu_n C))) with false by (destruct (Z.leb_spec 1 (value r)), (Z.ltb_spec (value r) (value (cu_n C))); try lia; reflexivity).
  split; reflexivity.
Qed.
