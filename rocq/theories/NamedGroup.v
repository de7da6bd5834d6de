(** The named curves without hypotheses: their fields and orders are prime and n kills every point. *)
From Coq Require Import List ZArith Znumtheory Bool Lia.
From Verif Require Import Outcome UtilsModel UtilsSpec UtilsProofs LoopModel WordsModel WordsSpec BigintModel BigintSpec BigintProofs BigintBits BigintClaims NumModel FpModel FpSpec FpProofs FpClaims EcGroup EcGroupProofs ZpField EcModel EcSpec EcScalar EcFeSpec EcCurveModel EcClaims EcLaws EcCurveSpec EcCodec EcCurveClaims EcdsaModel EcdsaSpec EcdsaProofs EcdsaRecover EcdsaClaims NamedModel NamedSpec NamedProofs CurveVerify EcKey GroupSpec PrimeCert CurveCert CurveCertProofs CurveFacts.
Import ListNotations.
Open Scope Z_scope.

Lemma named_primes m : In m named_curves -> prime (hexval (pm_p m)) /\ prime (hexval (pm_n m)).
Proof.
  intros H. pose proof (orders_prime m H) as Pn. split; [|exact Pn]. destruct (curves_checked m H) as (c & uv & K). unfold curve_checked in K. exact (proj1 (check_curve_ok _ _ _ _ _ _ _ _ K Pn)).
Qed.
Lemma named_points m (Pp : prime (hexval (pm_p m))) : In m named_curves ->
  let a := zmk _ Pp (hexval (pm_a m)) : Zp _ Pp in let b := zmk _ Pp (hexval (pm_b m)) : Zp _ Pp in let G := Aff (zmk _ Pp (hexval (pm_gx m))) (zmk _ Pp (hexval (pm_gy m))) : point (Zp _ Pp) in
  disc a b <> 0%f /\ on_curve a b G /\ zmul a (hexval (pm_n m)) G = Inf /\ (forall x, ~ on_curve a b (Aff x 0%f)) /\ forall X, on_curve a b X -> zmul a (hexval (pm_n m)) X = Inf.
Proof.
  intros H. destruct (curves_checked m H) as (c & uv & K). unfold curve_checked in K. exact (proj2 (proj2 (check_curve_ok _ _ _ _ _ _ _ _ K (orders_prime m H)) Pp)).
Qed.
Lemma make_p_minus_n c p a b gx gy n h C : curve_make c p a b gx gy n h = Ok C -> cu_p_minus_n C = op_sub c (cu_p C) (cu_n C).
Proof.
  unfold curve_make. destruct (check (is_valid_integer p gx)); try discriminate. destruct (check (is_valid_integer p gy)); try discriminate. cbn [bind].
  destruct (make_field_element p gx true); try discriminate. destruct (make_field_element p gy true); try discriminate. cbn [bind]. intros K. injection K as <-. reflexivity.
Qed.
Lemma named_p_minus_n wasm m C : named_curve wasm m = Ok C -> cu_p_minus_n C = op_sub (named_cap wasm m) (cu_p C) (cu_n C).
Proof.
  unfold named_curve. intros K. repeat match type of K with bind (of_hex_literal ?c ?s) _ = _ => destruct (of_hex_literal c s); [cbn [bind] in K|discriminate K..] end. exact (make_p_minus_n _ _ _ _ _ _ _ _ _ K).
Qed.
Lemma named_usable wasm m C : In m named_curves -> named_curve wasm m = Ok C -> prime (value (cu_p C)) /\ forall Pp : prime (value (cu_p C)), usable (named_cap wasm m) C Pp.
Proof.
  intros H K. destruct (named_holds wasm m H) as (C' & K' & HH). rewrite K in K'. injection K' as <-. destruct (named_consistent m H) as (CC & _ & (PN1 & PN2) & B0).
  destruct HH as (_ & Ep & _ & Ea & _ & Eb & (x & y & Eg & Fx & Ex & Fy & Ey) & _ & En & _). pose proof (orders_prime m H) as Pn.
  destruct (curves_checked m H) as (ce & uv & CK). unfold curve_checked in CK. rewrite <- Ep, <- Ea, <- Eb, <- Ex, <- Ey, <- En in CK. assert (Pn' : prime (value (cu_n C))) by (rewrite En; exact Pn).
  pose proof (check_curve_ok _ _ _ _ _ _ _ _ CK Pn') as (PP & ALL). split; [exact PP|]. intros Pp. destruct (ALL Pp) as (T2 & TD & TG & TK & NR & TA).
  assert (P27 : 27 < hexval (pm_p m)) by (clear - H; cbn [named_curves In] in H; repeat (destruct H as [<-|H]; [vm_compute; reflexivity|]); destruct H).
  split; [exact (named_ecdsa wasm m C Pp H K Pn)|]. split; [rewrite Eb; exact B0|]. split; [rewrite Ep, En; lia|]. split; [rewrite Ep, En; lia|]. split; [exact (named_p_minus_n wasm m C K)|].
  assert (NS : forall x, ~ satisfies C x 0).
  { intros z S. apply (NR (zmk _ Pp z)). cbn [on_curve]. change (0%f : Zp _ Pp) with (zmk _ Pp 0). rewrite !(hom_mul C Pp), !(hom_add C Pp). apply zmk_eq. exact S. }
  split; [|split; [exact NS|exact TA]].
  rewrite Eg. unfold aff_pt. cbn [option_map fst snd abs_aff]. destruct (_ && _) eqn:E; [|discriminate]. exfalso. apply andb_prop in E. destruct E as [_ E]. unfold fb in E. destruct (feq_dec _ _) as [E0|]; [|discriminate]. apply (NR (zmk _ Pp (value (fv x)))). rewrite <- E0 at 1. exact TG.
Qed.

Lemma named_facts m : In m named_curves -> pm_h m = 1 /\ hexval (pm_n m) <> hexval (pm_p m) - 1 /\ (bitlen (hexval (pm_n m)) mod 8 = 0 \/ pm_bits m = 521 /\ bitlen (hexval (pm_n m)) = 521).
Proof. cbn [named_curves In]. intros H. repeat (destruct H as [<-|H]; [split; [reflexivity|split; [vm_compute; discriminate|first [left; vm_compute; reflexivity|right; split; vm_compute; reflexivity]]]|]). destruct H. Qed.

(** *** the claims about curves, for the named ones *)
Section NAMED.
Variables (wasm : bool) (m : params) (C : curve).
Hypothesis IN : In m named_curves.
Hypothesis NC : named_curve wasm m = Ok C.
Variable Pp : prime (value (cu_p C)).
Notation c := (named_cap wasm m).
Notation A := (kval (cu_p C) Pp (cu_a C)). Notation B := (kval (cu_p C) Pp (cu_b C)). Notation G := (aff_pt (cu_p C) Pp (cu_g C)). Notation N := (value (cu_n C)).
Notation on := (on_curve A B).
Lemma nU : usable c C Pp. Proof. exact (proj2 (named_usable wasm m C IN NC) Pp). Qed.
Lemma nEC : ecdsa_curve c C Pp. Proof. apply nU. Qed.
Lemma nB0 : value (cu_b C) <> 0. Proof. apply nU. Qed.
Lemma nPN : value (cu_p C) <= 2 * N. Proof. apply nU. Qed.
Lemma nN : 2 < N < value (cu_p C). Proof. apply nU. Qed.
Lemma nPM : cu_p_minus_n C = op_sub c (cu_p C) (cu_n C). Proof. apply nU. Qed.
Lemma nG0 : G <> Inf. Proof. apply nU. Qed.
Lemma nS0 x : ~ satisfies C x 0. Proof. apply nU. Qed.
Lemma nAll X : on X -> zmul A N X = Inf. Proof. apply nU. Qed.
Lemma nKG : zmul A N G = Inf. Proof. apply nAll, (eGon c C Pp nEC). Qed.
Lemma nh : cu_h C = pm_h m. Proof. destruct (named_holds wasm m IN) as (C' & K' & HH). rewrite NC in K'. injection K' as <-. destruct HH as (_ & _ & _ & _ & _ & _ & _ & _ & _ & H & _). exact H. Qed.
Lemma n_value : N = hexval (pm_n m) /\ value (cu_p C) = hexval (pm_p m). Proof. destruct (named_holds wasm m IN) as (C' & K' & HH). rewrite NC in K'. injection K' as <-. split; apply HH. Qed.
Lemma named_verify : curve_verify c C = Ok true.
Proof.
  pose proof nEC as EC. destruct EC as ((CO & CE) & P8 & Gg & Gon & Mn & Pn). destruct nU as (_ & B0 & PN & NN & _ & G0 & _ & _). pose proof nh as Hh. pose proof nKG as KG. destruct n_value as (EN & EP).
  destruct (named_facts m IN) as (H1 & NE & _). rewrite <- EN, <- EP in NE.
  destruct CO as (Mp & P3 & (Va & Ra) & (Vb & Rb) & D).
  destruct (curve_verify_std c C Pp Mp CE Va Vb Gg (proj1 Mn) ltac:(apply (room_1 c (cu_n C) Mn)) ltac:(lia)) as (v & -> & HV). f_equal. apply HV.
  split; [lia|]. split; [lia|]. split; [exact Ra|]. split; [exact Rb|]. split; [|split; [tauto|split; lia]].
  destruct (named_consistent m IN) as (CC & _). destruct (named_holds wasm m IN) as (C' & K' & HH). rewrite NC in K'. injection K' as <-. destruct HH as (_ & _ & _ & Ea & _ & Eb & _). rewrite Ea, Eb, EP. apply CC.
Qed.
Notation digest_fits := (digest_fits m).
Lemma nFit msg : digest_fits msg -> fits_order C msg.
Proof.
  intros H. unfold fits_order. rewrite (proj1 n_value). unfold digest_fits in H. destruct (named_facts m IN) as (_ & _ & [K|(K1 & K2)]); [left; exact K|].
  right. destruct H as [H|H]; [contradiction|]. rewrite K2. lia.
Qed.
Notation acc := (accepts (coord (cu_p C) Pp) A G N).
Lemma named_ecdsa_verify q msg r s : good2 c (cu_p C) q -> on (aff_pt (cu_p C) Pp q) -> all_bytes msg -> digest_fits msg -> valid c r -> valid c s ->
  exists v, ecdsa_verify c C q msg r s = Ok v /\ (v = true <-> acc (aff_pt (cu_p C) Pp q) (leftmost (bitlen N) msg) (value r) (value s)).
Proof. intros Gq Cq Am Fm Vr Vs. apply (verify_std c C Pp nEC); auto using nPN, nFit. Qed.
Lemma named_sign d k q msg r s : good2 c (cu_p C) q -> aff_pt (cu_p C) Pp q = zmul A d G -> 0 < d < N -> all_bytes msg -> digest_fits msg -> valid c r -> valid c s ->
  signature (coord (cu_p C) Pp) A G N d k (leftmost (bitlen N) msg) (value r) (value s) -> ecdsa_verify c C q msg r s = Ok true.
Proof.
  intros Gq Eq Hd' Am Fm Vr Vs. apply (sign_verify c C Pp nEC nKG nPN d k q msg r s); auto using nFit.
  destruct (aff_is_identity (fe_ops c (cu_p C)) q) eqn:E; [|reflexivity]. apply (aff_id_claim c (cu_p C) Pp _ _ (eCO c C Pp nEC)) in E; [|exact Gq]. rewrite Eq in E. assert (d = 0); [|lia].
  apply (multiples_distinct c C Pp nEC d 0 nKG nG0); [lia|pose proof nN; lia|]. rewrite E. reflexivity.
Qed.
Lemma named_recover msg r s id v : all_bytes msg -> digest_fits msg -> valid c r -> valid c s -> 0 <= id ->
  exists Q, ecdsa_recover c C msg r s id v = Ok Q /\ good2 c (cu_p C) Q /\ (aff_is_identity (fe_ops c (cu_p C)) Q = true \/ on (aff_pt (cu_p C) Pp Q) /\ ecdsa_verify c C Q msg r s = Ok true).
Proof.
  intros Am Fm Vr Vs Hid. destruct (Z_lt_ge_dec (value r) (value (cu_p C))) as [Rp|Rp].
  - apply (recover_verify c C Pp nEC nPM nKG nPN); auto using nFit, nAll. intros _. exact nB0.
  - pose proof nN. exists None. split; [|split; [exact I|left; reflexivity]]. unfold ecdsa_recover. rewrite (range_claim c) by (try assumption; apply (eHn c C Pp nEC)).
    replace ((1 <=? value r) && (value r <? N) && (1 <=? value s) && (value s <? N)) with false by (destruct (Z.ltb_spec (value r) N); [lia|rewrite andb_false_r; reflexivity]). reflexivity.
Qed.
Lemma named_recover_key msg r s v q : all_bytes msg -> digest_fits msg -> valid c r -> valid c s -> good2 c (cu_p C) q -> on (aff_pt (cu_p C) Pp q) -> ecdsa_verify c C q msg r s = Ok true ->
  exists id Q, 0 <= id <= 3 /\ ecdsa_recover c C msg r s id v = Ok Q /\ good2 c (cu_p C) Q /\ raw_pt (cu_p C) Pp Q = aff_pt (cu_p C) Pp q.
Proof.
  intros Am Fm Vr Vs Gq Cq K. destruct (named_ecdsa_verify q msg r s Gq Cq Am Fm Vr Vs) as (v' & K' & HV). rewrite K in K'. injection K' as <-. destruct (proj1 HV eq_refl) as (_ & HR & _). pose proof nN.
  apply (recover_key c C Pp nEC nPM nKG nPN) with (s := s); auto using nFit, nAll; try lia. intros _. exact nB0.
Qed.
Lemma named_codec Q compress : good2 c (cu_p C) Q -> on (aff_pt (cu_p C) Pp Q) ->
  exists R, decode_point c C (encode_point c C Q compress) = Ok R /\ good2 c (cu_p C) R /\ aff_eqb (fe_ops c (cu_p C)) R Q = true.
Proof.
  intros GQ CQ. pose proof (eCB c C Pp nEC) as CB. destruct (aff_is_identity (fe_ops c (cu_p C)) Q) eqn:E.
  - replace (encode_point c C Q compress) with (encode_point c C Q false); [apply (roundtrip_claim c C Pp CB); [exact GQ|discriminate]|].
    rewrite !(encode_point_claim c C Pp CB) by exact GQ. destruct Q as [[x y]|]; [|reflexivity]. destruct GQ as (Hx & Hy). rewrite (id_values c C Pp CB) in E by assumption. rewrite E. reflexivity.
  - apply (roundtrip_claim c C Pp CB); [exact GQ|]. intros _. destruct Q as [[x y]|]; [|exact I].
    assert (S : satisfies C (value (fv x)) (value (fv y))).
    { apply (on_satisfies C Pp). pose proof (aff_id_claim c (cu_p C) Pp _ _ (proj1 CB) _ GQ) as ID. rewrite E in ID. unfold aff_pt in *. cbn [option_map fst snd abs_aff] in *. destruct (_ && _); [|exact CQ]. assert (false = true) by (apply ID; reflexivity). discriminate. }
    split; [exact S|]. intros Y0. rewrite Y0 in S. exact (nS0 _ S).
Qed.
Lemma named_decompress x odd v : reduced c (cu_p C) x -> exists R, decompress_point c C x odd v = Ok R /\ good2 c (cu_p C) R /\ (R = None <-> ~ abscissa C (value x)) /\
    (forall u y, R = Some (u, y) -> value (fv u) = value x /\ satisfies C (value x) (value (fv y)) /\ Z.odd (value (fv y)) = odd).
Proof.
  intros Rx. destruct (decompress_claim c C Pp x odd v (eCB c C Pp nEC) Rx) as (R & K & GR & HN & HS). exists R. split; [exact K|]. split; [exact GR|].
  destruct (decompress_odd_order_claim c C Pp x odd v (eCB c C Pp nEC) Rx nS0) as (R' & K' & HN'). rewrite K in K'. injection K' as <-. split; [exact HN'|].
  intros u y E. destruct (HS u y E) as (H1 & H2 & H3 & _). auto.
Qed.
Lemma named_generate x : valid c x ->
  (0 < value x < N -> exists R, generate_point c C x = Ok R /\ good2 c (cu_p C) R /\ aff_pt (cu_p C) Pp R = zmul A (value x) G /\ aff_is_identity (fe_ops c (cu_p C)) R = false) /\
  (~ 0 < value x < N -> generate_point c C x = Abort).
Proof.
  intros Vx. destruct (generate_claim c C Pp nEC x Vx nB0) as (H1 & H2). split; [|exact H2]. intros Hx. destruct (H1 Hx) as (R & K & GR & ER).
  destruct (generate_injective c C Pp nEC x x Vx Vx nB0 nKG nG0 Hx Hx) as (R' & _ & K' & _ & I & _). rewrite K in K'. injection K' as <-. exists R. auto.
Qed.
Lemma named_make_point x y : valid c x -> valid c y ->
  let Q := Some (mkfe x (Some (cu_p C)), mkfe y (Some (cu_p C))) in
  let fine := 0 <= value x < value (cu_p C) /\ 0 <= value y < value (cu_p C) /\ satisfies C (value x) (value y) in
  (fine -> make_point c C x y true = Ok Q /\ good2 c (cu_p C) Q /\ on (aff_pt (cu_p C) Pp Q)) /\ (~ fine -> make_point c C x y true = Abort).
Proof.
  intros Vx Vy Q fine. destruct (make_point_claim c C Pp x y true (eCB c C Pp nEC) (proj1 (eHn c C Pp nEC)) ltac:(intros _; exact nB0) Vx Vy) as (H1 & H2). fold Q in H1.
  assert (ON : fine -> on (aff_pt (cu_p C) Pp Q)).
  { intros (_ & _ & S). unfold aff_pt, Q. cbn [option_map fst snd abs_aff]. destruct (_ && _); [exact I|]. apply (on_satisfies C Pp (mkfe x _) (mkfe y _)). exact S. }
  split.
  - intros HF. destruct H1 as (K & GQ); [|split; [exact K|split; [exact GQ|apply ON, HF]]]. pose proof (ON HF) as O'. destruct HF as (Rx & Ry & S). split; [exact Rx|]. split; [exact Ry|]. intros _. split; [|split; [exact S|apply nAll, O']].
    intros (_ & Y0). rewrite Y0 in S. exact (nS0 _ S).
  - intros NF. apply H2. intros (Rx & Ry & H). apply NF. split; [exact Rx|]. split; [exact Ry|]. apply H. reflexivity.
Qed.
End NAMED.
