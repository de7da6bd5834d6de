(** ECDSA verification for every size of p and n: the exact condition. *)
From Coq Require Import List ZArith Znumtheory Bool Lia.
From Verif Require Import Outcome LoopModel WordsModel WordsSpec UtilsSpec WordsProofs BigintModel BigintSpec BigintProofs BigintBits BigintBytes BigintClaims NumModel NumProofs JacobiSpec FpModel FpSpec FpProofs FpSqrt FpClaims EcGroup EcGroupProofs ZpField EcModel EcSpec EcScalar EcFeSpec EcTransfer EcCurveModel EcClaims EcLaws EcCurveSpec EcCodec EcCurveClaims EcdsaModel EcdsaSpec EcdsaProofs EcdsaClaims EcdsaExactSpec.
Import ListNotations.
Open Scope Z_scope.

Section VERIFY.
Variable c : cap.
Variable C : curve.
Variable Pp : prime (value (cu_p C)).
Hypothesis EC : ecdsa_curve c C Pp.
Notation p := (cu_p C). Notation P := (value (cu_p C)). Notation n := (cu_n C). Notation N := (value (cu_n C)).
Notation F := (GFp p Pp). Notation A := (kval p Pp (cu_a C)). Notation B := (kval p Pp (cu_b C)).
Notation G := (aff_pt p Pp (cu_g C)).
Notation on := (on_curve A B).
Notation O := (fe_ops c p).
Notation eHn := (EcdsaProofs.eHn c C Pp EC).
Notation eN1 := (EcdsaProofs.eN1 c C Pp EC).
Notation ePn := (EcdsaProofs.ePn c C Pp EC).
Notation eCO := (EcdsaProofs.eCO c C Pp EC).
Notation eCB := (EcdsaProofs.eCB c C Pp EC).
Lemma once_unique (X : point F) e r s w x y : (s * w) mod N = 1 -> padd A (zmul A ((e * w) mod N) G) (zmul A ((r * w) mod N) X) = Aff x y ->
  accepts_once (coord p Pp) A G N X e r s -> coord p Pp x = r \/ coord p Pp x = r + N.
Proof.
  intros W E (_ & _ & _ & w' & x' & y' & W' & E' & H). pose proof (inv_unique N s w w' eN1 W W') as U.
  rewrite (mul_inv_mod N e w w' U), (mul_inv_mod N r w w' U) in E. rewrite E in E'. injection E' as <- <-. exact H.
Qed.
Lemma once_not_inf (X : point F) e r s w : (s * w) mod N = 1 -> padd A (zmul A ((e * w) mod N) G) (zmul A ((r * w) mod N) X) = Inf ->
  accepts_once (coord p Pp) A G N X e r s -> False.
Proof.
  intros W E (_ & _ & _ & w' & x' & y' & W' & E' & H). pose proof (inv_unique N s w w' eN1 W W') as U.
  rewrite (mul_inv_mod N e w w' U), (mul_inv_mod N r w w' U) in E. congruence.
Qed.
Lemma verify_exact_lead q msg r s : good2 c p q -> on (aff_pt p Pp q) -> all_bytes msg -> valid c r -> valid c s ->
  exists v, ecdsa_verify c C q msg r s = Ok v /\
    (v = true <-> accepts_once (coord p Pp) A G N (aff_pt p Pp q) (lead n msg) (value r) (value s)).
Proof.
  intros Gq Cq Am Vr Vs. pose proof eN1 as N1. unfold ecdsa_verify.
  pose proof (aff_id_claim c p Pp _ _ eCO q Gq) as ID. destruct (aff_is_identity O q).
  { exists false. split; [reflexivity|]. split; [discriminate|]. intros (H & _). exfalso. apply H, ID. reflexivity. }
  rewrite (range_claim c) by (try assumption; apply eHn). destruct ((1 <=? value r) && (value r <? N) && (1 <=? value s) && (value s <? N)) eqn:RG; cbn [negb].
  2:{ exists false. split; [reflexivity|]. split; [discriminate|]. intros (_ & H1 & H2 & _). lia. }
  assert (Br : 1 <= value r < N) by (clear - RG; lia). assert (Bs : 1 <= value s < N) by (clear - RG; lia). clear RG.
  assert (Rr : reduced c n r) by (split; [exact Vr|clear - Br; lia]). assert (Rs : reduced c n s) by (split; [exact Vs|clear - Bs; lia]).
  destruct (digest_claim c n eHn msg Am) as (e & -> & Ve & Se & Ee & Le). cbn [bind].
  destruct (modinv_val c n eHn s Rs (prime_gcd c n eHn (value s) ePn ltac:(lia))) as (w & -> & Rw & W). cbn [bind].
  assert (E0 : 0 <= value e) by (rewrite Ee; destruct (Z.gtb_spec (lead n msg) N); lia).
  destruct (op_mul_val c n eHn e w Ve (proj1 Rw) Se (red_size c n eHn w Rw)) as (V1 & E1).
  destruct (op_mod_pos c n eHn (op_mul c e w) V1) as (u1 & -> & R1 & X1); [rewrite E1; destruct Rw; nia|]. cbn [bind].
  destruct (mulmod_val c n eHn r w Rr Rw) as (u2 & -> & R2 & X2). cbn [bind].
  destruct (combine_claim c C Pp EC u1 u2 q R1 R2 Gq Cq) as (R & R' & -> & KT & GR & XR). cbn [bind]. rewrite KT. cbn [bind].
  assert (X1' : value u1 = (lead n msg * value w) mod N).
  { rewrite X1, E1, Zmult_mod, (digest_mod c n eHn msg e Ee), <- Zmult_mod. reflexivity. }
  rewrite X1', X2 in XR. clear X1 X1' X2 E1 E0 Ee Le. change (aff O) with (option (fe * fe)) in R'. destruct R' as [[x y]|].
  - destruct GR as (Hx & Hy). rewrite (id_values c C Pp eCB x y Hx Hy). cbn [raw_pt] in XR. pose proof Hx as (_ & Vx & Rx).
    destruct ((value (fv x) =? 0) && (value (fv y) =? 0)) eqn:Z0.
    { exists false. split; [reflexivity|]. split; [discriminate|]. intros H. pose proof (once_unique _ _ _ _ _ _ _ W (eq_sym XR) H) as U.
      unfold coord in *; rewrite (zval_fval c p Pp x Hx) in U. assert (value (fv x) = 0) as E by (clear - Z0; lia). rewrite E in U. clear - U Br N1. lia. }
    clear Z0.
    assert (K : exists x', (if negb (compare (fv x) n <? 0) then fe_sub_big c x n else Ok x) = Ok x' /\ valid c (fv x') /\ value (fv x') = if value (fv x) <? N then value (fv x) else value (fv x) - N).
    { pose proof (compare_spec c (fv x) n Vx (proj1 eHn)) as CM. unfold cmp_result in CM. destruct (Z.ltb_spec (value (fv x)) N) as [L|L].
      - replace (compare (fv x) n <? 0) with true by (clear - CM L; lia). exists x. auto.
      - replace (compare (fv x) n <? 0) with false by (clear - CM L; lia). cbn [negb]. destruct (fe_sub_claim c p (proj1 eCO) x (mkfe n (Some p)) Hx) as (z & K & (Hz & Vz)).
        + split; [reflexivity|]. split; [apply eHn|cbn [fv]; clear - N1 L Rx; lia].
        + unfold fe_sub in K. cbn [fv] in K, Vz. exists z. split; [exact K|]. split; [apply Hz|]. rewrite Vz, Z.mod_small by (clear - N1 L Rx; lia). reflexivity. }
    change (T O) with fe; destruct K as (x' & -> & Vx' & Ex'). cbn [bind]. pose proof (compare_spec c (fv x') r Vx' Vr) as CM. unfold cmp_result in CM.
    eexists. split; [reflexivity|]. split.
    + intros H. split; [intros I; apply ID in I; discriminate|]. split; [exact Br|]. split; [exact Bs|]. exists (value w), (fval p Pp x), (fval p Pp y). split; [exact W|]. split; [symmetry; exact XR|].
      unfold coord in *; rewrite (zval_fval c p Pp x Hx). assert (E : value (fv x') = value r) by (clear - H CM; lia). clear H CM. destruct (Z.ltb_spec (value (fv x)) N) as [L|L]; clear - Ex' E; lia.
    + intros H. pose proof (once_unique _ _ _ _ _ _ _ W (eq_sym XR) H) as U. unfold coord in *; rewrite (zval_fval c p Pp x Hx) in U. destruct (Z.ltb_spec (value (fv x)) N) as [L|L]; clear - U Ex' CM L Br; lia.
  - exists false. split; [reflexivity|]. split; [discriminate|]. intros H. exfalso. apply (once_not_inf _ _ _ _ _ W (eq_sym XR) H).
Qed.
Lemma verify_exact q msg r s : good2 c p q -> on (aff_pt p Pp q) -> all_bytes msg -> valid c r -> valid c s ->
  exists v, ecdsa_verify c C q msg r s = Ok v /\
    (v = true <-> accepts_once (coord p Pp) A G N (aff_pt p Pp q) (leftmost (8 * byte_length n) msg) (value r) (value s)).
Proof.
  intros Gq Cq Am Vr Vs. pose proof (byte_length_bounds c n (proj1 eHn)) as (B1 & _). rewrite <- lead_leftmost by (try exact Am; lia). apply verify_exact_lead; assumption.
Qed.
(** how it relates to the standard's condition *)
Lemma once_standard (X : point F) e r s : accepts_once (coord p Pp) A G N X e r s <->
  accepts (coord p Pp) A G N X e r s /\ forall w x y, (s * w) mod N = 1 -> padd A (zmul A ((e * w) mod N) G) (zmul A ((r * w) mod N) X) = Aff x y -> coord p Pp x < 2 * N.
Proof.
  pose proof eN1 as N1. split.
  - intros O1. pose proof O1 as (H & R & S & w & x & y & W & E & D). split.
    + split; [exact H|]. split; [exact R|]. split; [exact S|]. exists w, x, y. split; [exact W|]. split; [exact E|]. destruct D as [->| ->]; [apply Z.mod_small; lia|].
      replace (r + N) with (r + 1 * N) by lia. rewrite Z.mod_add by lia. apply Z.mod_small. lia.
    + intros w' x' y' W' E'. destruct (once_unique X e r s w' x' y' W' E' O1) as [-> | ->]; clear - R N1; lia.
  - intros ((H & R & S & w & x & y & W & E & D) & L). split; [exact H|]. split; [exact R|]. split; [exact S|]. exists w, x, y. split; [exact W|]. split; [exact E|].
    specialize (L w x y W E). pose proof (Z.div_mod (coord p Pp x) N ltac:(lia)) as DM. rewrite D in DM. assert (0 <= coord p Pp x) by apply (zval_range P).
    assert (0 <= coord p Pp x / N < 2) by (split; [apply Z.div_pos; lia|apply Z.div_lt_upper_bound; lia]). assert (coord p Pp x / N = 0 \/ coord p Pp x / N = 1) as [Q|Q] by lia; rewrite Q in DM; lia.
Qed.
End VERIFY.
