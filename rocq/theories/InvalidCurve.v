(** Multiples of a pair off the curve are computed on the curve through that pair: the formulas never read b. *)
From Coq Require Import Field List ZArith Znumtheory Bool Lia.
From Verif Require Import Outcome UtilsModel UtilsSpec WordsModel WordsSpec BigintModel BigintSpec BigintProofs BigintClaims NumModel NumProofs FpModel FpSpec FpProofs FpClaims EcGroup EcGroupProofs ZpField EcModel EcSpec EcExact EcFeSpec EcTransfer EcScalar EcCurveModel EcClaims EcLaws EcCurveSpec EcCodec SafeSpec.
Import ListNotations.
Open Scope Z_scope.

Lemma own_b_on (F : fieldT) (a : F) P : on_curve a (own_b a P) P.
Proof. destruct P as [|x y]; [exact I|]. cbn [on_curve own_b]. pose proof (f_theory F) as T. destruct T as [R _ _ _]. destruct R. 
  rewrite Rsub_def. rewrite (Radd_comm (y * y)%f), Radd_assoc, Ropp_def, Radd_0_l. reflexivity. Qed.

Section INV.
Variable c : cap.
Variable C : curve.
Variable Pp : prime (value (cu_p C)).
Hypothesis CB : curve_base c C Pp.
Notation p := (cu_p C). Notation P := (value (cu_p C)). Notation O := (fe_ops c p). Notation F := (GFp p Pp). Notation E := (cu_coeffs c C). Notation A := (kval p Pp (cu_a C)).
Lemma big_exists (x : F) : exists v, reduced c p v /\ kval p Pp v = x.
Proof.
  pose proof (zval_range P x) as Rx. destruct (octets_spec _ _ (p_octets c C Pp CB _ Rx)) as (Ab & Lb & Eb).
  destruct (decode_word c C Pp CB _ Ab Lb) as (r & _ & Vr & Er & _). rewrite Eb in Er. exists r. assert (He : reduced c p r) by (split; [exact Vr|rewrite Er; exact Rx]).
  split; [exact He|]. apply zval_inj. rewrite (zval_kval c p Pp _ He). exact Er.
Qed.
Lemma other_curve (X : point F) : disc A (own_b A X) <> 0%f -> exists b, curve_ok c p Pp (cu_a C) b /\ kval p Pp b = own_b A X /\ (own_b A X <> 0%f -> value b <> 0).
Proof.
  intros D. destruct (big_exists (own_b A X)) as (b & Rb & Eb). exists b. destruct CB as ((Mp & P3 & Ra & _ & _) & _). split; [|split; [exact Eb|]].
  - split; [exact Mp|]. split; [exact P3|]. split; [exact Ra|]. split; [exact Rb|]. rewrite Eb. exact D.
  - intros N Z0. apply N. rewrite <- Eb. unfold kval. rewrite Z0. reflexivity.
Qed.
Lemma zmul_stays (X : point F) s : disc A (own_b A X) <> 0%f -> on_curve A (own_b A X) (zmul A s X).
Proof.
  intros D. destruct (other_curve X D) as (b & CO' & Eb & _). rewrite <- Eb. apply zmul_curve; [apply (two_ne c p Pp _ _ CO')|rewrite Eb; apply own_b_on].
Qed.
Lemma invalid_aff Q s : good2 c p Q -> valid c s -> own_b A (aff_pt p Pp Q) <> 0%f -> disc A (own_b A (aff_pt p Pp Q)) <> 0%f ->
  exists R, aff_mul O E Q s = Ok R /\ good2 c p R /\ aff_pt p Pp R = zmul A (value s) (aff_pt p Pp Q) /\ on_curve A (own_b A (aff_pt p Pp Q)) (aff_pt p Pp R).
Proof.
  intros G V N D. destruct (other_curve _ D) as (b & CO' & Eb & Nb). destruct (aff_mul_claim c p Pp _ _ CO' (Nb N) Q s) as (R & K & GR & XR); try assumption; [rewrite Eb; apply own_b_on|].
  exists R. split; [rewrite (proj2 CB); exact K|]. split; [exact GR|]. split; [exact XR|]. rewrite XR. apply zmul_stays, D.
Qed.
Lemma invalid_proj Q s : good3 c p Q -> valid c s -> disc A (own_b A (proj_pt p Pp Q)) <> 0%f ->
  exists R, proj_mul O E Q s = Ok R /\ good3 c p R /\ proj_pt p Pp R = zmul A (value s) (proj_pt p Pp Q) /\ on_curve A (own_b A (proj_pt p Pp Q)) (proj_pt p Pp R).
Proof.
  intros G V D. destruct (other_curve _ D) as (b & CO' & Eb & Nb). destruct (proj_mul_claim c p Pp _ _ CO' Q s) as (R & K & GR & XR); try assumption; [rewrite Eb; apply own_b_on|].
  exists R. split; [rewrite (proj2 CB); exact K|]. split; [exact GR|]. split; [exact XR|]. rewrite XR. apply zmul_stays, D.
Qed.
Lemma invalid_jac Q s : 8 < P -> good3 c p Q -> valid c s -> room c (size s + 1) -> disc A (own_b A (jac_pt p Pp Q)) <> 0%f ->
  exists R, jac_mul O E c Q s = Ok R /\ good3 c p R /\ jac_pt p Pp R = zmul A (value s) (jac_pt p Pp Q) /\ on_curve A (own_b A (jac_pt p Pp Q)) (jac_pt p Pp R).
Proof.
  intros P8 G V RM D. destruct (other_curve _ D) as (b & CO' & Eb & Nb). destruct (jac_mul_claim c p Pp _ _ CO' P8 Q s) as (R & K & GR & XR); try assumption; [rewrite Eb; apply own_b_on|].
  exists R. split; [rewrite (proj2 CB); exact K|]. split; [exact GR|]. split; [exact XR|]. rewrite XR. apply zmul_stays, D.
Qed.
End INV.
