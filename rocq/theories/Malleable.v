(** (r, s) and (r, n - s) are accepted together. *)
From Coq Require Import List ZArith Znumtheory Bool Lia.
From Verif Require Import Outcome UtilsModel UtilsSpec LoopModel WordsModel WordsSpec BigintModel BigintSpec NumModel FpModel FpSpec EcGroup EcGroupProofs ZpField EcModel EcSpec EcScalar EcFeSpec EcCurveModel EcClaims EcCurveSpec EcdsaModel EcdsaSpec EcdsaProofs EcdsaClaims.
Import ListNotations.
Open Scope Z_scope.

Section MAL.
Variable F : fieldT.
Variable toZ : F -> Z.
Variables a b : F.
Hypothesis two : (1 + 1)%f <> (0%f : F).
Hypothesis Hdi : disc a b <> 0%f.
Variable G : point F.
Variable n : Z.
Hypothesis N1 : 1 < n.
Hypothesis CG : on_curve a b G.
Hypothesis KG : zmul a n G = Inf.
Lemma negated_multiple X u : on_curve a b X -> zmul a n X = Inf -> zmul a ((u * -1) mod n) X = popp (zmul a (u mod n) X).
Proof.
  intros CX KX. rewrite !(zmul_mod F a b two Hdi n) by assumption. replace (u * -1) with (- u) by ring. apply (zmul_opp F a b). exact CX.
Qed.
Lemma accepts_negated Q e r s : on_curve a b Q -> zmul a n Q = Inf -> accepts toZ a G n Q e r s -> accepts toZ a G n Q e r (n - s).
Proof.
  intros CQ KQ (Q0 & Hr & Hs & w & x & y & W & E & Ex). split; [exact Q0|]. split; [exact Hr|]. split; [lia|]. exists (w * -1), x, (- y)%f.
  split; [|split; [|exact Ex]].
  - replace ((n - s) * (w * -1)) with (s * w + (- w) * n) by ring. rewrite Z.mod_add by lia. exact W.
  - replace (e * (w * -1)) with (e * w * -1) by ring. replace (r * (w * -1)) with (r * w * -1) by ring. rewrite !negated_multiple by assumption.
    rewrite <- (opp_add F a b two); [|apply (zmul_curve F a b two); assumption..]. rewrite E. reflexivity.
Qed.
End MAL.

Lemma verify_negated c C (Pp : prime (value (cu_p C))) q msg r s s' : ecdsa_curve c C Pp -> value (cu_p C) <= 2 * value (cu_n C) -> good2 c (cu_p C) q ->
  on_curve (kval (cu_p C) Pp (cu_a C)) (kval (cu_p C) Pp (cu_b C)) (aff_pt (cu_p C) Pp q) -> all_bytes msg -> fits_order C msg -> valid c r -> valid c s -> valid c s' ->
  zmul (kval (cu_p C) Pp (cu_a C)) (value (cu_n C)) (aff_pt (cu_p C) Pp (cu_g C)) = Inf -> zmul (kval (cu_p C) Pp (cu_a C)) (value (cu_n C)) (aff_pt (cu_p C) Pp q) = Inf ->
  value s' = value (cu_n C) - value s -> ecdsa_verify c C q msg r s = ecdsa_verify c C q msg r s'.
Proof.
  intros EC PN Gq Cq Am Fm Vr Vs Vs' KG KQ E. pose proof (eCO c C Pp EC) as CO.
  pose proof (two_ne c (cu_p C) Pp _ _ CO) as TW. pose proof (Hd c (cu_p C) Pp _ _ CO) as HD. pose proof (eN1 c C Pp EC) as N1.
  destruct (verify_std c C Pp EC q msg r s PN Gq Cq Am Fm Vr Vs) as (v & -> & HV). destruct (verify_std c C Pp EC q msg r s' PN Gq Cq Am Fm Vr Vs') as (v' & -> & HV').
  f_equal. rewrite E in HV'. destruct v, v'; try reflexivity; exfalso.
  - assert (false = true); [|discriminate]. apply HV'. apply (accepts_negated _ _ _ _ TW HD _ _ N1 (eGon c C Pp EC) KG _ _ _ _ Cq KQ). apply HV. reflexivity.
  - assert (false = true); [|discriminate]. apply HV. replace (value s) with (value (cu_n C) - (value (cu_n C) - value s)) by lia. apply (accepts_negated _ _ _ _ TW HD _ _ N1 (eGon c C Pp EC) KG _ _ _ _ Cq KQ). apply HV'. reflexivity.
Qed.
