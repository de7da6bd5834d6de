(** scripts/ec.py against the library: the curves are the named ones, and the two verify the same signatures. *)
From Coq Require Import List ZArith Znumtheory Bool Lia.
From Verif Require Import Outcome UtilsModel UtilsSpec WordsModel WordsSpec BigintModel BigintSpec NumModel FpModel FpSpec EcGroup EcGroupProofs ZpField EcModel EcSpec EcScalar EcFeSpec EcCurveModel EcCurveSpec EcCodec EcdsaModel EcdsaSpec EcdsaProofs EcdsaClaims NamedModel NamedSpec NamedProofs CurveVerify GroupSpec NamedGroup ScriptModel ScriptSpec ScriptProofs ScriptPoints ScriptMul ScriptClaims.
Import ListNotations.
Open Scope Z_scope.

Lemma listed_claim : listed secp256k1 = py_secp256k1 /\ listed secp256r1 = py_secp256r1 /\ listed brainpoolP256r1 = py_brainpoolP256r1.
Proof. split; [|split]; vm_compute; reflexivity. Qed.
Lemma held_claim wasm m C : In m named_curves -> named_curve wasm m = Ok C -> held C = listed m.
Proof.
  intros IN NC. destruct (named_holds wasm m IN) as (C' & K & H). rewrite NC in K. injection K as <-. destruct H as (_ & Ep & _ & Ea & _ & Eb & (x & y & Eg & _ & Ex & _ & Ey) & _ & En & Eh & _).
  unfold held, listed, coords. rewrite Ep, Ea, Eb, Eg, En, Eh. cbn [option_map fst snd]. rewrite Ex, Ey. reflexivity.
Qed.
Section A.
Variable c : cap.
Variable C : curve.
Hypothesis Pp : prime (value (cu_p C)).
Hypothesis U : usable c C Pp.
Notation cv := (held C).
Lemma generator_claim : aff_pt (cu_p C) Pp (cu_g C) <> Inf -> aff_pt (cu_p C) Pp (cu_g C) = spt Pp (py_g cv).
Proof.
  intros G0. unfold aff_pt in *. cbn [py_g held]. destruct (cu_g C) as [[x y]|]; [|reflexivity]. cbn [option_map coords fst snd abs_aff spt] in *. destruct (_ && _); [congruence|reflexivity].
Qed.
Lemma sound_claim : sound cv Pp.
Proof.
  destruct U as (EC & B0 & P27 & N2 & _ & G0 & NS & K). destruct EC as (CB & _ & Gg & Og & _ & Pn). destruct CB as ((_ & P3 & _ & _ & D) & _).
  split; [split; [cbn; lia|exact D]|]. split; [|split; [|split; [|split; [exact Pn|exact K]]]].
  - intros x H. apply (NS (zval x)). unfold satisfies, rhs. cbn [on_curve] in H. rewrite <- (zmk_val _ Pp x) in H. unfold sa, sb in H. cbn [py_p py_a py_b held] in H.
    change (0%f : Zp _ Pp) with (zmk _ Pp 0) in H. rewrite !(hom_mul C Pp), !(hom_add C Pp) in H. apply (f_equal zval) in H. rewrite !zval_mk in H. exact H.
  - destruct (cu_g C) as [[x y]|] eqn:E; cbn [py_g held coords]; rewrite E; cbn [option_map tidy fst snd]; [|exact I]. destruct Gg as (Gx & Gy). split; [apply Gx|apply Gy].
  - exact (eq_ind _ (fun X : point (Zp _ Pp) => on_curve (sa cv Pp) (sb cv Pp) X) Og _ (generator_claim G0)).
Qed.
Lemma point_claim q : q <> None -> son cv Pp (coords q) -> good2 c (cu_p C) q -> aff_pt (cu_p C) Pp q = spt Pp (coords q) /\ tidy (value (cu_p C)) (coords q).
Proof.
  intros N O G. destruct q as [[x y]|]; [|congruence]. cbn [coords option_map fst snd] in *. split; [|destruct G as (Gx & Gy); split; [apply Gx|apply Gy]].
  unfold aff_pt. cbn [option_map abs_aff fst snd spt]. destruct (_ && _) eqn:E; [|reflexivity]. exfalso. apply andb_prop in E as (E1 & E2). unfold fb in *.
  destruct (feq_dec (fval (cu_p C) Pp y) 0%f) as [Y|]; [|discriminate]. destruct (proj1 (proj2 sound_claim) (fval (cu_p C) Pp x)). exact (eq_ind _ (fun v : Zp _ Pp => on_curve (sa cv Pp) (sb cv Pp) (Aff (fval (cu_p C) Pp x : Zp _ Pp) v)) O _ Y).
Qed.
Lemma agree_claim q msg r s : q <> None -> good2 c (cu_p C) q -> son cv Pp (coords q) -> all_bytes msg -> fits_order C msg -> valid c r -> valid c s ->
  exists v, ecdsa_verify c C q msg r s = Ok v /\
    let R := py_verify (coords q) (leftmost (bitlen (value (cu_n C))) msg) (value r) (value s) cv in
    (v = true -> R = Ret true) /\ (v = false -> R = Ret false \/ R = Raise TypeError /\ vanishes cv Pp (coords q) (leftmost (bitlen (value (cu_n C))) msg) (value r) (value s)).
Proof.
  intros N G O AB FO Vr Vs. destruct (point_claim q N O G) as (EQ & T). pose proof U as (EC & _ & P27 & _ & _ & G0 & _).
  assert (OQ : on_curve (kval (cu_p C) Pp (cu_a C)) (kval (cu_p C) Pp (cu_b C)) (aff_pt (cu_p C) Pp q)) by (rewrite EQ; exact O).
  destruct (verify_std c C Pp EC q msg r s ltac:(lia) G OQ AB FO Vr Vs) as (v & E & A). exists v. split; [exact E|]. cbn zeta.
  pose proof (generator_claim G0) as EG.
  rewrite EG, EQ in A. assert (NQ : coords q <> None) by (destruct q; [discriminate|congruence]).
  pose proof (verify_standard cv Pp sound_claim (coords q) (leftmost (bitlen (value (cu_n C))) msg) (value r) (value s) T O NQ) as V.
  assert (W : v = true <-> py_verify (coords q) (leftmost (bitlen (value (cu_n C))) msg) (value r) (value s) cv = Ret true) by (rewrite V; exact A).
  destruct (verify_claim' cv Pp sound_claim (coords q) (leftmost (bitlen (value (cu_n C))) msg) (value r) (value s) T O) as (TRI & _ & VA & _).
  split; intros ->; [apply W; reflexivity|]. destruct TRI as [K|[K|K]]; [apply W in K; discriminate|left; exact K|right; split; [exact K|apply VA; exact K]].
Qed.
End A.
