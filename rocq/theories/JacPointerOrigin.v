(** Which curve object the results of the operations refer to (C69). *)
From Coq Require Import List ZArith Bool Lia.
From Verif Require Import Outcome LoopModel WordsModel BigintModel NumModel FpModel EcModel EcCurveModel PointerModel PointerSpec PointerClaims JacPointerModel JacPointerSpec JacPointerClaims.
Import ListNotations.
Open Scope Z_scope.

Ltac unbind H := repeat match type of H with
  | bind ?m _ = Ok _ => let E := fresh "E" in destruct m eqn:E; cbn [bind] in H; try discriminate H
  | (if ?b then _ else _) = Ok _ => let E := fresh "E" in destruct b eqn:E; try discriminate H
  end.
Section ORIGIN.
Variables (c : cap) (h : heap).
Lemma same_tc P x y z R : same_tcurve P x y z = Ok R -> tc R = tc P.
Proof. unfold same_tcurve. intros H. unbind H. injection H as <-. reflexivity. Qed.
Lemma inverted_tc P R : to_inverted c h P = Ok R -> tc R = tc P.
Proof. unfold to_inverted. intros H. unbind H; [injection H as <-; reflexivity|]. exact (same_tc _ _ _ _ _ H). Qed.
Lemma ho_doubled_tc P R : ho_doubled c h P = Ok R -> tc R = tc P \/ R = to_default c.
Proof. unfold ho_doubled. intros H. unbind H; first [injection H as <-; right; reflexivity|left; exact (same_tc _ _ _ _ _ H)]. Qed.
Lemma jo_doubled_tc P R : jo_doubled c h P = Ok R -> tc R = tc P \/ R = to_default c.
Proof. unfold jo_doubled. intros H. unbind H; first [injection H as <-; first [left; reflexivity|right; reflexivity]|left; exact (same_tc _ _ _ _ _ H)]. Qed.
Lemma ho_add_tc P Q R : ho_add c h P Q = Ok R -> (to_is_identity h P = Ok true /\ R = Q) \/ (to_is_identity h P = Ok false /\ (tc R = tc P \/ R = to_default c)).
Proof.
  unfold ho_add. destruct (to_is_identity h P) as [[|]| | |]; cbn [bind]; intros H; try discriminate H; [left; split; [reflexivity|congruence]|right; split; [reflexivity|]].
  unbind H; first [injection H as <-; first [left; reflexivity|right; reflexivity]|left; exact (same_tc _ _ _ _ _ H)|exact (ho_doubled_tc _ _ H)].
Qed.
Lemma addex_tc P Q a b d e R : jo_addex c h P Q a b d e = Ok R -> tc R = tc P \/ R = to_default c.
Proof. unfold jo_addex. intros H. unbind H; first [injection H as <-; right; reflexivity|left; exact (same_tc _ _ _ _ _ H)|exact (jo_doubled_tc _ _ H)]. Qed.
Lemma jo_add_tc P Q R : jo_add c h P Q = Ok R ->
  (to_is_identity h P = Ok true /\ R = Q) \/
  (to_is_identity h P = Ok false /\ to_is_identity h Q = Ok true /\ R = P) \/
  (to_is_identity h P = Ok false /\ to_is_identity h Q = Ok false /\ (tc R = tc (if fo_is_one (tz P) && negb (fo_is_one (tz Q)) then Q else P) \/ R = to_default c)).
Proof.
  unfold jo_add. destruct (to_is_identity h P) as [[|]| | |]; cbn [bind]; intros H; try discriminate H; [left; split; [reflexivity|congruence]|right].
  destruct (to_is_identity h Q) as [[|]| | |]; cbn [bind] in H; try discriminate H; [left; split; [reflexivity|split; [reflexivity|congruence]]|right; split; [reflexivity|split; [reflexivity|]]].
  destruct (fo_is_one (tz P)), (fo_is_one (tz Q)); cbn [andb negb] in H |- *; unfold jo_add_z_1, jo_add_z2_1, jo_add_ne in H; unbind H; exact (addex_tc _ _ _ _ _ _ _ H).
Qed.
(** every result of a chain of operations refers to an object one of its arguments refers to, or to none *)
Definition among (l : list (option nat)) (R : tobj) : Prop := In (tc R) (None :: l).
Lemma same_agree {A} (T : A -> Prop) (f : outcome A) : (forall x, f = Ok x -> T x) -> agree (fun x y => x = y /\ T x) f f.
Proof. intros H. destruct f as [a| | |]; cbn; auto. Qed.
Lemma agree_same {A} (T : A -> Prop) (f g : outcome A) R : agree (fun x y => x = y /\ T x) f g -> f = Ok R -> T R.
Proof. intros H ->. destruct g; cbn in H; try contradiction. apply H. Qed.
Section CLOSED.
Variable l : list (option nat).
Let rr (x y : tobj) : Prop := x = y /\ among l x.
Lemma among_tc P R : tc R = tc P -> among l P -> among l R.
Proof. unfold among. intros ->. auto. Qed.
Lemma among_or P R : tc R = tc P \/ R = to_default c -> among l P -> among l R.
Proof. intros [H| ->] HP; [exact (among_tc P R H HP)|left; reflexivity]. Qed.
Lemma ho_add_rr u v u' v' : rr u u' -> rr v v' -> agree rr (ho_add c h u v) (ho_add c h u' v').
Proof. intros (<- & Hu) (<- & Hv). apply same_agree. intros x E. destruct (ho_add_tc _ _ _ E) as [(_ & ->)|(_ & K)]; [exact Hv|exact (among_or u x K Hu)]. Qed.
Lemma jo_add_rr u v u' v' : rr u u' -> rr v v' -> agree rr (jo_add c h u v) (jo_add c h u' v').
Proof.
  intros (<- & Hu) (<- & Hv). apply same_agree. intros x E. destruct (jo_add_tc _ _ _ E) as [(_ & ->)|[(_ & _ & ->)|(_ & _ & K)]]; [exact Hv|exact Hu|].
  destruct (fo_is_one (tz u) && negb (fo_is_one (tz v))); [exact (among_or v x K Hv)|exact (among_or u x K Hu)].
Qed.
Lemma ho_dbl_rr u u' : rr u u' -> agree rr (ho_doubled c h u) (ho_doubled c h u').
Proof. intros (<- & Hu). apply same_agree. intros x E. exact (among_or u x (ho_doubled_tc _ _ E) Hu). Qed.
Lemma jo_dbl_rr u u' : rr u u' -> agree rr (jo_doubled c h u) (jo_doubled c h u').
Proof. intros (<- & Hu). apply same_agree. intros x E. exact (among_or u x (jo_doubled_tc _ _ E) Hu). Qed.
Lemma inv_rr u u' : rr u u' -> agree rr (to_inverted c h u) (to_inverted c h u').
Proof. intros (<- & Hu). apply same_agree. intros x E. exact (among_tc u x (inverted_tc _ _ E) Hu). Qed.
Lemma def_rr : rr (to_default c) (to_default c).
Proof. split; [reflexivity|left; reflexivity]. Qed.
Lemma ho_loop_rr P s R : among l P -> ho_loop c h P s = Ok R -> among l R.
Proof. intros HP. apply (agree_same _ _ (ho_loop c h P s)). apply (ladder_agree rr _ _ _ _ ho_add_rr ho_dbl_rr); [apply def_rr|split; [reflexivity|exact HP]]. Qed.
Lemma jo_loop_rr P s R : among l P -> jo_loop c h P s = Ok R -> among l R.
Proof.
  intros HP. unfold jo_loop. destruct (to_inverted c h P) as [N| | |] eqn:EN; cbn [bind]; try discriminate. destruct (to_rnaf c s) as [ds| | |]; cbn [bind]; try discriminate. destruct (tc P) as [i|] eqn:Ei; [|discriminate].
  set (O := mkto _ _ _ _). apply (agree_same _ _ (naf_loop (jo_add c h) (jo_doubled c h) P N ds O)). apply (naf_agree rr _ _ _ _ jo_add_rr jo_dbl_rr); (split; [reflexivity|]); [exact HP|exact (among_tc P N (inverted_tc _ _ EN) HP)|].
  apply (among_tc P); [symmetry; exact Ei|exact HP].
Qed.
Lemma cases_rr loop (HL : forall P s R, among l P -> loop P s = Ok R -> among l R) P s R : among l P -> to_mul_cases c h loop P s = Ok R -> among l R.
Proof.
  intros HP. unfold to_mul_cases. destruct (if is_one s then _ else _) as [b| | |]; cbn [bind]; try discriminate. destruct b; [intros [= <-]; exact HP|]. destruct (is_zero s); [intros [= <-]; left; reflexivity|].
  destruct (compares1 s 0 <? 0); [|apply HL, HP]. destruct (to_inverted c h P) as [N| | |] eqn:EN; cbn [bind]; try discriminate. assert (HN : among l N) by exact (among_tc P N (inverted_tc _ _ EN) HP).
  destruct (if is_one (op_neg s) then _ else _) as [b| | |]; cbn [bind]; try discriminate. destruct b; [intros [= <-]; exact HN|]. destruct (is_zero (op_neg s)); [intros [= <-]; left; reflexivity|]. apply HL, HN.
Qed.
Lemma ho_mul_add_rr a P b Q R : among l P -> among l Q -> ho_mul_add c h a P b Q = Ok R -> among l R.
Proof. intros HP HQ. apply (agree_same _ _ (ho_mul_add c h a P b Q)). apply (mul_add_agree rr _ _ _ _ ho_add_rr ho_dbl_rr _ _ inv_rr); [apply def_rr|split; auto|split; auto]. Qed.
Lemma jo_mul_add_rr a P b Q R : among l P -> among l Q -> jo_mul_add c h a P b Q = Ok R -> among l R.
Proof. intros HP HQ. apply (agree_same _ _ (jo_mul_add c h a P b Q)). apply (mul_add_agree rr _ _ _ _ jo_add_rr jo_dbl_rr _ _ inv_rr); [apply def_rr|split; auto|split; auto]. Qed.
End CLOSED.
Definition from (P R : tobj) : Prop := tc R = tc P \/ tc R = None.
Lemma among_from P R : among [tc P] R -> from P R.
Proof. intros [E|[E|[]]]; [right|left]; symmetry; exact E. Qed.
Lemma self_among P : among [tc P] P.
Proof. right. left. reflexivity. Qed.
Lemma origin_claim P Q R :
  (ho_add c h P Q = Ok R -> (to_is_identity h P = Ok true /\ R = Q) \/ (to_is_identity h P = Ok false /\ (tc R = tc P \/ R = to_default c))) /\
  (jo_add c h P Q = Ok R -> (to_is_identity h P = Ok true /\ R = Q) \/ (to_is_identity h P = Ok false /\ to_is_identity h Q = Ok true /\ R = P) \/
     (to_is_identity h P = Ok false /\ to_is_identity h Q = Ok false /\ (tc R = tc (if fo_is_one (tz P) && negb (fo_is_one (tz Q)) then Q else P) \/ R = to_default c))) /\
  (to_inverted c h P = Ok R -> tc R = tc P) /\ (ho_doubled c h P = Ok R \/ jo_doubled c h P = Ok R -> tc R = tc P \/ R = to_default c) /\
  (forall s, ho_mul c h P s = Ok R \/ jo_mul c h P s = Ok R -> tc R = tc P \/ tc R = None) /\
  (forall a b, ho_mul_add c h a P b Q = Ok R \/ jo_mul_add c h a P b Q = Ok R -> tc R = tc P \/ tc R = tc Q \/ tc R = None) /\
  (ho_normalize c h P = Ok R \/ jo_normalize c h P = Ok R -> tc R = tc P).
Proof.
  split; [apply ho_add_tc|]. split; [apply jo_add_tc|]. split; [apply inverted_tc|]. split; [intros [H|H]; [exact (ho_doubled_tc _ _ H)|exact (jo_doubled_tc _ _ H)]|].
  split; [|split].
  - intros s [H|H]; apply among_from; [exact (cases_rr _ _ (ho_loop_rr _) _ _ _ (self_among P) H)|exact (cases_rr _ _ (jo_loop_rr _) _ _ _ (self_among P) H)].
  - intros a b H. assert (A : among [tc P; tc Q] R). { destruct H as [H|H]; [eapply ho_mul_add_rr; [| |exact H]|eapply jo_mul_add_rr; [| |exact H]]; unfold among; cbn [In]; auto. }
    destruct A as [A|[A|[A|[]]]]; auto.
  - unfold ho_normalize, jo_normalize. intros [H|H]; unbind H; injection H as <-; reflexivity.
Qed.
(** a point that refers to a destroyed curve object, its coordinates to an existing one *)
Lemma dangling P i : tc P = Some i -> at_addr (h_curves h) i = None -> to_is_identity h P = Ok false ->
  (fo_eq0 (ty P) = false -> jo_doubled c h P = UB /\ forall R, ho_doubled c h P <> Ok R) /\
  (forall b, ho_is_on_curve c h P <> Ok b) /\ (forall b, jo_is_on_curve c h P <> Ok b) /\ (forall b, ho_is_valid c h P <> Ok b) /\ (forall b, jo_is_valid c h P <> Ok b).
Proof.
  intros T D I. assert (K : tcurve h P = UB) by (unfold tcurve; rewrite T, D; reflexivity).
  assert (A1 : forall b, ho_is_on_curve c h P <> Ok b). { intros b H. unfold ho_is_on_curve in H. rewrite I, K in H. cbn [bind] in H. unbind H. }
  assert (A2 : forall b, jo_is_on_curve c h P <> Ok b). { intros b H. unfold jo_is_on_curve in H. rewrite I, K in H. cbn [bind] in H. unbind H. }
  split; [|split; [exact A1|split; [exact A2|split]]].
  - intros Y. split; [unfold jo_doubled; rewrite I; cbn [bind]; rewrite Y, K; reflexivity|]. intros R H. unfold ho_doubled in H. rewrite I, K, Y in H. cbn [bind orb] in H. unbind H.
  - intros b H. unfold ho_is_valid, to_is_valid in H. rewrite I in H. cbn [bind] in H. destruct (ho_is_on_curve c h P) as [o| | |]; cbn [bind] in H; try discriminate H. exact (A1 o eq_refl).
  - intros b H. unfold jo_is_valid, to_is_valid in H. rewrite I in H. cbn [bind] in H. destruct (jo_is_on_curve c h P) as [o| | |]; cbn [bind] in H; try discriminate H. exact (A2 o eq_refl).
Qed.
(** z is an element of the destroyed curve and not 1 *)
Lemma dangling_z P i : tc P = Some i -> om (tz P) = Some (PCurve i) -> is_one (ov (tz P)) = false -> at_addr (h_curves h) i = None ->
  to_is_identity h P = UB /\ to_inverted c h P = UB /\ ho_doubled c h P = UB /\ jo_doubled c h P = UB /\ (forall Q, ho_add c h P Q = UB /\ jo_add c h P Q = UB) /\
  (forall s, is_one s = false -> ho_mul c h P s = UB /\ jo_mul c h P s = UB) /\ ho_to_affine c h P = UB /\ jo_to_affine c h P = UB /\ ho_is_on_curve c h P = UB /\ jo_is_on_curve c h P = UB.
Proof.
  intros T M Z1 D. assert (I : to_is_identity h P = UB) by (unfold to_is_identity, fo_is_zero; rewrite T, Z1, M; unfold dm; rewrite M; cbn [deref]; rewrite D; reflexivity).
  split; [exact I|]. unfold to_inverted, ho_doubled, jo_doubled, ho_add, jo_add, ho_mul, jo_mul, to_mul_cases, ho_to_affine, jo_to_affine, ho_is_on_curve, jo_is_on_curve. rewrite I. cbn [bind].
  do 3 (split; [reflexivity|]). split; [intros Q; split; reflexivity|]. split; [intros s ->; split; reflexivity|]. do 3 (split; [reflexivity|]). reflexivity.
Qed.
End ORIGIN.
Lemma dangling_claim : forall c h P i, tc P = Some i -> at_addr (h_curves h) i = None ->
  (to_is_identity h P = Ok false -> (fo_eq0 (ty P) = false -> jo_doubled c h P = UB /\ forall R, ho_doubled c h P <> Ok R) /\
     (forall b, ho_is_on_curve c h P <> Ok b) /\ (forall b, jo_is_on_curve c h P <> Ok b) /\ (forall b, ho_is_valid c h P <> Ok b) /\ (forall b, jo_is_valid c h P <> Ok b)) /\
  (om (tz P) = Some (PCurve i) -> is_one (ov (tz P)) = false ->
     to_is_identity h P = UB /\ to_inverted c h P = UB /\ ho_doubled c h P = UB /\ jo_doubled c h P = UB /\ (forall Q, ho_add c h P Q = UB /\ jo_add c h P Q = UB) /\
     (forall s, is_one s = false -> ho_mul c h P s = UB /\ jo_mul c h P s = UB) /\ ho_to_affine c h P = UB /\ jo_to_affine c h P = UB /\ ho_is_on_curve c h P = UB /\ jo_is_on_curve c h P = UB).
Proof. intros c h P i T D. split; [intros I; exact (dangling c h P i T D I)|intros M Z1; exact (dangling_z c h P i T M Z1 D)]. Qed.
