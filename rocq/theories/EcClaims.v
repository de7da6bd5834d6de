(** The point classes over field element objects: the claims about the group law and the multiplications. *)
From Coq Require Import Field List ZArith Znumtheory Bool Lia.
From Verif Require Import Outcome LoopModel WordsModel WordsSpec BigintModel BigintSpec BigintProofs BigintClaims NumModel NumProofs FpModel FpSpec FpProofs EcGroup EcGroupProofs ZpField EcModel EcSpec EcExact EcScalar EcFeSpec EcTransfer EcCurveModel.
Import ListNotations.
Open Scope Z_scope.

Section CURVE.
Variable c : cap.
Variable p : bigint.
Variable Pp : prime (value p).
Variables a b : bigint.
Hypothesis CO : curve_ok c p Pp a b.
Notation F := (GFp p Pp).
Notation O := (fe_ops c p).
Notation E := (coeffs_of c p a b).
Notation A := (kval p Pp a). Notation B := (kval p Pp b).
Notation on := (on_curve A B).
Notation fz0 := (is_zero a). Notation fm3 := (compare a (subs1 c false (zero c) p 3) =? 0).
Notation E2 := (E2 p Pp a b fz0 fm3).
Notation aff_pt := (aff_pt p Pp). Notation proj_pt := (proj_pt p Pp). Notation jac_pt := (jac_pt p Pp).
Lemma Hp : modulus_ok c p. Proof. apply CO. Qed.
Lemma p3 : 3 < value p. Proof. apply CO. Qed.
Lemma Ha : reduced c p a. Proof. apply CO. Qed.
Lemma Hb : reduced c p b. Proof. apply CO. Qed.
Lemma Hd : disc A B <> 0%f. Proof. apply CO. Qed.
Add Field FldC : (f_theory F).
Lemma two_ne : (1 + 1)%f <> (0%f : F).
Proof.
  pose proof p3 as P3. intros H. apply (f_equal zval) in H. change ((1 mod value p + 1 mod value p) mod value p = 0 mod value p) in H.
  rewrite !Z.mod_1_l, Z.mod_0_l, Z.mod_small in H by lia. lia.
Qed.
Lemma Hzero : cv_a_is_zero _ E2 = true -> A = 0%f.
Proof.
  cbn. rewrite (is_zero_value c a (proj1 Ha)). intros H. apply Z.eqb_eq in H. unfold kval. rewrite H. reflexivity.
Qed.
Lemma zval_neg3 : zval (- (1 + (1 + 1)) : F)%f = value p - 3.
Proof.
  pose proof p3 as P3. change (zval (- (1 + (1 + 1)) : F)%f) with ((- ((1 mod value p + ((1 mod value p + 1 mod value p) mod value p)) mod value p)) mod value p).
  rewrite !Z.mod_1_l by lia. rewrite (Z.mod_small (1 + 1)) by lia. rewrite (Z.mod_small (1 + (1 + 1))) by lia. symmetry. apply (Zmod_unique _ _ (-1)); lia.
Qed.
Lemma p_minus_3 : valid c (subs1 c false (zero c) p 3) /\ value (subs1 c false (zero c) p 3) = value p - 3.
Proof. apply subs1_spec; [apply (zst c p Hp)|apply Hp|unfold int32; lia|apply (room_1 c p Hp)|discriminate]. Qed.
Lemma Hm3 : cv_a_is_minus_3 _ E2 = true -> A = (- (1 + (1 + 1)))%f.
Proof.
  pose proof p3 as P3. cbn [cv_a_is_minus_3 EcTransfer.E2]. destruct p_minus_3 as (V & EV). destruct (compare_claim c a _ (proj1 Ha) V) as (-> & _). intros H. apply Z.eqb_eq in H.
  apply zval_inj. rewrite zval_neg3. unfold kval. rewrite zval_mk, H, EV. apply Z.mod_small. lia.
Qed.
Lemma b_ne : value b <> 0 -> B <> 0%f.
Proof. intros N H. apply N. apply (f_equal zval) in H. unfold kval in H. rewrite zval_mk in H. rewrite Z.mod_small in H by apply Hb. rewrite H. apply (zval_0 p Pp p3). Qed.

(** from the exact formulas to the objects *)
Notation R2 := (R2 c p Pp). Notation R3 := (R3 c p Pp).
Definition conc2 (P : option (fe * fe)) : option (F * F) := option_map (fun P => (fval p Pp (fst P), fval p Pp (snd P))) P.
Definition conc3 (P : option (fe * fe * fe)) : option (F * F * F) := option_map (fun P => (fval p Pp (fst (fst P)), fval p Pp (snd (fst P)), fval p Pp (snd P))) P.
Lemma good_R2 P : good2 c p P -> R2 P (conc2 P). Proof. intros H. split; [exact H|reflexivity]. Qed.
Lemma good_R3 P : good3 c p P -> R3 P (conc3 P). Proof. intros H. split; [exact H|reflexivity]. Qed.
Lemma lift2 o1 o2 (X : point F) : orel R2 o1 o2 -> (exists R, o2 = Ok R /\ abs_aff R = X) -> exists R, o1 = Ok R /\ good2 c p R /\ aff_pt R = X.
Proof. intros H (R & -> & E). destruct H as (u & -> & G & ->). exists u. split; [reflexivity|]. split; [exact G|exact E]. Qed.
Lemma lift3p o1 o2 (X : point F) : orel R3 o1 o2 -> (exists R, o2 = Ok R /\ abs_proj R = X) -> exists R, o1 = Ok R /\ good3 c p R /\ proj_pt R = X.
Proof. intros H (R & -> & E). destruct H as (u & -> & G & ->). exists u. split; [reflexivity|]. split; [exact G|exact E]. Qed.
Lemma lift3j o1 o2 (X : point F) : orel R3 o1 o2 -> (exists R, o2 = Ok R /\ abs_jac R = X) -> exists R, o1 = Ok R /\ good3 c p R /\ jac_pt R = X.
Proof. intros H (R & -> & E). destruct H as (u & -> & G & ->). exists u. split; [reflexivity|]. split; [exact G|exact E]. Qed.
Lemma liftb o1 o2 (X : Prop) : orel eq o1 o2 -> (exists v : bool, o2 = Ok v /\ (v = true <-> X)) -> exists v : bool, o1 = Ok v /\ (v = true <-> X).
Proof. intros H (R & -> & E). destruct H as (u & -> & ->). eauto. Qed.

(** *** affine points *)
Section AFF.
Hypothesis bz : value b <> 0.
Lemma aff_add_claim P Q : good2 c p P -> good2 c p Q -> on (aff_pt P) -> on (aff_pt Q) ->
  exists R, aff_add O E P Q = Ok R /\ good2 c p R /\ aff_pt R = padd A (aff_pt P) (aff_pt Q).
Proof.
  intros GP GQ CP CQ. eapply lift2; [apply aff_add_rel; auto using Hp, p3, Ha, Hb; apply good_R2; eassumption|].
  apply (aff_add_ok F E2 two_ne (b_ne bz)); assumption.
Qed.
Lemma aff_doubled_claim P : good2 c p P -> on (aff_pt P) -> exists R, aff_doubled O E P = Ok R /\ good2 c p R /\ aff_pt R = padd A (aff_pt P) (aff_pt P).
Proof.
  intros GP CP. eapply lift2; [apply aff_doubled_rel; auto using Hp, p3, Ha, Hb; apply good_R2; eassumption|].
  apply (aff_doubled_ok F E2 two_ne (b_ne bz)); assumption.
Qed.
Lemma aff_inverted_claim P : good2 c p P -> exists R, aff_inverted O P = Ok R /\ good2 c p R /\ aff_pt R = popp (aff_pt P).
Proof. intros GP. eapply lift2; [apply aff_inverted_rel; auto using Hp, p3, Ha, Hb; apply good_R2; eassumption|]. apply (aff_inverted_ok F). Qed.
Lemma aff_sub_claim P Q : good2 c p P -> good2 c p Q -> on (aff_pt P) -> on (aff_pt Q) ->
  exists R, aff_sub O E P Q = Ok R /\ good2 c p R /\ aff_pt R = padd A (aff_pt P) (popp (aff_pt Q)).
Proof.
  intros GP GQ CP CQ. eapply lift2; [apply aff_sub_rel; auto using Hp, p3, Ha, Hb; apply good_R2; eassumption|].
  apply (aff_sub_ok F E2 two_ne (b_ne bz)); assumption.
Qed.
Lemma aff_on_claim P : good2 c p P -> exists v, aff_is_on_curve O E P = Ok v /\ (v = true <-> on (aff_pt P)).
Proof. intros GP. eapply liftb; [apply aff_on_rel; auto using Hp, p3, Ha, Hb; apply good_R2; eassumption|]. apply (aff_on_ok F E2). Qed.
Lemma aff_eqb_claim P Q : good2 c p P -> good2 c p Q -> (aff_eqb O P Q = true <-> aff_pt P = aff_pt Q).
Proof. intros GP GQ. rewrite (aff_eqb_rel c p Hp Pp p3 _ _ _ _ (good_R2 _ GP) (good_R2 _ GQ)). apply (aff_eqb_ok F). Qed.
Lemma aff_id_claim P : good2 c p P -> (aff_is_identity O P = true <-> aff_pt P = Inf).
Proof.
  intros GP. rewrite (aff_id_rel c p Hp Pp p3 _ _ (good_R2 _ GP)). unfold EcFeSpec.aff_pt. fold (conc2 P). rewrite (aff_id F). destruct (abs_aff (conc2 P)); split; congruence.
Qed.
(** laws of the objects *)
Lemma aff_closed_claim P Q R : good2 c p P -> good2 c p Q -> on (aff_pt P) -> on (aff_pt Q) -> aff_add O E P Q = Ok R ->
  good2 c p R /\ on (aff_pt R).
Proof.
  intros GP GQ CP CQ K. destruct (aff_add_claim P Q GP GQ CP CQ) as (R' & K' & G & EQ). rewrite K in K'. injection K' as ->.
  split; [exact G|]. rewrite EQ. apply padd_curve; auto using two_ne.
Qed.
Lemma aff_comm_claim P Q : good2 c p P -> good2 c p Q -> on (aff_pt P) -> on (aff_pt Q) ->
  exists R R', aff_add O E P Q = Ok R /\ aff_add O E Q P = Ok R' /\ aff_pt R = aff_pt R' /\ aff_eqb O R R' = true.
Proof.
  intros GP GQ CP CQ. destruct (aff_add_claim P Q GP GQ CP CQ) as (R & K & G & EQ). destruct (aff_add_claim Q P GQ GP CQ CP) as (R' & K' & G' & EQ').
  exists R, R'. split; [exact K|]. split; [exact K'|]. assert (X : aff_pt R = aff_pt R') by (rewrite EQ, EQ'; apply (padd_comm F A B); assumption).
  split; [exact X|]. apply aff_eqb_claim; assumption.
Qed.
Lemma aff_assoc_claim P Q S : good2 c p P -> good2 c p Q -> good2 c p S -> on (aff_pt P) -> on (aff_pt Q) -> on (aff_pt S) ->
  exists PQ QS L M, aff_add O E P Q = Ok PQ /\ aff_add O E Q S = Ok QS /\ aff_add O E PQ S = Ok L /\ aff_add O E P QS = Ok M /\
    aff_pt L = aff_pt M /\ aff_eqb O L M = true.
Proof.
  intros GP GQ GS CP CQ CS. destruct (aff_add_claim P Q GP GQ CP CQ) as (PQ & K1 & G1 & E1). destruct (aff_add_claim Q S GQ GS CQ CS) as (QS & K2 & G2 & E2').
  destruct (aff_closed_claim _ _ _ GP GQ CP CQ K1) as (_ & C1). destruct (aff_closed_claim _ _ _ GQ GS CQ CS K2) as (_ & C2).
  destruct (aff_add_claim PQ S G1 GS C1 CS) as (L & K3 & G3 & E3). destruct (aff_add_claim P QS GP G2 CP C2) as (M & K4 & G4 & E4).
  exists PQ, QS, L, M. assert (X : aff_pt L = aff_pt M) by (rewrite E3, E4, E1, E2'; apply (padd_assoc F A B two_ne Hd); assumption).
  repeat (split; [assumption|]). apply aff_eqb_claim; assumption.
Qed.
Lemma aff_identity_claim P : aff_add O E None P = Ok P /\
  (good2 c p P -> exists R, aff_add O E P None = Ok R /\ aff_pt R = aff_pt P /\ aff_eqb O R P = true).
Proof.
  split; [reflexivity|]. intros GP. unfold aff_add. destruct (aff_is_identity O P) eqn:I.
  - exists None. apply (aff_id_claim P GP) in I. split; [reflexivity|]. split; [rewrite I; reflexivity|]. apply aff_eqb_claim; [exact Logic.I|exact GP|]. rewrite I. reflexivity.
  - exists P. split; [reflexivity|]. split; [reflexivity|]. apply aff_eqb_claim; auto.
Qed.
Lemma aff_inverse_claim P : good2 c p P -> on (aff_pt P) ->
  exists N R, aff_inverted O P = Ok N /\ good2 c p N /\ on (aff_pt N) /\ aff_add O E P N = Ok R /\ aff_pt R = Inf /\ aff_is_identity O R = true.
Proof.
  intros GP CP. destruct (aff_inverted_claim P GP) as (N & K & G & EQ). assert (CN : on (aff_pt N)) by (rewrite EQ; apply popp_curve; exact CP).
  destruct (aff_add_claim P N GP G CP CN) as (R & K' & G' & EQ'). exists N, R. assert (X : aff_pt R = Inf) by (rewrite EQ', EQ; apply padd_opp_r).
  repeat (split; [assumption|]). apply aff_id_claim; assumption.
Qed.
Definition rel_aff (P : option (fe * fe)) (X : point F) : Prop := good2 c p P /\ aff_pt P = X /\ on X.
Lemma aff_mul_claim P s : good2 c p P -> on (aff_pt P) -> valid c s ->
  exists R, aff_mul O E P s = Ok R /\ good2 c p R /\ aff_pt R = zmul A (value s) (aff_pt P).
Proof.
  intros GP CP Vs. unfold aff_mul, aff_loop.
  destruct (mul_ladder_ok F A B two_ne Hd _ rel_aff (aff_add O E) (aff_doubled O E) (aff_inverted O) (aff_is_identity O) None) with (c := c) (p := P) (s := s) (A := aff_pt P) as (R & K & G & X & _).
  - intros q X (_ & _ & H). exact H.
  - split; [exact Logic.I|split; [reflexivity|exact Logic.I]].
  - intros q X k (G & K & H) I. apply (aff_id_claim q G) in I. split; [exact G|]. rewrite K in I. rewrite I, zmul_inf, K, I. split; [reflexivity|exact Logic.I].
  - intros q r X Y (G & <- & H) (G' & <- & H'). destruct (aff_add_claim q r G G' H H') as (R & K & GR & X). exists R. split; [exact K|]. split; [exact GR|]. split; [exact X|]. apply padd_curve; auto using two_ne.
  - intros q X (G & <- & H). destruct (aff_doubled_claim q G H) as (R & K & GR & X). exists R. split; [exact K|]. split; [exact GR|]. split; [exact X|]. apply padd_curve; auto using two_ne.
  - intros q X (G & <- & H). destruct (aff_inverted_claim q G) as (R & K & GR & X). exists R. split; [exact K|]. split; [exact GR|]. split; [exact X|]. apply popp_curve; auto.
  - exact Vs.
  - split; [exact GP|split; [reflexivity|exact CP]].
  - exists R. auto.
Qed.
Lemma aff_mul_add_claim x P y Q : good2 c p P -> good2 c p Q -> on (aff_pt P) -> on (aff_pt Q) -> valid c x -> valid c y -> 0 <= value x -> 0 <= value y ->
  room c (size x + 1) -> room c (size y + 1) ->
  exists R, aff_mul_add O E c x P y Q = Ok R /\ good2 c p R /\ aff_pt R = padd A (zmul A (value x) (aff_pt P)) (zmul A (value y) (aff_pt Q)).
Proof.
  intros GP GQ CP CQ Vx Vy Px Py Rx Ry. unfold aff_mul_add.
  destruct (mul_add_ok F A B two_ne Hd _ rel_aff (aff_add O E) (aff_doubled O E) (aff_inverted O) (aff_is_identity O) None) with (c := c) (x := x) (p := P) (y := y) (q := Q) (A := aff_pt P) (B := aff_pt Q) as (R & K & G & X & _); try assumption.
  - intros q X (_ & _ & H). exact H.
  - split; [exact Logic.I|split; [reflexivity|exact Logic.I]].
  - intros q X k (G & K & H) I. apply (aff_id_claim q G) in I. split; [exact G|]. rewrite K in I. rewrite I, zmul_inf, K, I. split; [reflexivity|exact Logic.I].
  - intros q r X Y (G & <- & H) (G' & <- & H'). destruct (aff_add_claim q r G G' H H') as (R & K & GR & X). exists R. split; [exact K|]. split; [exact GR|]. split; [exact X|]. apply padd_curve; auto using two_ne.
  - intros q X (G & <- & H). destruct (aff_doubled_claim q G H) as (R & K & GR & X). exists R. split; [exact K|]. split; [exact GR|]. split; [exact X|]. apply padd_curve; auto using two_ne.
  - intros q X (G & <- & H). destruct (aff_inverted_claim q G) as (R & K & GR & X). exists R. split; [exact K|]. split; [exact GR|]. split; [exact X|]. apply popp_curve; auto.
  - split; [exact GP|split; [reflexivity|exact CP]].
  - split; [exact GQ|split; [reflexivity|exact CQ]].
  - exists R. auto.
Qed.
Lemma aff_valid_claim n P : good2 c p P -> valid c n ->
  exists v, aff_is_valid O E n P = Ok v /\ (v = true <-> aff_pt P <> Inf /\ on (aff_pt P) /\ zmul A (value n) (aff_pt P) = Inf).
Proof.
  intros GP Vn. unfold aff_is_valid, is_valid_with. pose proof (aff_id_claim P GP) as I. destruct (aff_is_identity O P).
  { exists false. split; [reflexivity|]. split; [discriminate|]. intros (H & _). exfalso. apply H, I. reflexivity. }
  destruct (aff_on_claim P GP) as ([|] & -> & H); cbn [bind negb].
  - destruct (aff_mul_claim P n GP ltac:(apply H; reflexivity) Vn) as (Q & -> & G & X). cbn [bind]. exists (aff_is_identity O Q). split; [reflexivity|].
    rewrite (aff_id_claim Q G), X. split; [|tauto]. intros Z. split; [|split; [apply H; reflexivity|exact Z]]. intros K. apply I in K. discriminate.
  - exists false. split; [reflexivity|]. split; [discriminate|]. intros (_ & K & _). apply H in K. discriminate.
Qed.
End AFF.

(** *** homogeneous coordinates *)
Lemma proj_add_claim P Q : good3 c p P -> good3 c p Q -> on (proj_pt P) -> on (proj_pt Q) ->
  exists R, proj_add O E P Q = Ok R /\ good3 c p R /\ proj_pt R = padd A (proj_pt P) (proj_pt Q).
Proof.
  intros GP GQ CP CQ. eapply lift3p; [apply proj_add_rel; auto using Hp, p3, Ha, Hb; apply good_R3; eassumption|].
  apply (proj_add_ok F E2 two_ne Hzero Hm3); assumption.
Qed.
Lemma proj_doubled_claim P : good3 c p P -> on (proj_pt P) -> exists R, proj_doubled O E P = Ok R /\ good3 c p R /\ proj_pt R = padd A (proj_pt P) (proj_pt P).
Proof.
  intros GP CP. eapply lift3p; [apply proj_doubled_rel; auto using Hp, p3, Ha, Hb; apply good_R3; eassumption|].
  apply (proj_doubled_ok F E2 two_ne Hzero Hm3); assumption.
Qed.
Lemma proj_inverted_claim P : good3 c p P -> exists R, inverted3 O P = Ok R /\ good3 c p R /\ proj_pt R = popp (proj_pt P).
Proof. intros GP. eapply lift3p; [apply inverted3_rel; auto using Hp, p3, Ha, Hb; apply good_R3; eassumption|]. apply (inverted_proj_ok F). Qed.
Lemma proj_sub_claim P Q : good3 c p P -> good3 c p Q -> on (proj_pt P) -> on (proj_pt Q) ->
  exists R, proj_sub O E P Q = Ok R /\ good3 c p R /\ proj_pt R = padd A (proj_pt P) (popp (proj_pt Q)).
Proof.
  intros GP GQ CP CQ. eapply lift3p; [apply proj_sub_rel; auto using Hp, p3, Ha, Hb; apply good_R3; eassumption|].
  apply (proj_sub_ok F E2 two_ne Hzero Hm3); assumption.
Qed.
Lemma proj_on_claim P : good3 c p P -> exists v, proj_is_on_curve O E P = Ok v /\ (v = true <-> on (proj_pt P)).
Proof. intros GP. eapply liftb; [apply proj_on_rel; auto using Hp, p3, Ha, Hb; apply good_R3; eassumption|]. apply (proj_on_ok F E2). Qed.
Lemma proj_eqb_claim P Q : good3 c p P -> good3 c p Q -> exists v, proj_eqb O P Q = Ok v /\ (v = true <-> proj_pt P = proj_pt Q).
Proof. intros GP GQ. eapply liftb; [apply proj_eqb_rel; auto using Hp, p3, Ha, Hb; apply good_R3; eassumption|]. apply (proj_eqb_ok F). Qed.
Lemma proj_id_claim P : good3 c p P -> (is_identity3 O P = true <-> proj_pt P = Inf).
Proof.
  intros GP. rewrite (id3_rel c p Hp Pp p3 _ _ (good_R3 _ GP)). unfold EcFeSpec.proj_pt. fold (conc3 P). rewrite (id3_proj F). destruct (abs_proj (conc3 P)); split; congruence.
Qed.
Lemma proj_of_affine_claim P : good2 c p P -> good3 c p (of_affine O P) /\ proj_pt (of_affine O P) = aff_pt P.
Proof.
  intros GP. destruct (of_affine_rel c p Hp Pp p3 _ _ (good_R2 _ GP)) as (G & X). split; [exact G|]. unfold EcFeSpec.proj_pt. rewrite <- X. apply (of_affine_proj F).
Qed.
(** the result is the affine point itself, unless that is (0, 0) *)
Lemma proj_to_affine_claim P : good3 c p P -> exists R, proj_to_affine O P = Ok R /\ good2 c p R /\
  match proj_pt P with Inf => R = None | Aff x y => conc2 R = Some (x, y) end.
Proof.
  intros GP. pose proof (proj_to_affine_rel c p Hp Pp p3 _ _ (good_R3 _ GP)) as H. destruct (proj_to_affine_ok F (conc3 P)) as (R & K & H1 & H2). rewrite K in H.
  destruct H as (u & K' & G & X). exists u. split; [exact K'|]. split; [exact G|]. unfold EcFeSpec.proj_pt. fold (conc3 P).
  destruct (abs_proj (conc3 P)) as [|x y].
  - specialize (H2 eq_refl). rewrite H2 in X. destruct u as [[u v]|]; [discriminate|reflexivity].
  - specialize (H1 x y eq_refl). rewrite <- H1, X. reflexivity.
Qed.
Lemma proj_to_affine_pt P : value b <> 0 -> good3 c p P -> on (proj_pt P) -> exists R, proj_to_affine O P = Ok R /\ good2 c p R /\ aff_pt R = proj_pt P.
Proof.
  intros bz GP CP. destruct (proj_to_affine_claim P GP) as (R & K & G & X). exists R. split; [exact K|]. split; [exact G|].
  destruct (proj_pt P) as [|x y]; [subst R; reflexivity|]. unfold EcFeSpec.aff_pt. fold (conc2 R). rewrite X. apply (abs_00 F E2 (b_ne bz)). exact CP.
Qed.
Lemma proj_normalize_claim P : good3 c p P -> exists R, proj_normalize O P = Ok R /\ good3 c p R /\ proj_pt R = proj_pt P /\
  (proj_pt P <> Inf -> exists x y z, R = Some (x, y, z) /\ value (fv z) = 1).
Proof.
  intros GP. pose proof (proj_normalize_rel c p Hp Pp p3 _ _ (good_R3 _ GP)) as H. destruct (proj_normalize_ok F (conc3 P)) as (R & K & H1 & H2). rewrite K in H.
  destruct H as (u & K' & G & X). exists u. split; [exact K'|]. split; [exact G|]. split.
  - unfold EcFeSpec.proj_pt. fold (conc3 P). rewrite <- H1, X. reflexivity.
  - intros N. destruct H2 as (x & y & ER).
    { rewrite <- (id3_rel c p Hp Pp p3 _ _ (good_R3 _ GP)). destruct (is_identity3 O P) eqn:I; [|reflexivity]. exfalso. apply N, proj_id_claim; assumption. }
    rewrite ER in X. destruct u as [[[u v] w]|]; [|discriminate]. injection X as _ _ Z1. exists u, v, w. split; [reflexivity|].
    destruct G as (_ & _ & _ & _ & G). pose proof p3 as P3. rewrite Z.mod_1_l, Z.mod_small in Z1 by lia. symmetry. exact Z1.
Qed.
Definition rel_proj (P : option (fe * fe * fe)) (X : point F) : Prop := good3 c p P /\ proj_pt P = X /\ on X.
Lemma rel_proj_curve q X : rel_proj q X -> on X. Proof. intros (_ & _ & H). exact H. Qed.
Lemma rel_proj_id : rel_proj None Inf. Proof. split; [exact I|split; [reflexivity|exact I]]. Qed.
Lemma rel_proj_is_id q X k : rel_proj q X -> is_identity3 O q = true -> rel_proj q (zmul A k X).
Proof. intros (G & K & H) I. apply (proj_id_claim q G) in I. split; [exact G|]. rewrite K in I. rewrite I, zmul_inf, K, I. split; [reflexivity|exact Logic.I]. Qed.
Lemma rel_proj_add q r X Y : rel_proj q X -> rel_proj r Y -> exists R, proj_add O E q r = Ok R /\ rel_proj R (padd A X Y).
Proof. intros (G & <- & H) (G' & <- & H'). destruct (proj_add_claim q r G G' H H') as (R & K & GR & X). exists R. split; [exact K|]. split; [exact GR|]. split; [exact X|]. apply padd_curve; auto using two_ne. Qed.
Lemma rel_proj_dbl q X : rel_proj q X -> exists R, proj_doubled O E q = Ok R /\ rel_proj R (padd A X X).
Proof. intros (G & <- & H). destruct (proj_doubled_claim q G H) as (R & K & GR & X). exists R. split; [exact K|]. split; [exact GR|]. split; [exact X|]. apply padd_curve; auto using two_ne. Qed.
Lemma rel_proj_inv q X : rel_proj q X -> exists R, inverted3 O q = Ok R /\ rel_proj R (popp X).
Proof. intros (G & <- & H). destruct (proj_inverted_claim q G) as (R & K & GR & X). exists R. split; [exact K|]. split; [exact GR|]. split; [exact X|]. apply popp_curve; auto. Qed.
Lemma proj_mul_claim P s : good3 c p P -> on (proj_pt P) -> valid c s ->
  exists R, proj_mul O E P s = Ok R /\ good3 c p R /\ proj_pt R = zmul A (value s) (proj_pt P).
Proof.
  intros GP CP Vs. unfold proj_mul, proj_loop.
  destruct (mul_ladder_ok F A B two_ne Hd _ rel_proj (proj_add O E) (proj_doubled O E) (inverted3 O) (is_identity3 O) None rel_proj_curve rel_proj_id rel_proj_is_id rel_proj_add rel_proj_dbl rel_proj_inv
    c P s (proj_pt P) Vs) as (R & K & G & X & _).
  - split; [exact GP|split; [reflexivity|exact CP]].
  - exists R. auto.
Qed.
Lemma proj_mul_add_claim x P y Q : good3 c p P -> good3 c p Q -> on (proj_pt P) -> on (proj_pt Q) -> valid c x -> valid c y -> 0 <= value x -> 0 <= value y ->
  room c (size x + 1) -> room c (size y + 1) ->
  exists R, proj_mul_add O E c x P y Q = Ok R /\ good3 c p R /\ proj_pt R = padd A (zmul A (value x) (proj_pt P)) (zmul A (value y) (proj_pt Q)).
Proof.
  intros GP GQ CP CQ Vx Vy Px Py Rx Ry. unfold proj_mul_add.
  destruct (mul_add_ok F A B two_ne Hd _ rel_proj (proj_add O E) (proj_doubled O E) (inverted3 O) (is_identity3 O) None rel_proj_curve rel_proj_id rel_proj_is_id rel_proj_add rel_proj_dbl rel_proj_inv
    c x P y Q (proj_pt P) (proj_pt Q)) as (R & K & G & X & _); try assumption.
  - split; [exact GP|split; [reflexivity|exact CP]].
  - split; [exact GQ|split; [reflexivity|exact CQ]].
  - exists R. auto.
Qed.
Lemma proj_valid_claim n P : good3 c p P -> valid c n -> 
  exists v, proj_is_valid O E  n P = Ok v /\ (v = true <-> proj_pt P <> Inf /\ on (proj_pt P) /\ zmul A (value n) (proj_pt P) = Inf).
Proof.
  intros GP Vn. unfold proj_is_valid, is_valid_with. pose proof (proj_id_claim P GP) as I. destruct (is_identity3 O P).
  { exists false. split; [reflexivity|]. split; [discriminate|]. intros (H & _). exfalso. apply H, I. reflexivity. }
  destruct (proj_on_claim P GP) as ([|] & -> & H); cbn [bind negb].
  - destruct (proj_mul_claim P n GP ltac:(apply H; reflexivity) Vn) as (Q & -> & G & X). cbn [bind]. exists (is_identity3 O Q). split; [reflexivity|].
    rewrite (proj_id_claim Q G), X. split; [|tauto]. intros Z. split; [|split; [apply H; reflexivity|exact Z]]. intros K. apply I in K. discriminate.
  - exists false. split; [reflexivity|]. split; [discriminate|]. intros (_ & K & _). apply H in K. discriminate.
Qed.

(** *** Jacobian coordinates: the doubling multiplies by 4 and by 8 *)
Section JAC.
Hypothesis p8 : 8 < value p.
Lemma jac_add_claim P Q : good3 c p P -> good3 c p Q -> on (jac_pt P) -> on (jac_pt Q) ->
  exists R, jac_add O E P Q = Ok R /\ good3 c p R /\ jac_pt R = padd A (jac_pt P) (jac_pt Q).
Proof.
  intros GP GQ CP CQ. eapply lift3j; [apply jac_add_rel; auto using Hp, p3, Ha, Hb; apply good_R3; eassumption|].
  apply (jac_add_ok F E2 two_ne Hzero Hm3); assumption.
Qed.
Lemma jac_doubled_claim P : good3 c p P -> on (jac_pt P) -> exists R, jac_doubled O E P = Ok R /\ good3 c p R /\ jac_pt R = padd A (jac_pt P) (jac_pt P).
Proof.
  intros GP CP. eapply lift3j; [apply jac_doubled_rel; auto using Hp, p3, Ha, Hb; apply good_R3; eassumption|].
  apply (jac_doubled_ok F E2 two_ne Hzero Hm3); assumption.
Qed.
Lemma jac_inverted_claim P : good3 c p P -> exists R, inverted3 O P = Ok R /\ good3 c p R /\ jac_pt R = popp (jac_pt P).
Proof. intros GP. eapply lift3j; [apply inverted3_rel; auto using Hp, p3, Ha, Hb; apply good_R3; eassumption|]. apply (inverted_jac_ok F). Qed.
Lemma jac_sub_claim P Q : good3 c p P -> good3 c p Q -> on (jac_pt P) -> on (jac_pt Q) ->
  exists R, jac_sub O E P Q = Ok R /\ good3 c p R /\ jac_pt R = padd A (jac_pt P) (popp (jac_pt Q)).
Proof.
  intros GP GQ CP CQ. eapply lift3j; [apply jac_sub_rel; auto using Hp, p3, Ha, Hb; apply good_R3; eassumption|].
  apply (jac_sub_ok F E2 two_ne Hzero Hm3); assumption.
Qed.
Lemma jac_on_claim P : good3 c p P -> exists v, jac_is_on_curve O E P = Ok v /\ (v = true <-> on (jac_pt P)).
Proof. intros GP. eapply liftb; [apply jac_on_rel; auto using Hp, p3, Ha, Hb; apply good_R3; eassumption|]. apply (jac_on_ok F E2). Qed.
Lemma jac_eqb_claim P Q : good3 c p P -> good3 c p Q -> exists v, jac_eqb O P Q = Ok v /\ (v = true <-> jac_pt P = jac_pt Q).
Proof. intros GP GQ. eapply liftb; [apply jac_eqb_rel; auto using Hp, p3, Ha, Hb; apply good_R3; eassumption|]. apply (jac_eqb_ok F). Qed.
Lemma jac_id_claim P : good3 c p P -> (is_identity3 O P = true <-> jac_pt P = Inf).
Proof.
  intros GP. rewrite (id3_rel c p Hp Pp p3 _ _ (good_R3 _ GP)). unfold EcFeSpec.jac_pt. fold (conc3 P). rewrite (id3_jac F). destruct (abs_jac (conc3 P)); split; congruence.
Qed.
Lemma jac_of_affine_claim P : good2 c p P -> good3 c p (of_affine O P) /\ jac_pt (of_affine O P) = aff_pt P.
Proof.
  intros GP. destruct (of_affine_rel c p Hp Pp p3 _ _ (good_R2 _ GP)) as (G & X). split; [exact G|]. unfold EcFeSpec.jac_pt. rewrite <- X. apply (of_affine_jac F).
Qed.
(** the result is the affine point itself, unless that is (0, 0) *)
Lemma jac_to_affine_claim P : good3 c p P -> exists R, jac_to_affine O P = Ok R /\ good2 c p R /\
  match jac_pt P with Inf => R = None | Aff x y => conc2 R = Some (x, y) end.
Proof.
  intros GP. pose proof (jac_to_affine_rel c p Hp Pp p3 _ _ (good_R3 _ GP)) as H. destruct (jac_to_affine_ok F (conc3 P)) as (R & K & H1 & H2). rewrite K in H.
  destruct H as (u & K' & G & X). exists u. split; [exact K'|]. split; [exact G|]. unfold EcFeSpec.jac_pt. fold (conc3 P).
  destruct (abs_jac (conc3 P)) as [|x y].
  - specialize (H2 eq_refl). rewrite H2 in X. destruct u as [[u v]|]; [discriminate|reflexivity].
  - specialize (H1 x y eq_refl). rewrite <- H1, X. reflexivity.
Qed.
Lemma jac_to_affine_pt P : value b <> 0 -> good3 c p P -> on (jac_pt P) -> exists R, jac_to_affine O P = Ok R /\ good2 c p R /\ aff_pt R = jac_pt P.
Proof.
  intros bz GP CP. destruct (jac_to_affine_claim P GP) as (R & K & G & X). exists R. split; [exact K|]. split; [exact G|].
  destruct (jac_pt P) as [|x y]; [subst R; reflexivity|]. unfold EcFeSpec.aff_pt. fold (conc2 R). rewrite X. apply (abs_00 F E2 (b_ne bz)). exact CP.
Qed.
Lemma jac_normalize_claim P : good3 c p P -> exists R, jac_normalize O P = Ok R /\ good3 c p R /\ jac_pt R = jac_pt P /\
  (jac_pt P <> Inf -> exists x y z, R = Some (x, y, z) /\ value (fv z) = 1).
Proof.
  intros GP. pose proof (jac_normalize_rel c p Hp Pp p3 _ _ (good_R3 _ GP)) as H. destruct (jac_normalize_ok F (conc3 P)) as (R & K & H1 & H2). rewrite K in H.
  destruct H as (u & K' & G & X). exists u. split; [exact K'|]. split; [exact G|]. split.
  - unfold EcFeSpec.jac_pt. fold (conc3 P). rewrite <- H1, X. reflexivity.
  - intros N. destruct H2 as (x & y & ER).
    { rewrite <- (id3_rel c p Hp Pp p3 _ _ (good_R3 _ GP)). destruct (is_identity3 O P) eqn:I; [|reflexivity]. exfalso. apply N, jac_id_claim; assumption. }
    rewrite ER in X. destruct u as [[[u v] w]|]; [|discriminate]. injection X as _ _ Z1. exists u, v, w. split; [reflexivity|].
    destruct G as (_ & _ & _ & _ & G). pose proof p3 as P3. rewrite Z.mod_1_l, Z.mod_small in Z1 by lia. symmetry. exact Z1.
Qed.
Definition rel_jac (P : option (fe * fe * fe)) (X : point F) : Prop := good3 c p P /\ jac_pt P = X /\ on X.
Lemma rel_jac_curve q X : rel_jac q X -> on X. Proof. intros (_ & _ & H). exact H. Qed.
Lemma rel_jac_id : rel_jac None Inf. Proof. split; [exact I|split; [reflexivity|exact I]]. Qed.
Lemma rel_jac_is_id q X k : rel_jac q X -> is_identity3 O q = true -> rel_jac q (zmul A k X).
Proof. intros (G & K & H) I. apply (jac_id_claim q G) in I. split; [exact G|]. rewrite K in I. rewrite I, zmul_inf, K, I. split; [reflexivity|exact Logic.I]. Qed.
Lemma rel_jac_add q r X Y : rel_jac q X -> rel_jac r Y -> exists R, jac_add O E q r = Ok R /\ rel_jac R (padd A X Y).
Proof. intros (G & <- & H) (G' & <- & H'). destruct (jac_add_claim q r G G' H H') as (R & K & GR & X). exists R. split; [exact K|]. split; [exact GR|]. split; [exact X|]. apply padd_curve; auto using two_ne. Qed.
Lemma rel_jac_dbl q X : rel_jac q X -> exists R, jac_doubled O E q = Ok R /\ rel_jac R (padd A X X).
Proof. intros (G & <- & H). destruct (jac_doubled_claim q G H) as (R & K & GR & X). exists R. split; [exact K|]. split; [exact GR|]. split; [exact X|]. apply padd_curve; auto using two_ne. Qed.
Lemma rel_jac_inv q X : rel_jac q X -> exists R, inverted3 O q = Ok R /\ rel_jac R (popp X).
Proof. intros (G & <- & H). destruct (jac_inverted_claim q G) as (R & K & GR & X). exists R. split; [exact K|]. split; [exact GR|]. split; [exact X|]. apply popp_curve; auto. Qed.
Lemma jac_start_claim : jac_doubled O E (Some (o_lit O 0, o_lit O 0, o_lit O 1)) = Ok None.
Proof.
  assert (H : orel R3 (jac_doubled O E (Some (o_lit O 0, o_lit O 0, o_lit O 1))) (jac_doubled (exact_ops F) E2 (Some (0%f, 0%f, 1%f)))).
  { apply jac_doubled_rel; auto using Hp, p3, Ha, Hb. apply R3_some; [apply (lit_rel c p Hp Pp p3 0); lia|apply (lit_rel c p Hp Pp p3 0); lia|apply (lit_rel c p Hp Pp p3 1); lia]. }
  rewrite (jac_start F E2) in H. destruct H as (u & -> & _ & X). destruct u as [[[? ?] ?]|]; [discriminate|reflexivity].
Qed.
Lemma jac_mul_claim P s : good3 c p P -> on (jac_pt P) -> valid c s -> room c (size s + 1) ->
  exists R, jac_mul O E c P s = Ok R /\ good3 c p R /\ jac_pt R = zmul A (value s) (jac_pt P).
Proof.
  intros GP CP Vs Rs. unfold jac_mul, jac_loop.
  destruct (mul_naf_ok F A B two_ne Hd _ rel_jac (jac_add O E) (jac_doubled O E) (inverted3 O) (is_identity3 O) None rel_jac_curve rel_jac_id rel_jac_is_id rel_jac_add rel_jac_dbl rel_jac_inv
    c P s (jac_pt P) (Some (o_lit O 0, o_lit O 0, o_lit O 1)) None Vs Rs) as (R & K & G & X & _).
  - split; [exact GP|split; [reflexivity|exact CP]].
  - exact jac_start_claim.
  - exact rel_jac_id.
  - exists R. auto.
Qed.
Lemma jac_mul_add_claim x P y Q : good3 c p P -> good3 c p Q -> on (jac_pt P) -> on (jac_pt Q) -> valid c x -> valid c y -> 0 <= value x -> 0 <= value y ->
  room c (size x + 1) -> room c (size y + 1) ->
  exists R, jac_mul_add O E c x P y Q = Ok R /\ good3 c p R /\ jac_pt R = padd A (zmul A (value x) (jac_pt P)) (zmul A (value y) (jac_pt Q)).
Proof.
  intros GP GQ CP CQ Vx Vy Px Py Rx Ry. unfold jac_mul_add.
  destruct (mul_add_ok F A B two_ne Hd _ rel_jac (jac_add O E) (jac_doubled O E) (inverted3 O) (is_identity3 O) None rel_jac_curve rel_jac_id rel_jac_is_id rel_jac_add rel_jac_dbl rel_jac_inv
    c x P y Q (jac_pt P) (jac_pt Q)) as (R & K & G & X & _); try assumption.
  - split; [exact GP|split; [reflexivity|exact CP]].
  - split; [exact GQ|split; [reflexivity|exact CQ]].
  - exists R. auto.
Qed.
Lemma jac_valid_claim n P : good3 c p P -> valid c n -> room c (size n + 1) ->
  exists v, jac_is_valid O E c n P = Ok v /\ (v = true <-> jac_pt P <> Inf /\ on (jac_pt P) /\ zmul A (value n) (jac_pt P) = Inf).
Proof.
  intros GP Vn Rn. unfold jac_is_valid, is_valid_with. pose proof (jac_id_claim P GP) as I. destruct (is_identity3 O P).
  { exists false. split; [reflexivity|]. split; [discriminate|]. intros (H & _). exfalso. apply H, I. reflexivity. }
  destruct (jac_on_claim P GP) as ([|] & -> & H); cbn [bind negb].
  - destruct (jac_mul_claim P n GP ltac:(apply H; reflexivity) Vn Rn) as (Q & -> & G & X). cbn [bind]. exists (is_identity3 O Q). split; [reflexivity|].
    rewrite (jac_id_claim Q G), X. split; [|tauto]. intros Z. split; [|split; [apply H; reflexivity|exact Z]]. intros K. apply I in K. discriminate.
  - exists false. split; [reflexivity|]. split; [discriminate|]. intros (_ & K & _). apply H in K. discriminate.
Qed.
End JAC.
End CURVE.
