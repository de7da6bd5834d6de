(** The point formulas with assertions enabled: over reduced elements they give the result of the release
    build.  The relation between the two instances of [fops] is equality of reduced elements; it is
    carried through every formula as in EcTransfer.v. *)
From Coq Require Import List ZArith Znumtheory Bool Lia.
From Verif Require Import Outcome LoopModel WordsModel WordsSpec WordsProofs BigintModel BigintSpec BigintProofs BigintClaims NumModel NumProofs FpModel FpSpec FpProofs FpClaims FpSqrt EcModel EcFeSpec EcTransfer AssertModel AssertSpec AssertProofs AssertRefine AssertSim AssertLoops DebugEcModel DebugFp DebugSqrt.
Import ListNotations.
Open Scope Z_scope.

Section TR.
Variable c : cap.
Variable p : bigint.
Hypothesis Hp : modulus_ok c p.
Variable Pp : prime (value p).
Hypothesis p3 : 3 < value p.
Let Vp : valid c p. Proof. apply Hp. Qed.
Let P1 : 1 < value p. Proof. apply Hp. Qed.
Notation O1 := (d_fe_ops c p).
Notation O2 := (fe_ops c p).
Lemma elem_fits x : elem c p x -> fits c p (fv x). Proof. intros (_ & H). apply (red_fits c p Hp), H. Qed.
(** an element object of the field that need not be reduced *)
Definition loose (x : fe) : Prop := fm x = Some p /\ fits c p (fv x).
Lemma elem_loose x : elem c p x -> loose x. Proof. intros H. split; [apply H|apply elem_fits, H]. Qed.
Definition R (x y : fe) : Prop := x = y /\ elem c p x.
Definition RK (x y : bigint) : Prop := x = y /\ reduced c p x.
Definition R2 (P Q : option (fe * fe)) : Prop := P = Q /\ good2 c p P.
Definition R3 (P Q : option (fe * fe * fe)) : Prop := P = Q /\ good3 c p P.
Lemma of_returns o o' v : returns c p o' v -> o = o' -> orel R o o'.
Proof. intros (r & -> & D & _) ->. exists r. split; [reflexivity|]. split; [reflexivity|exact D]. Qed.
Lemma of_quotient o o' r : o' = Ok r -> elem c p r -> o = o' -> orel R o o'.
Proof. intros -> D ->. exists r. split; [reflexivity|]. split; [reflexivity|exact D]. Qed.
Lemma with_eq x f g : loose x -> f p = g p -> with_m x f = with_m x g.
Proof. intros (E & _) H. unfold with_m. rewrite E, H. reflexivity. Qed.
Lemma e_add_big x k : loose x -> fits c p k -> d_fe_add_big c x k = fe_add_big c x k.
Proof. intros Hx Hk. apply with_eq; [exact Hx|]. apply (d_fp_add_eq c p Hp); [apply Hx|exact Hk]. Qed.
Lemma e_sub_big x k : loose x -> fits c p k -> d_fe_sub_big c x k = fe_sub_big c x k.
Proof. intros Hx Hk. apply with_eq; [exact Hx|]. apply (d_fp_sub_eq c p Hp); [apply Hx|exact Hk]. Qed.
Lemma e_mul_big x k : loose x -> fits c p k -> d_fe_mul_big c x k = fe_mul_big c x k.
Proof.
  intros Hx Hk. unfold d_fe_mul_big, fe_mul_big. destruct (is_one (fv x)); [reflexivity|]. destruct (is_one k); [reflexivity|].
  apply with_eq; [exact Hx|]. apply (d_fp_mul_eq c p Hp); [apply Hx|exact Hk].
Qed.
Lemma e_mul_int x k : loose x -> int32 k -> k <> - 2 ^ 31 -> d_fe_mul_int c x k = fe_mul_int c x k.
Proof.
  intros Hx K N. unfold d_fe_mul_int, fe_mul_int. destruct (is_one (fv x)).
  - apply with_eq; [exact Hx|]. unfold d_of_int. apply d_assign_int_ok; [apply (valid_room1 c p Vp)|exact N].
  - destruct (k =? 1); [reflexivity|]. apply with_eq; [exact Hx|]. apply (d_fp_mul_int_eq c p Hp); [apply Hx|exact K|exact N].
Qed.
Lemma e_sqr x : loose x -> d_fe_sqr c x = fe_sqr c x.
Proof. intros Hx. unfold d_fe_sqr, fe_sqr. destruct (is_one (fv x)); [reflexivity|]. apply with_eq; [exact Hx|]. apply (d_fp_mul_eq c p Hp); apply Hx. Qed.
Lemma e_neg x : loose x -> d_fe_neg c x = fe_neg c x.
Proof. intros Hx. apply with_eq; [exact Hx|]. apply (d_fp_neg_eq c p Hp). apply Hx. Qed.
Lemma e_inv x : loose x -> 0 <= value (fv x) -> d_fe_inv c x = fe_inv c x.
Proof. intros Hx N. apply with_eq; [exact Hx|]. apply (d_op_modinv_eq c p Hp); [apply Hx|exact N]. Qed.
Lemma e_div_big x k : loose x -> reduced c p k -> d_fe_div_big c x k = fe_div_big c x k.
Proof. intros Hx Hk. unfold d_fe_div_big, fe_div_big. destruct (is_one k); [reflexivity|]. apply with_eq; [exact Hx|]. apply (d_fp_div_eq c p Hp); [apply Hx|exact Hk]. Qed.
Lemma e_sqrt x : Z.odd (value p) = true -> elem c p x -> d_fe_sqrt c x = fe_sqrt c x.
Proof. intros Op Hx. unfold d_fe_sqrt, fe_sqrt. destruct (is_one (fv x)); [reflexivity|]. apply with_eq; [apply elem_loose, Hx|]. apply (d_fp_sqrt_eq c p Hp Pp Op). apply Hx. Qed.

Lemma add_rel x y u v : R x u -> R y v -> orel R (o_add O1 x y) (o_add O2 u v).
Proof. intros (<- & Hx) (<- & Hy). eapply of_returns; [apply (fe_add_claim c p Hp); assumption|]. apply e_add_big; [apply elem_loose, Hx|apply elem_fits, Hy]. Qed.
Lemma sub_rel x y u v : R x u -> R y v -> orel R (o_sub O1 x y) (o_sub O2 u v).
Proof. intros (<- & Hx) (<- & Hy). eapply of_returns; [apply (fe_sub_claim c p Hp); assumption|]. apply e_sub_big; [apply elem_loose, Hx|apply elem_fits, Hy]. Qed.
Lemma mul_rel x y u v : R x u -> R y v -> orel R (o_mul O1 x y) (o_mul O2 u v).
Proof. intros (<- & Hx) (<- & Hy). eapply of_returns; [apply (fe_mul_claim c p Hp); assumption|]. apply e_mul_big; [apply elem_loose, Hx|apply elem_fits, Hy]. Qed.
Lemma sqr_rel x u : R x u -> orel R (o_sqr O1 x) (o_sqr O2 u).
Proof. intros (<- & Hx). eapply of_returns; [apply (fe_sqr_claim c p Hp); assumption|]. apply e_sqr, elem_loose, Hx. Qed.
Lemma neg_rel x u : R x u -> orel R (o_neg O1 x) (o_neg O2 u).
Proof. intros (<- & Hx). eapply of_returns; [apply (fe_neg_claim c p Hp); assumption|]. apply e_neg, elem_loose, Hx. Qed.
Lemma addk_rel x k u v : R x u -> RK k v -> orel R (o_addk O1 x k) (o_addk O2 u v).
Proof.
  intros (<- & Hx) (<- & Hk). eapply of_returns; [|apply e_add_big; [apply elem_loose, Hx|apply (red_fits c p Hp), Hk]].
  apply (fe_add_claim c p Hp x (mkfe k (Some p)) Hx). split; [reflexivity|exact Hk].
Qed.
Lemma mulk_rel k x v u : RK k v -> R x u -> orel R (o_mulk O1 k x) (o_mulk O2 v u).
Proof. intros (<- & Hk) (<- & Hx). eapply of_returns; [apply (fe_mul_big_claim c p Hp x k Hx Hk)|]. apply e_mul_big; [apply elem_loose, Hx|apply (red_fits c p Hp), Hk]. Qed.
Lemma muli_rel k x u : 0 <= k < value p -> 0 <= k < 2 ^ 31 -> R x u -> orel R (o_muli O1 k x) (o_muli O2 k u).
Proof. intros Hk Hk' (<- & Hx). eapply of_returns; [apply (fe_mul_int_claim c p Hp x k Hx); lia|]. apply e_mul_int; [apply elem_loose, Hx|unfold int32; lia|lia]. Qed.
Lemma lit_rel k : 0 <= k <= 3 -> R (o_lit O1 k) (o_lit O2 k).
Proof.
  intros Hk. destruct (of_int_value c k (valid_room1 c p Vp) ltac:(lia)) as ((V & _) & E).
  split; [reflexivity|]. split; [reflexivity|]. split; [exact V|]. cbn. lia.
Qed.
Lemma is_zero_rel x u : R x u -> o_is_zero O1 x = o_is_zero O2 u. Proof. intros (<- & _). reflexivity. Qed.
Lemma is_one_rel x u : R x u -> o_is_one O1 x = o_is_one O2 u. Proof. intros (<- & _). reflexivity. Qed.
Lemma eq0_rel x u : R x u -> o_eq0 O1 x = o_eq0 O2 u. Proof. intros (<- & _). reflexivity. Qed.
Lemma eqb_rel x y u v : R x u -> R y v -> o_eqb O1 x y = o_eqb O2 u v. Proof. intros (<- & _) (<- & _). reflexivity. Qed.
Lemma div_rel x y u v : R x u -> R y v -> orel R (o_div O1 x y) (o_div O2 u v).
Proof.
  intros (<- & Hx) (<- & Hy). destruct (Z.eq_dec (value (fv y)) 0) as [E|N].
  - change (orel R (d_fe_div c x y) (fe_div c x y)). unfold d_fe_div. rewrite (e_div_big x (fv y) (elem_loose x Hx) (proj2 Hy)). change (orel R (fe_div c x y) (fe_div c x y)). rewrite (proj2 (zero_div_claim c p x y Hp Hx Hy E)). reflexivity.
  - destruct (prime_div_claim c p x y Hp Pp Hx Hy N) as (r & E & Hr & _). eapply of_quotient; [exact E|exact Hr|]. apply e_div_big; [apply elem_loose, Hx|apply Hy].
Qed.
Lemma inv_rel x u : R x u -> orel R (o_inv O1 x) (o_inv O2 u).
Proof.
  intros (<- & Hx). destruct (Z.eq_dec (value (fv x)) 0) as [E|N].
  - change (orel R (d_fe_inv c x) (fe_inv c x)). rewrite (e_inv x (elem_loose x Hx) (proj1 (proj2 (proj2 Hx)))). rewrite (proj1 (zero_div_claim c p x x Hp Hx Hx E)). reflexivity.
  - destruct (prime_inv_claim c p x Hp Pp Hx N) as (r & E & Hr & _). eapply of_quotient; [exact E|exact Hr|]. apply e_inv; [apply elem_loose, Hx|apply Hx].
Qed.

(** ** the formulas *)
Variable a b : bigint.
Hypothesis Ha : reduced c p a.
Hypothesis Hb : reduced c p b.
Variables fz0 fm3 : bool.
Definition E1 : coeffs O1 := mkcoeffs O1 a b fz0 fm3.
Definition E2 : coeffs O2 := mkcoeffs O2 a b fz0 fm3.
Lemma a_rel : RK a a. Proof. split; [reflexivity|exact Ha]. Qed.
Lemma b_rel : RK b b. Proof. split; [reflexivity|exact Hb]. Qed.
Lemma R2_none : R2 None None. Proof. split; [reflexivity|exact I]. Qed.
Lemma R3_none : R3 None None. Proof. split; [reflexivity|exact I]. Qed.
Lemma R2_some x y u v : R x u -> R y v -> R2 (Some (x, y)) (Some (u, v)).
Proof. intros (<- & A) (<- & B). split; [reflexivity|split; assumption]. Qed.
Lemma R3_some x y z u v w : R x u -> R y v -> R z w -> R3 (Some (x, y, z)) (Some (u, v, w)).
Proof. intros (<- & A) (<- & B) (<- & C). split; [reflexivity|split; [exact A|split; [exact B|exact C]]]. Qed.
Lemma R2_inv P Q : R2 P Q -> (P = None /\ Q = None) \/ exists x y u v, P = Some (x, y) /\ Q = Some (u, v) /\ R x u /\ R y v.
Proof.
  intros (<- & A). destruct P as [[x y]|]; [right|left; auto]. exists x, y, x, y. destruct A as (A & B). split; [reflexivity|]. split; [reflexivity|]. split; split; auto.
Qed.
Lemma R3_inv P Q : R3 P Q -> (P = None /\ Q = None) \/ exists x y z u v w, P = Some (x, y, z) /\ Q = Some (u, v, w) /\ R x u /\ R y v /\ R z w.
Proof.
  intros (<- & A). destruct P as [[[x y] z]|]; [right|left; auto]. exists x, y, z, x, y, z. destruct A as (A & B & D). split; [reflexivity|]. split; [reflexivity|]. split; [|split]; split; auto.
Qed.
Ltac brel := repeat first [reflexivity | apply is_zero_rel | apply is_one_rel | apply eq0_rel | apply eqb_rel | eassumption | apply f_equal | apply f_equal2].
Ltac rel1 :=
  lazymatch goal with
  | |- forall _, _ => intros
  | |- orel _ (bind _ _) (bind _ _) => eapply orel_bind
  | |- orel _ (if _ then _ else _) (if _ then _ else _) => apply orel_if; [solve [brel]| |]
  | |- orel _ (let _ := _ in _) _ => cbv zeta
  | |- orel _ (Ok None) (Ok None) => apply orel_ok; first [apply R2_none | apply R3_none]
  | |- orel _ (Ok (Some (_, _, _))) _ => apply orel_ok, R3_some; first [eassumption | apply lit_rel; lia]
  | |- orel _ (Ok (Some (_, _))) _ => apply orel_ok, R2_some; eassumption
  | |- orel _ (o_add _ _ _) _ => apply add_rel; eassumption
  | |- orel _ (o_sub _ _ _) _ => apply sub_rel; eassumption
  | |- orel _ (o_mul _ _ _) _ => apply mul_rel; eassumption
  | |- orel _ (o_div _ _ _) _ => apply div_rel; eassumption
  | |- orel _ (o_sqr _ _) _ => apply sqr_rel; eassumption
  | |- orel _ (o_neg _ _) _ => apply neg_rel; eassumption
  | |- orel _ (o_inv _ _) _ => apply inv_rel; eassumption
  | |- orel _ (o_addk _ _ (cv_a _ _)) _ => apply addk_rel; [eassumption|exact a_rel]
  | |- orel _ (o_addk _ _ (cv_b _ _)) _ => apply addk_rel; [eassumption|exact b_rel]
  | |- orel _ (o_mulk _ (cv_a _ _) _) _ => apply mulk_rel; [exact a_rel|eassumption]
  | |- orel _ (o_mulk _ (cv_b _ _) _) _ => apply mulk_rel; [exact b_rel|eassumption]
  | |- orel _ (o_muli _ _ _) _ => apply muli_rel; [lia|lia|eassumption]
  | |- orel eq (Ok _) (Ok _) => apply orel_ok; brel
  | |- orel _ (Ok ?x) (Ok ?y) => match goal with H : R x y |- _ => apply (orel_ok R x y H) end
  end.
Ltac rel := repeat rel1.

Lemma aff_id_rel P Q : R2 P Q -> aff_is_identity O1 P = aff_is_identity O2 Q.
Proof. intros H. destruct (R2_inv _ _ H) as [(-> & ->)|(x & y & u & v & -> & -> & Hx & Hy)]; [reflexivity|]. cbn [aff_is_identity]. brel. Qed.
Lemma id3_rel P Q : R3 P Q -> is_identity3 O1 P = is_identity3 O2 Q.
Proof. intros H. destruct (R3_inv _ _ H) as [(-> & ->)|(x & y & z & u & v & w & -> & -> & Hx & Hy & Hz)]; [reflexivity|]. cbn [is_identity3]. brel. Qed.
Lemma aff_on_rel P Q : R2 P Q -> orel eq (aff_is_on_curve O1 E1 P) (aff_is_on_curve O2 E2 Q).
Proof.
  intros H. unfold aff_is_on_curve. apply orel_if; [apply aff_id_rel, H|apply orel_ok; reflexivity|].
  destruct (R2_inv _ _ H) as [(-> & ->)|(x & y & u & v & -> & -> & Hx & Hy)]; [reflexivity|]. rel.
Qed.
Lemma aff_inverted_rel P Q : R2 P Q -> orel R2 (aff_inverted O1 P) (aff_inverted O2 Q).
Proof.
  intros H. unfold aff_inverted. apply orel_if; [apply aff_id_rel, H|apply orel_ok, H|].
  destruct (R2_inv _ _ H) as [(-> & ->)|(x & y & u & v & -> & -> & Hx & Hy)]; [reflexivity|]. rel.
Qed.
Lemma aff_doubled_rel P Q : R2 P Q -> orel R2 (aff_doubled O1 E1 P) (aff_doubled O2 E2 Q).
Proof.
  intros H. pose proof (aff_id_rel _ _ H) as I. unfold aff_doubled.
  destruct (R2_inv _ _ H) as [(-> & ->)|(x & y & u & v & -> & -> & Hx & Hy)]; [apply orel_ok, R2_none|].
  apply orel_if; [rewrite I; brel|apply orel_ok, R2_none|]. rel.
Qed.
Lemma aff_add_rel P Q P' Q' : R2 P Q -> R2 P' Q' -> orel R2 (aff_add O1 E1 P P') (aff_add O2 E2 Q Q').
Proof.
  intros H H'. unfold aff_add. apply orel_if; [apply aff_id_rel, H|apply orel_ok, H'|]. apply orel_if; [apply aff_id_rel, H'|apply orel_ok, H|].
  pose proof (aff_doubled_rel _ _ H) as D.
  destruct (R2_inv _ _ H) as [(-> & ->)|(x & y & u & v & -> & -> & Hx & Hy)]; [reflexivity|].
  destruct (R2_inv _ _ H') as [(-> & ->)|(x' & y' & u' & v' & -> & -> & Hx' & Hy')]; [reflexivity|].
  repeat first [rel1 | exact D].
Qed.
Lemma aff_sub_rel P Q P' Q' : R2 P Q -> R2 P' Q' -> orel R2 (aff_sub O1 E1 P P') (aff_sub O2 E2 Q Q').
Proof. intros H H'. unfold aff_sub. eapply orel_bind; [apply aff_inverted_rel, H'|]. intros. apply aff_add_rel; assumption. Qed.
Lemma aff_eqb_rel P Q P' Q' : R2 P Q -> R2 P' Q' -> aff_eqb O1 P P' = aff_eqb O2 Q Q'.
Proof.
  intros H H'. destruct (R2_inv _ _ H) as [(-> & ->)|(x & y & u & v & -> & -> & Hx & Hy)];
    destruct (R2_inv _ _ H') as [(-> & ->)|(x' & y' & u' & v' & -> & -> & Hx' & Hy')]; cbn [aff_eqb]; brel.
Qed.
Lemma of_affine_rel P Q : R2 P Q -> R3 (of_affine O1 P) (of_affine O2 Q).
Proof.
  intros H. unfold of_affine. rewrite (aff_id_rel _ _ H). destruct (aff_is_identity O2 Q); [apply R3_none|].
  destruct (R2_inv _ _ H) as [(-> & ->)|(x & y & u & v & -> & -> & Hx & Hy)]; [apply R3_none|]. apply R3_some; auto. apply lit_rel. lia.
Qed.
Ltac cases3 H := destruct (R3_inv _ _ H) as [(-> & ->)|(? & ? & ? & ? & ? & ? & -> & -> & ? & ? & ?)].
Lemma inverted3_rel P Q : R3 P Q -> orel R3 (inverted3 O1 P) (inverted3 O2 Q).
Proof. intros H. unfold inverted3. apply orel_if; [apply id3_rel, H|apply orel_ok, H|]. cases3 H; [reflexivity|]. rel. Qed.
Lemma proj_normalize_rel P Q : R3 P Q -> orel R3 (proj_normalize O1 P) (proj_normalize O2 Q).
Proof.
  intros H. pose proof (id3_rel _ _ H) as I. unfold proj_normalize. pose proof H as H0. cases3 H; [apply orel_ok, R3_none|].
  apply orel_if; [rewrite I; brel| |apply orel_ok, H0]. rel.
Qed.
Lemma jac_normalize_rel P Q : R3 P Q -> orel R3 (jac_normalize O1 P) (jac_normalize O2 Q).
Proof.
  intros H. pose proof (id3_rel _ _ H) as I. unfold jac_normalize. pose proof H as H0. cases3 H; [apply orel_ok, R3_none|].
  apply orel_if; [rewrite I; brel| |apply orel_ok, H0]. rel.
Qed.
Lemma proj_to_affine_rel P Q : R3 P Q -> orel R2 (proj_to_affine O1 P) (proj_to_affine O2 Q).
Proof. intros H. unfold proj_to_affine. apply orel_if; [apply id3_rel, H|apply orel_ok, R2_none|]. cases3 H; [reflexivity|]. rel. Qed.
Lemma jac_to_affine_rel P Q : R3 P Q -> orel R2 (jac_to_affine O1 P) (jac_to_affine O2 Q).
Proof. intros H. unfold jac_to_affine. apply orel_if; [apply id3_rel, H|apply orel_ok, R2_none|]. cases3 H; [reflexivity|]. rel. Qed.
Lemma proj_on_rel P Q : R3 P Q -> orel eq (proj_is_on_curve O1 E1 P) (proj_is_on_curve O2 E2 Q).
Proof. intros H. unfold proj_is_on_curve. apply orel_if; [apply id3_rel, H|apply orel_ok; reflexivity|]. cases3 H; [reflexivity|]. rel. Qed.
Lemma jac_on_rel P Q : R3 P Q -> orel eq (jac_is_on_curve O1 E1 P) (jac_is_on_curve O2 E2 Q).
Proof. intros H. unfold jac_is_on_curve. apply orel_if; [apply id3_rel, H|apply orel_ok; reflexivity|]. cases3 H; [reflexivity|]. rel. Qed.
Lemma proj_doubled_rel P Q : R3 P Q -> orel R3 (proj_doubled O1 E1 P) (proj_doubled O2 E2 Q).
Proof.
  intros H. pose proof (id3_rel _ _ H) as I. unfold proj_doubled. cases3 H; [apply orel_ok, R3_none|].
  apply orel_if; [rewrite I; brel|apply orel_ok, R3_none|]. rel.
Qed.
Lemma proj_add_rel P Q P' Q' : R3 P Q -> R3 P' Q' -> orel R3 (proj_add O1 E1 P P') (proj_add O2 E2 Q Q').
Proof.
  intros H H'. unfold proj_add. apply orel_if; [apply id3_rel, H|apply orel_ok, H'|]. apply orel_if; [apply id3_rel, H'|apply orel_ok, H|].
  pose proof (proj_doubled_rel _ _ H) as D. cases3 H; [reflexivity|]. cases3 H'; [reflexivity|]. repeat first [rel1 | exact D].
Qed.
Lemma proj_sub_rel P Q P' Q' : R3 P Q -> R3 P' Q' -> orel R3 (proj_sub O1 E1 P P') (proj_sub O2 E2 Q Q').
Proof. intros H H'. unfold proj_sub. eapply orel_bind; [apply inverted3_rel, H'|]. intros. apply proj_add_rel; assumption. Qed.
Lemma proj_eqb_rel P Q P' Q' : R3 P Q -> R3 P' Q' -> orel eq (proj_eqb O1 P P') (proj_eqb O2 Q Q').
Proof.
  intros H H'. unfold proj_eqb. rewrite (id3_rel _ _ H), (id3_rel _ _ H'). apply orel_if; [reflexivity|apply orel_ok; reflexivity|].
  cases3 H; [reflexivity|]. cases3 H'; [reflexivity|]. rel.
Qed.
(** the Jacobian doubling multiplies by 4 and 8 *)
Hypothesis p8 : 8 < value p.
Lemma jac_doubled_rel P Q : R3 P Q -> orel R3 (jac_doubled O1 E1 P) (jac_doubled O2 E2 Q).
Proof.
  intros H. unfold jac_doubled. apply orel_if; [apply id3_rel, H|apply orel_ok, H|]. cases3 H; [reflexivity|]. apply orel_if; [brel|apply orel_ok, R3_none|]. cbv zeta. rel.
Qed.
Lemma jac_addex_rel P Q z z' u1 u2 s1 s2 w w' v1 v2 t1 t2 : R3 P Q -> R z w -> R z' w' -> R u1 v1 -> R u2 v2 -> R s1 t1 -> R s2 t2 ->
  orel R3 (jac_addex O1 E1 P z z' u1 u2 s1 s2) (jac_addex O2 E2 Q w w' v1 v2 t1 t2).
Proof. intros H. intros. unfold jac_addex. pose proof (jac_doubled_rel _ _ H) as D. repeat first [rel1 | exact D]. Qed.
Lemma jac_add_rel P Q P' Q' : R3 P Q -> R3 P' Q' -> orel R3 (jac_add O1 E1 P P') (jac_add O2 E2 Q Q').
Proof.
  intros H H'. unfold jac_add. apply orel_if; [apply id3_rel, H|apply orel_ok, H'|]. apply orel_if; [apply id3_rel, H'|apply orel_ok, H|].
  pose proof H as H0. pose proof H' as H0'. cases3 H; [reflexivity|]. cases3 H'; [reflexivity|]. cbn [fst snd]. cbv zeta.
  unfold jac_add_z_1, jac_add_z2_1, jac_add_ne.
  repeat first [rel1 | apply jac_addex_rel; eassumption].
Qed.
Lemma jac_sub_rel P Q P' Q' : R3 P Q -> R3 P' Q' -> orel R3 (jac_sub O1 E1 P P') (jac_sub O2 E2 Q Q').
Proof. intros H H'. unfold jac_sub. eapply orel_bind; [apply inverted3_rel, H'|]. intros. apply jac_add_rel; assumption. Qed.
Lemma jac_eqb_rel P Q P' Q' : R3 P Q -> R3 P' Q' -> orel eq (jac_eqb O1 P P') (jac_eqb O2 Q Q').
Proof.
  intros H H'. unfold jac_eqb. rewrite (id3_rel _ _ H), (id3_rel _ _ H'). apply orel_if; [reflexivity|apply orel_ok; reflexivity|].
  cases3 H; [reflexivity|]. cases3 H'; [reflexivity|]. rel.
Qed.
End TR.
