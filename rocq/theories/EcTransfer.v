(** The point formulas over the field element objects of FpModel.v compute what they compute over the exact
    field of integers modulo p: a relation between the two instances of [fops], carried through every formula. *)
From Coq Require Import Field List ZArith Znumtheory Bool Lia.
From Verif Require Import Outcome LoopModel WordsModel WordsSpec WordsProofs BigintModel BigintSpec BigintProofs BigintClaims NumModel NumProofs FpModel FpSpec FpProofs FpClaims EcGroup EcGroupProofs ZpField EcModel EcSpec EcExact EcFeSpec.
Import ListNotations.
Open Scope Z_scope.

Definition orel {A B : Type} (R : A -> B -> Prop) (o1 : outcome A) (o2 : outcome B) : Prop :=
  match o2 with Ok v => exists u, o1 = Ok u /\ R u v | Abort => o1 = Abort | UB => o1 = UB | NoFuel => o1 = NoFuel end.
Lemma orel_ok {A B} (R : A -> B -> Prop) u v : R u v -> orel R (Ok u) (Ok v).
Proof. intros H. exists u. auto. Qed.
Lemma orel_bind {A B A' B'} (R : A -> B -> Prop) (S : A' -> B' -> Prop) o1 o2 f g :
  orel R o1 o2 -> (forall u v, R u v -> orel S (f u) (g v)) -> orel S (bind o1 f) (bind o2 g).
Proof. intros H K. destruct o2 as [v| | |]; cbn in H; [destruct H as (u & -> & H); apply K, H|subst o1; reflexivity..]. Qed.
Lemma orel_if {A B} (R : A -> B -> Prop) (b1 b2 : bool) x1 x2 y1 y2 : b1 = b2 -> orel R x1 x2 -> orel R y1 y2 -> orel R (if b1 then x1 else y1) (if b2 then x2 else y2).
Proof. intros -> H K. destruct b2; assumption. Qed.

Section TR.
Variable c : cap.
Variable p : bigint.
Hypothesis Hp : modulus_ok c p.
Variable Pp : prime (value p).
Hypothesis p3 : 3 < value p.
Notation F := (GFp p Pp).
Notation O1 := (fe_ops c p).
Notation O2 := (exact_ops F).
Notation fval := (fval p Pp). Notation kval := (kval p Pp).
Add Field FldT : (f_theory F).

Definition R (x : fe) (v : F) : Prop := elem c p x /\ v = fval x.
Definition RK (x : bigint) (v : F) : Prop := reduced c p x /\ v = kval x.
Definition R2 (P : option (fe * fe)) (Q : option (F * F)) : Prop :=
  good2 c p P /\ Q = option_map (fun P => (fval (fst P), fval (snd P))) P.
Definition R3 (P : option (fe * fe * fe)) (Q : option (F * F * F)) : Prop :=
  good3 c p P /\ Q = option_map (fun P => (fval (fst (fst P)), fval (snd (fst P)), fval (snd P))) P.

Lemma zval_fval x : elem c p x -> zval (fval x) = value (fv x).
Proof. intros (_ & _ & H). unfold EcFeSpec.fval. rewrite zval_mk. apply Z.mod_small, H. Qed.
Lemma zval_kval x : reduced c p x -> zval (kval x) = value x.
Proof. intros (_ & H). unfold EcFeSpec.kval. rewrite zval_mk. apply Z.mod_small, H. Qed.
Lemma R_of x (v : F) : denotes c p x (zval v) -> R x v.
Proof. intros (H & E). split; [exact H|]. apply zval_inj. rewrite zval_fval by exact H. rewrite E. symmetry. apply Z.mod_small, zval_range. Qed.
Lemma of_returns o v (w : F) : returns c p o v -> w = zmk (value p) Pp v -> orel R o (Ok w).
Proof.
  intros (r & E & D & V) ->. exists r. split; [exact E|]. split; [exact D|]. apply zval_inj. rewrite zval_fval by exact D. rewrite V. apply zval_mk.
Qed.
Lemma add_rel x y u v : R x u -> R y v -> orel R (o_add O1 x y) (o_add O2 u v).
Proof. intros (Hx & ->) (Hy & ->). eapply of_returns; [apply (fe_add_claim c p Hp); assumption|]. transitivity (zmk (value p) Pp (zval (fval x) + zval (fval y))); [reflexivity|]. rewrite !zval_fval by assumption. reflexivity. Qed.
Lemma sub_rel x y u v : R x u -> R y v -> orel R (o_sub O1 x y) (o_sub O2 u v).
Proof. intros (Hx & ->) (Hy & ->). eapply of_returns; [apply (fe_sub_claim c p Hp); assumption|]. transitivity (zmk (value p) Pp (zval (fval x) - zval (fval y))); [reflexivity|]. rewrite !zval_fval by assumption. reflexivity. Qed.
Lemma mul_rel x y u v : R x u -> R y v -> orel R (o_mul O1 x y) (o_mul O2 u v).
Proof. intros (Hx & ->) (Hy & ->). eapply of_returns; [apply (fe_mul_claim c p Hp); assumption|]. transitivity (zmk (value p) Pp (zval (fval x) * zval (fval y))); [reflexivity|]. rewrite !zval_fval by assumption. reflexivity. Qed.
Lemma sqr_rel x u : R x u -> orel R (o_sqr O1 x) (o_sqr O2 u).
Proof. intros (Hx & ->). eapply of_returns; [apply (fe_sqr_claim c p Hp); assumption|]. transitivity (zmk (value p) Pp (zval (fval x) * zval (fval x))); [reflexivity|]. rewrite !zval_fval by assumption. reflexivity. Qed.
Lemma neg_rel x u : R x u -> orel R (o_neg O1 x) (o_neg O2 u).
Proof. intros (Hx & ->). eapply of_returns; [apply (fe_neg_claim c p Hp); assumption|]. transitivity (zmk (value p) Pp (- zval (fval x))); [reflexivity|]. rewrite !zval_fval by assumption. reflexivity. Qed.
Lemma addk_rel x k u v : R x u -> RK k v -> orel R (o_addk O1 x k) (o_addk O2 u v).
Proof.
  intros (Hx & ->) (Hk & ->). eapply of_returns.
  - apply (fe_add_claim c p Hp x (mkfe k (Some p)) Hx). split; [reflexivity|exact Hk].
  - transitivity (zmk (value p) Pp (zval (fval x) + zval (kval k))); [reflexivity|]. rewrite zval_fval, zval_kval by assumption. reflexivity.
Qed.
Lemma mulk_rel k x v u : RK k v -> R x u -> orel R (o_mulk O1 k x) (o_mulk O2 v u).
Proof.
  intros (Hk & ->) (Hx & ->). eapply of_returns; [apply (fe_mul_big_claim c p Hp x k Hx Hk)|]. transitivity (zmk (value p) Pp (zval (kval k) * zval (fval x))); [reflexivity|]. rewrite zval_fval, zval_kval by assumption.
  rewrite Z.mul_comm. reflexivity.
Qed.
Lemma fpos_val k : zval (fpos F k) = Zpos k mod value p.
Proof.
  assert (M : value p <> 0) by lia.
  induction k as [k IH|k IH|]; cbn [fpos]; [| |reflexivity].
  - change (zval (f1 + (1 + 1) * fpos F k)%f) with ((zval (zmk (value p) Pp 1) + zval ((1 + 1) * fpos F k)%f) mod value p).
    change (zval ((1 + 1) * fpos F k)%f) with ((zval (1 + 1 : F)%f * zval (fpos F k)) mod value p).
    change (zval (1 + 1 : F)%f) with ((1 mod value p + 1 mod value p) mod value p). rewrite zval_mk, IH.
    rewrite !Z.mod_1_l by lia. change (1 + 1) with 2. rewrite (Z.mod_small 2) by lia. rewrite Zplus_mod_idemp_r, <- Zplus_mod_idemp_r, Zmult_mod_idemp_r, Zplus_mod_idemp_r. f_equal.
  - change (zval ((1 + 1) * fpos F k)%f) with ((zval (1 + 1 : F)%f * zval (fpos F k)) mod value p).
    change (zval (1 + 1 : F)%f) with ((1 mod value p + 1 mod value p) mod value p). rewrite IH.
    rewrite !Z.mod_1_l by lia. change (1 + 1) with 2. rewrite (Z.mod_small 2) by lia. rewrite Zmult_mod_idemp_r. f_equal.
Qed.
Lemma fz_val k : 0 <= k -> zval (fz F k) = k mod value p.
Proof. intros H. destruct k as [|k|k]; [reflexivity|apply fpos_val|lia]. Qed.
Lemma muli_rel k x u : 0 <= k < value p -> 0 <= k < 2 ^ 31 -> R x u -> orel R (o_muli O1 k x) (o_muli O2 k u).
Proof.
  intros Hk Hk' (Hx & ->). eapply of_returns; [apply (fe_mul_int_claim c p Hp x k Hx)|]; try lia.
  change (zmk (value p) Pp (zval (fz F k) * zval (fval x)) = zmk (value p) Pp (value (fv x) * k)). rewrite fz_val, zval_fval by (assumption || lia). rewrite Z.mul_comm. apply zmk_eq. apply Zmult_mod_idemp_r.
Qed.
Lemma lit_rel k : 0 <= k <= 3 -> R (o_lit O1 k) (o_lit O2 k).
Proof.
  intros Hk. destruct (of_int_value c k (valid_room1 c p (proj1 Hp)) ltac:(lia)) as ((V & _) & E).
  assert (El : elem c p (o_lit O1 k)). { split; [reflexivity|]. split; [exact V|]. cbn. lia. }
  split; [exact El|]. apply zval_inj. rewrite zval_fval by exact El. change (zval (fz F k) = value (of_int c k)). rewrite fz_val by lia. rewrite E. apply Z.mod_small. lia.
Qed.
Lemma zval_0 : zval (0%f : F) = 0. Proof. change (0 mod value p = 0). apply Z.mod_0_l. lia. Qed.
Lemma zval_1 : zval (1%f : F) = 1. Proof. change (1 mod value p = 1). apply Z.mod_1_l. lia. Qed.
Lemma fb_val (u v : F) : fb u v = (zval u =? zval v).
Proof. unfold fb. destruct (feq_dec u v) as [->|N]; [symmetry; apply Z.eqb_refl|]. symmetry. apply Z.eqb_neq. intros K. apply N. apply zval_inj, K. Qed.
Lemma is_zero_rel x u : R x u -> o_is_zero O1 x = o_is_zero O2 u.
Proof. intros (Hx & ->). change (fe_is_zero x = fb (fval x) 0%f). rewrite fb_val, zval_0, zval_fval by assumption. apply (fe_pred_claim c p Hp x x Hx Hx). Qed.
Lemma is_one_rel x u : R x u -> o_is_one O1 x = o_is_one O2 u.
Proof. intros (Hx & ->). change (fe_is_one x = fb (fval x) 1%f). rewrite fb_val, zval_1, zval_fval by assumption. apply (fe_pred_claim c p Hp x x Hx Hx). Qed.
Lemma eq0_rel x u : R x u -> o_eq0 O1 x = o_eq0 O2 u.
Proof.
  intros (Hx & ->). change ((compares1 (fv x) 0 =? 0) = fb (fval x) 0%f). rewrite fb_val, zval_0, zval_fval by assumption.
  pose proof (compares1_spec c (fv x) 0 (proj1 (proj2 Hx)) ltac:(unfold int32; lia)) as C. unfold cmp_result in C. lia.
Qed.
Lemma eqb_rel x y u v : R x u -> R y v -> o_eqb O1 x y = o_eqb O2 u v.
Proof. intros (Hx & ->) (Hy & ->). change (fe_eqb x y = fb (fval x) (fval y)). rewrite fb_val, !zval_fval by assumption. apply (fe_pred_claim c p Hp x y Hx Hy). Qed.
Lemma div_val (r x y : F) : y <> 0%f -> (r * y = x)%f -> r = (x / y)%f.
Proof. intros N <-. field. exact N. Qed.
Lemma div_rel x y u v : R x u -> R y v -> orel R (o_div O1 x y) (o_div O2 u v).
Proof.
  intros (Hx & ->) (Hy & ->). change (orel R (fe_div c x y) (if feq_dec (fval y) 0%f then Abort else Ok (fval x / fval y)%f)).
  destruct (feq_dec (fval y) 0%f) as [E|N].
  - apply (f_equal zval) in E. rewrite zval_0, zval_fval in E by assumption. apply (zero_div_claim c p x y Hp Hx Hy E).
  - assert (N' : value (fv y) <> 0). { intros K. apply N. apply zval_inj. rewrite zval_0, zval_fval by assumption. exact K. }
    destruct (prime_div_claim c p x y Hp Pp Hx Hy N') as (r & E & Hr & M). exists r. split; [exact E|]. split; [exact Hr|].
    symmetry. apply div_val; [exact N|]. apply zval_inj. change (zval (fval r * fval y)%f) with ((zval (fval r) * zval (fval y)) mod value p).
    rewrite !zval_fval by assumption. exact M.
Qed.
Lemma inv_rel x u : R x u -> orel R (o_inv O1 x) (o_inv O2 u).
Proof.
  intros (Hx & ->). change (orel R (fe_inv c x) (if feq_dec (fval x) 0%f then Abort else Ok (1 / fval x)%f)).
  destruct (feq_dec (fval x) 0%f) as [E|N].
  - apply (f_equal zval) in E. rewrite zval_0, zval_fval in E by assumption. apply (zero_div_claim c p x x Hp Hx Hx E).
  - assert (N' : value (fv x) <> 0). { intros K. apply N. apply zval_inj. rewrite zval_0, zval_fval by assumption. exact K. }
    destruct (prime_inv_claim c p x Hp Pp Hx N') as (r & E & Hr & M). exists r. split; [exact E|]. split; [exact Hr|].
    symmetry. apply div_val; [exact N|]. apply zval_inj. change (zval (fval r * fval x)%f) with ((zval (fval r) * zval (fval x)) mod value p).
    rewrite !zval_fval, zval_1 by assumption. exact M.
Qed.

(** ** the formulas *)
Variable a b : bigint.
Hypothesis Ha : reduced c p a.
Hypothesis Hb : reduced c p b.
Variables fz0 fm3 : bool.
Definition E1 : coeffs O1 := mkcoeffs O1 a b fz0 fm3.
Definition E2 : coeffs O2 := mkcoeffs O2 (kval a) (kval b) fz0 fm3.
Lemma a_rel : RK a (kval a). Proof. split; [exact Ha|reflexivity]. Qed.
Lemma b_rel : RK b (kval b). Proof. split; [exact Hb|reflexivity]. Qed.
Lemma R2_none : R2 None None. Proof. split; [exact I|reflexivity]. Qed.
Lemma R3_none : R3 None None. Proof. split; [exact I|reflexivity]. Qed.
Lemma R2_some x y u v : R x u -> R y v -> R2 (Some (x, y)) (Some (u, v)).
Proof. intros (A & ->) (B & ->). split; [split; assumption|reflexivity]. Qed.
Lemma R3_some x y z u v w : R x u -> R y v -> R z w -> R3 (Some (x, y, z)) (Some (u, v, w)).
Proof. intros (A & ->) (B & ->) (C & ->). split; [split; [exact A|split; [exact B|exact C]]|reflexivity]. Qed.
Lemma R2_inv P Q : R2 P Q -> (P = None /\ Q = None) \/ exists x y u v, P = Some (x, y) /\ Q = Some (u, v) /\ R x u /\ R y v.
Proof.
  intros (A & ->). destruct P as [[x y]|]; [right|left; auto]. exists x, y, (fval x), (fval y). destruct A as (A & B). split; [reflexivity|]. split; [reflexivity|]. split; split; auto.
Qed.
Lemma R3_inv P Q : R3 P Q -> (P = None /\ Q = None) \/ exists x y z u v w, P = Some (x, y, z) /\ Q = Some (u, v, w) /\ R x u /\ R y v /\ R z w.
Proof.
  intros (A & ->). destruct P as [[[x y] z]|]; [right|left; auto]. exists x, y, z, (fval x), (fval y), (fval z). destruct A as (A & B & D). split; [reflexivity|]. split; [reflexivity|]. split; [|split]; split; auto.
Qed.
Ltac brel := repeat first [reflexivity | apply is_zero_rel | apply is_one_rel | apply eq0_rel | apply eqb_rel | eassumption | apply f_equal | apply f_equal2].
Ltac rel1 :=
  lazymatch goal with
  | |- forall _, _ => intros
  | |- orel _ (bind _ _) (bind _ _) => eapply orel_bind
  | |- orel _ (if _ then _ else _) (if _ then _ else _) => apply orel_if; [solve [brel]| |]
  | |- orel _ (let _ := _ in _) _ => cbv zeta
  | |- orel _ (Ok None) (Ok None) => apply orel_ok; first [apply R2_none | apply R3_none]
  | |- orel _ (Ok (Some (_, _, _))) _ => apply orel_ok, R3_some; first [eassumption | apply lit_rel; lia]
  | |- orel _ (Ok (Some (_, _))) _ => apply orel_ok, R2_some; eassumption
  | |- orel _ (o_add _ _ _) _ => apply add_rel; eassumption
  | |- orel _ (o_sub _ _ _) _ => apply sub_rel; eassumption
  | |- orel _ (o_mul _ _ _) _ => apply mul_rel; eassumption
  | |- orel _ (o_div _ _ _) _ => apply div_rel; eassumption
  | |- orel _ (o_sqr _ _) _ => apply sqr_rel; eassumption
  | |- orel _ (o_neg _ _) _ => apply neg_rel; eassumption
  | |- orel _ (o_inv _ _) _ => apply inv_rel; eassumption
  | |- orel _ (o_addk _ _ (cv_a _ _)) _ => apply addk_rel; [eassumption|exact a_rel]
  | |- orel _ (o_addk _ _ (cv_b _ _)) _ => apply addk_rel; [eassumption|exact b_rel]
  | |- orel _ (o_mulk _ (cv_a _ _) _) _ => apply mulk_rel; [exact a_rel|eassumption]
  | |- orel _ (o_mulk _ (cv_b _ _) _) _ => apply mulk_rel; [exact b_rel|eassumption]
  | |- orel _ (o_muli _ _ _) _ => apply muli_rel; [lia|lia|eassumption]
  | |- orel eq (Ok _) (Ok _) => apply orel_ok; brel
  | |- orel _ (Ok ?x) (Ok ?y) => match goal with H : R x y |- _ => apply (orel_ok R x y H) end
  end.
Ltac rel := repeat rel1.

Lemma aff_id_rel P Q : R2 P Q -> aff_is_identity O1 P = aff_is_identity O2 Q.
Proof. intros H. destruct (R2_inv _ _ H) as [(-> & ->)|(x & y & u & v & -> & -> & Hx & Hy)]; [reflexivity|]. cbn [aff_is_identity]. brel. Qed.
Lemma id3_rel P Q : R3 P Q -> is_identity3 O1 P = is_identity3 O2 Q.
Proof. intros H. destruct (R3_inv _ _ H) as [(-> & ->)|(x & y & z & u & v & w & -> & -> & Hx & Hy & Hz)]; [reflexivity|]. cbn [is_identity3]. brel. Qed.
Lemma aff_on_rel P Q : R2 P Q -> orel eq (aff_is_on_curve O1 E1 P) (aff_is_on_curve O2 E2 Q).
Proof.
  intros H. unfold aff_is_on_curve. apply orel_if; [apply aff_id_rel, H|apply orel_ok; reflexivity|].
  destruct (R2_inv _ _ H) as [(-> & ->)|(x & y & u & v & -> & -> & Hx & Hy)]; [reflexivity|]. rel.
Qed.
Lemma aff_inverted_rel P Q : R2 P Q -> orel R2 (aff_inverted O1 P) (aff_inverted O2 Q).
Proof.
  intros H. unfold aff_inverted. apply orel_if; [apply aff_id_rel, H|apply orel_ok, H|].
  destruct (R2_inv _ _ H) as [(-> & ->)|(x & y & u & v & -> & -> & Hx & Hy)]; [reflexivity|]. rel.
Qed.
Lemma aff_doubled_rel P Q : R2 P Q -> orel R2 (aff_doubled O1 E1 P) (aff_doubled O2 E2 Q).
Proof.
  intros H. pose proof (aff_id_rel _ _ H) as I. unfold aff_doubled.
  destruct (R2_inv _ _ H) as [(-> & ->)|(x & y & u & v & -> & -> & Hx & Hy)]; [apply orel_ok, R2_none|].
  apply orel_if; [rewrite I; brel|apply orel_ok, R2_none|]. rel.
Qed.
Lemma aff_add_rel P Q P' Q' : R2 P Q -> R2 P' Q' -> orel R2 (aff_add O1 E1 P P') (aff_add O2 E2 Q Q').
Proof.
  intros H H'. unfold aff_add. apply orel_if; [apply aff_id_rel, H|apply orel_ok, H'|]. apply orel_if; [apply aff_id_rel, H'|apply orel_ok, H|].
  pose proof (aff_doubled_rel _ _ H) as D.
  destruct (R2_inv _ _ H) as [(-> & ->)|(x & y & u & v & -> & -> & Hx & Hy)]; [reflexivity|].
  destruct (R2_inv _ _ H') as [(-> & ->)|(x' & y' & u' & v' & -> & -> & Hx' & Hy')]; [reflexivity|].
  repeat first [rel1 | exact D].
Qed.
Lemma aff_sub_rel P Q P' Q' : R2 P Q -> R2 P' Q' -> orel R2 (aff_sub O1 E1 P P') (aff_sub O2 E2 Q Q').
Proof. intros H H'. unfold aff_sub. eapply orel_bind; [apply aff_inverted_rel, H'|]. intros. apply aff_add_rel; assumption. Qed.
Lemma aff_eqb_rel P Q P' Q' : R2 P Q -> R2 P' Q' -> aff_eqb O1 P P' = aff_eqb O2 Q Q'.
Proof.
  intros H H'. destruct (R2_inv _ _ H) as [(-> & ->)|(x & y & u & v & -> & -> & Hx & Hy)];
    destruct (R2_inv _ _ H') as [(-> & ->)|(x' & y' & u' & v' & -> & -> & Hx' & Hy')]; cbn [aff_eqb]; brel.
Qed.
Lemma of_affine_rel P Q : R2 P Q -> R3 (of_affine O1 P) (of_affine O2 Q).
Proof.
  intros H. unfold of_affine. rewrite (aff_id_rel _ _ H). destruct (aff_is_identity O2 Q); [apply R3_none|].
  destruct (R2_inv _ _ H) as [(-> & ->)|(x & y & u & v & -> & -> & Hx & Hy)]; [apply R3_none|]. apply R3_some; auto. apply lit_rel. lia.
Qed.
Ltac cases3 H := destruct (R3_inv _ _ H) as [(-> & ->)|(? & ? & ? & ? & ? & ? & -> & -> & ? & ? & ?)].
Lemma inverted3_rel P Q : R3 P Q -> orel R3 (inverted3 O1 P) (inverted3 O2 Q).
Proof. intros H. unfold inverted3. apply orel_if; [apply id3_rel, H|apply orel_ok, H|]. cases3 H; [reflexivity|]. rel. Qed.
Lemma proj_normalize_rel P Q : R3 P Q -> orel R3 (proj_normalize O1 P) (proj_normalize O2 Q).
Proof.
  intros H. pose proof (id3_rel _ _ H) as I. unfold proj_normalize. pose proof H as H0. cases3 H; [apply orel_ok, R3_none|].
  apply orel_if; [rewrite I; brel| |apply orel_ok, H0]. rel.
Qed.
Lemma jac_normalize_rel P Q : R3 P Q -> orel R3 (jac_normalize O1 P) (jac_normalize O2 Q).
Proof.
  intros H. pose proof (id3_rel _ _ H) as I. unfold jac_normalize. pose proof H as H0. cases3 H; [apply orel_ok, R3_none|].
  apply orel_if; [rewrite I; brel| |apply orel_ok, H0]. rel.
Qed.
Lemma proj_to_affine_rel P Q : R3 P Q -> orel R2 (proj_to_affine O1 P) (proj_to_affine O2 Q).
Proof. intros H. unfold proj_to_affine. apply orel_if; [apply id3_rel, H|apply orel_ok, R2_none|]. cases3 H; [reflexivity|]. rel. Qed.
Lemma jac_to_affine_rel P Q : R3 P Q -> orel R2 (jac_to_affine O1 P) (jac_to_affine O2 Q).
Proof. intros H. unfold jac_to_affine. apply orel_if; [apply id3_rel, H|apply orel_ok, R2_none|]. cases3 H; [reflexivity|]. rel. Qed.
Lemma proj_on_rel P Q : R3 P Q -> orel eq (proj_is_on_curve O1 E1 P) (proj_is_on_curve O2 E2 Q).
Proof. intros H. unfold proj_is_on_curve. apply orel_if; [apply id3_rel, H|apply orel_ok; reflexivity|]. cases3 H; [reflexivity|]. rel. Qed.
Lemma jac_on_rel P Q : R3 P Q -> orel eq (jac_is_on_curve O1 E1 P) (jac_is_on_curve O2 E2 Q).
Proof. intros H. unfold jac_is_on_curve. apply orel_if; [apply id3_rel, H|apply orel_ok; reflexivity|]. cases3 H; [reflexivity|]. rel. Qed.
Lemma proj_doubled_rel P Q : R3 P Q -> orel R3 (proj_doubled O1 E1 P) (proj_doubled O2 E2 Q).
Proof.
  intros H. pose proof (id3_rel _ _ H) as I. unfold proj_doubled. cases3 H; [apply orel_ok, R3_none|].
  apply orel_if; [rewrite I; brel|apply orel_ok, R3_none|]. rel.
Qed.
Lemma proj_add_rel P Q P' Q' : R3 P Q -> R3 P' Q' -> orel R3 (proj_add O1 E1 P P') (proj_add O2 E2 Q Q').
Proof.
  intros H H'. unfold proj_add. apply orel_if; [apply id3_rel, H|apply orel_ok, H'|]. apply orel_if; [apply id3_rel, H'|apply orel_ok, H|].
  pose proof (proj_doubled_rel _ _ H) as D. cases3 H; [reflexivity|]. cases3 H'; [reflexivity|]. repeat first [rel1 | exact D].
Qed.
Lemma proj_sub_rel P Q P' Q' : R3 P Q -> R3 P' Q' -> orel R3 (proj_sub O1 E1 P P') (proj_sub O2 E2 Q Q').
Proof. intros H H'. unfold proj_sub. eapply orel_bind; [apply inverted3_rel, H'|]. intros. apply proj_add_rel; assumption. Qed.
Lemma proj_eqb_rel P Q P' Q' : R3 P Q -> R3 P' Q' -> orel eq (proj_eqb O1 P P') (proj_eqb O2 Q Q').
Proof.
  intros H H'. unfold proj_eqb. rewrite (id3_rel _ _ H), (id3_rel _ _ H'). apply orel_if; [reflexivity|apply orel_ok; reflexivity|].
  cases3 H; [reflexivity|]. cases3 H'; [reflexivity|]. rel.
Qed.
(** the Jacobian doubling multiplies by 4 and 8 *)
Hypothesis p8 : 8 < value p.
Lemma jac_doubled_rel P Q : R3 P Q -> orel R3 (jac_doubled O1 E1 P) (jac_doubled O2 E2 Q).
Proof.
  intros H. unfold jac_doubled. apply orel_if; [apply id3_rel, H|apply orel_ok, H|]. cases3 H; [reflexivity|]. apply orel_if; [brel|apply orel_ok, R3_none|]. cbv zeta. rel.
Qed.
Lemma jac_addex_rel P Q z z' u1 u2 s1 s2 w w' v1 v2 t1 t2 : R3 P Q -> R z w -> R z' w' -> R u1 v1 -> R u2 v2 -> R s1 t1 -> R s2 t2 ->
  orel R3 (jac_addex O1 E1 P z z' u1 u2 s1 s2) (jac_addex O2 E2 Q w w' v1 v2 t1 t2).
Proof. intros H. intros. unfold jac_addex. pose proof (jac_doubled_rel _ _ H) as D. repeat first [rel1 | exact D]. Qed.
Lemma jac_add_rel P Q P' Q' : R3 P Q -> R3 P' Q' -> orel R3 (jac_add O1 E1 P P') (jac_add O2 E2 Q Q').
Proof.
  intros H H'. unfold jac_add. apply orel_if; [apply id3_rel, H|apply orel_ok, H'|]. apply orel_if; [apply id3_rel, H'|apply orel_ok, H|].
  pose proof H as H0. pose proof H' as H0'. cases3 H; [reflexivity|]. cases3 H'; [reflexivity|]. cbn [fst snd]. cbv zeta.
  unfold jac_add_z_1, jac_add_z2_1, jac_add_ne.
  repeat first [rel1 | apply jac_addex_rel; eassumption].
Qed.
Lemma jac_sub_rel P Q P' Q' : R3 P Q -> R3 P' Q' -> orel R3 (jac_sub O1 E1 P P') (jac_sub O2 E2 Q Q').
Proof. intros H H'. unfold jac_sub. eapply orel_bind; [apply inverted3_rel, H'|]. intros. apply jac_add_rel; assumption. Qed.
Lemma jac_eqb_rel P Q P' Q' : R3 P Q -> R3 P' Q' -> orel eq (jac_eqb O1 P P') (jac_eqb O2 Q Q').
Proof.
  intros H H'. unfold jac_eqb. rewrite (id3_rel _ _ H), (id3_rel _ _ H'). apply orel_if; [reflexivity|apply orel_ok; reflexivity|].
  cases3 H; [reflexivity|]. cases3 H'; [reflexivity|]. rel.
Qed.
End TR.
