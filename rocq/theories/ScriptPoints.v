(** The points of scripts/ec.py: addition and multiplication against the group of EcGroup.v. *)
From Coq Require Import List ZArith Znumtheory Bool Lia Field.
From Verif Require Import EcGroup EcGroupProofs EcSpec EcScalar ZpField EcdsaSpec ScriptModel ScriptSpec ScriptProofs.
Import ListNotations.
Open Scope Z_scope.

Section POINTS.
Variable cv : pycurve.
Notation p := (py_p cv).
Hypothesis Pp : prime p.
Notation F := (Zp p Pp).
Notation mk x := (zmk p Pp x : fT F).
Notation A := (sa cv Pp).
Notation Bc := (sb cv Pp).
Notation pt := (spt Pp).
Notation on := (son cv Pp).
Let P1 : 1 < p. Proof. pose proof (prime_ge_2 _ Pp). lia. Qed.
Add Field FldS : (f_theory F).

Lemma on_dec P : { on P } + { ~ on P }.
Proof. destruct P as [[x y]|]; [|left; exact I]. unfold son, spt, on_curve. apply feq_dec. Qed.
Lemma on_curve_ok P : exists b, py_on_curve P cv = Ret b /\ (b = true <-> on P).
Proof.
  destruct P as [[x y]|]; cbn [py_on_curve]; [|exists true; split; [reflexivity|split; intros; [exact I|reflexivity]]].
  rewrite pymod_ok by lia. cbn [pbind]. eexists. split; [reflexivity|]. rewrite Z.eqb_eq, <- (mk_zero p Pp). unfold son, spt, on_curve.
  rewrite !mk_sub, !mk_mul. fold (sa cv Pp) (sb cv Pp). split; intros H.
  - apply (sub_0 F). rewrite <- H. ring.
  - replace (mk y * mk y)%f with (mk x * mk x * mk x + A * mk x + Bc)%f by (symmetry; exact H). change (zp p) with (fT F) in *. ring.
Qed.
Lemma assert_ok P : on P -> assert_on P cv = Ret tt.
Proof. intros H. unfold assert_on. destruct (on_curve_ok P) as (b & -> & E). cbn [pbind]. rewrite (proj2 E H). reflexivity. Qed.
Lemma assert_bad P : ~ on P -> assert_on P cv = Raise AssertionError.
Proof. intros H. unfold assert_on. destruct (on_curve_ok P) as (b & -> & E). cbn [pbind]. destruct b; [exfalso; apply H, E; reflexivity|reflexivity]. Qed.

Lemma neg_ok P : on P -> exists R, ec_neg P cv = Ret R /\ pt R = popp (pt P) /\ on R /\ (tidy p P -> tidy p R).
Proof.
  intros H. unfold ec_neg. rewrite assert_ok by exact H. cbn [pbind]. destruct P as [[x y]|]; [|exists None; auto].
  rewrite pymod_ok by lia. cbn [pbind].
  assert (E : pt (Some (x, (p - y) mod p)) = popp (pt (Some (x, y)))).
  { cbn [spt popp]. f_equal. rewrite mk_mod, mk_sub, mk_p. change (zp p) with (fT F). ring. }
  assert (O : on (Some (x, (p - y) mod p))) by (unfold son; rewrite E; apply popp_curve; exact H).
  rewrite assert_ok by exact O. eexists. split; [reflexivity|]. split; [exact E|]. split; [exact O|]. cbn [tidy]. pose proof (Z.mod_pos_bound (p - y) p ltac:(lia)). lia.
Qed.
Lemma neg_bad P : ~ on P -> ec_neg P cv = Raise AssertionError.
Proof. intros H. unfold ec_neg. rewrite assert_bad by exact H. reflexivity. Qed.

Hypothesis P2 : 2 < p.
Hypothesis Hdisc : disc A Bc <> 0%f.
Lemma s_two : (1 + 1)%f <> (0%f : F).
Proof. intros H. apply (f_equal (@zval p)) in H. change ((1 mod p + 1 mod p) mod p = 0 mod p) in H. rewrite !Z.mod_1_l, Z.mod_0_l, Z.mod_small in H by lia. discriminate. Qed.
Notation two_ne := s_two.

Lemma inv_field k i : (k * i) mod p = 1 -> (mk k * mk i = 1 :> F)%f.
Proof. intros H. change (@fmul F (mk k) (mk i) = 1%f). rewrite <- mk_mul. apply zmk_eq. rewrite H, Z.mod_1_l by lia. reflexivity. Qed.
(** the sum of two points of the curve with coordinates in [0, p) *)
Definition doubles_two (P Q : pypoint) : Prop := exists x, P = Some (x, 0) /\ Q = Some (x, 0).
Lemma third_ok (l : Z) x1 y1 x2 : let x3 := (l * l - x1 - x2) mod p in let y3 := (y1 + l * (x3 - x1)) mod p in
  Aff (mk (x3 mod p)) (mk ((- y3) mod p)) = third (mk l : F) (mk x1) (mk y1) (mk x2).
Proof.
  cbn zeta. unfold third. repeat (rewrite ?mk_mod, ?mk_opp, ?mk_add, ?mk_mul, ?mk_sub). f_equal. change (zp p) with (fT F). ring.
Qed.
Lemma add_ok P Q : tidy p P -> tidy p Q -> on P -> on Q ->
  (exists R, ec_add P Q cv = Ret R /\ tidy p R /\ pt R = padd A (pt P) (pt Q)) /\ ~ doubles_two P Q \/
  ec_add P Q cv = Raise ZeroDivisionError /\ doubles_two P Q.
Proof.
  intros TP TQ HP HQ. unfold ec_add. rewrite !assert_ok by assumption. cbn [pbind].
  destruct P as [[x1 y1]|]; [|left; split; [exists Q; auto|intros (x & E & _); discriminate]].
  destruct Q as [[x2 y2]|]; [|left; split; [exists (Some (x1, y1)); split; [reflexivity|]; split; [exact TP|]; symmetry; apply padd_0_r|intros (x & _ & E); discriminate]].
  destruct TP as (Tx1 & Ty1), TQ as (Tx2 & Ty2).
  assert (FIN : forall l : Z, padd A (pt (Some (x1, y1))) (pt (Some (x2, y2))) = third (mk l : F) (mk x1) (mk y1) (mk x2) ->
    exists R, (let! x3 := pymod (l * l - x1 - x2) p in let! y3 := pymod (y1 + l * (x3 - x1)) p in let! x4 := pymod x3 p in let! y4 := pymod (- y3) p in
      let R := Some (x4, y4) in let! _ := assert_on R cv in Ret R) = Ret R /\ tidy p R /\ pt R = padd A (pt (Some (x1, y1))) (pt (Some (x2, y2)))).
  { intros l E. repeat (rewrite pymod_ok by lia; cbn [pbind]). cbn zeta.
    set (R := Some _ : pypoint). assert (ER : pt R = padd A (pt (Some (x1, y1))) (pt (Some (x2, y2)))) by (rewrite E, <- third_ok; reflexivity).
    assert (O : on R) by (unfold son; rewrite ER; apply padd_curve; [exact two_ne|exact HP|exact HQ]).
    rewrite assert_ok by exact O. exists R. split; [reflexivity|]. split; [|exact ER]. cbn [tidy R]. split; apply Z.mod_pos_bound; lia. }
  destruct (Z.eqb_spec x1 x2) as [<-|Nx].
  - destruct (Z.eqb_spec y1 y2) as [<-|Ny]; cbn [andb negb].
    + destruct (Z.eq_dec y1 0) as [->|N0].
      * right. rewrite inverse_mod_zero. split; [reflexivity|]. exists x1. auto.
      * left. split; [|intros (x & E & _); injection E as <- E; lia].
        assert (Y0 : mk y1 <> (0%f : F)) by (intros E; apply mk_zero in E; rewrite Z.mod_small in E by lia; lia).
        assert (ND : (2 * y1) mod p <> 0).
        { intros E. apply (mk_zero p Pp) in E. rewrite mk_mul, mk_2 in E. apply (mul_integral F) in E as [E|E]; [exact (two_ne E)|exact (Y0 E)]. }
        destruct (inverse_mod_prime (2 * y1) p Pp ND) as (i & -> & Ri & Ei). cbn [pbind]. rewrite pymod_ok by lia. cbn [pbind]. apply FIN.
        cbn [spt]. rewrite padd_tangent by (first [exact two_ne|exact Y0]). f_equal. rewrite mk_mod, mk_mul, mk_add, !mk_mul, mk_3. fold (sa cv Pp).
        apply inv_field in Ei. rewrite mk_mul, mk_2 in Ei. change (zp p) with (fT F) in *.
        pose proof (dbl_ne F two_ne _ Y0) as D0. transitivity ((3 * (mk x1 * mk x1) + A) / (2 * mk y1) * (2 * mk y1 * mk i))%f; [rewrite Ei; ring|]. field. split; [exact Y0|exact two_ne].
    + left. split; [|intros (x & E & E'); injection E as -> ->; injection E' as E'; lia]. exists None. split; [reflexivity|]. split; [exact I|].
      cbn [spt]. symmetry. cbn [padd].
      destruct (same_x F A Bc (mk x1) (mk y1) (mk y2) HP HQ) as [E|E].
      * exfalso. apply Ny. apply (mk_inj p Pp); assumption.
      * destruct (feq_dec _ _) as [_|n]; [|congruence]. destruct (feq_dec _ _) as [_|n]; [reflexivity|]. exfalso. exact (n E).
  - left. split; [|intros (x & E & E'); injection E as -> ->; injection E' as E' _; lia]. cbn [andb].
    assert (X0 : mk x1 <> mk x2) by (intros E; apply Nx; apply (mk_inj p Pp); assumption).
    assert (ND : (x1 - x2) mod p <> 0).
    { intros E. apply (mk_zero p Pp) in E. rewrite mk_sub in E. apply (sub_0 F) in E. exact (X0 E). }
    destruct (inverse_mod_prime (x1 - x2) p Pp ND) as (i & -> & Ri & Ei). cbn [pbind]. rewrite pymod_ok by lia. cbn [pbind]. apply FIN.
    cbn [spt]. rewrite padd_chord by exact X0. f_equal. rewrite mk_mod, mk_mul, !mk_sub. apply inv_field in Ei. rewrite mk_sub in Ei. change (zp p) with (fT F) in *.
    assert (D0 : (mk x2 - mk x1)%f <> (0%f : F)) by (apply sub_ne; congruence).
    transitivity ((mk y2 - mk y1) / (mk x2 - mk x1) * ((mk x1 - mk x2) * mk i))%f; [rewrite Ei; ring|]. field. exact D0.
Qed.
Lemma add_bad P Q : ~ (on P /\ on Q) -> ec_add P Q cv = Raise AssertionError.
Proof.
  intros H. unfold ec_add. destruct (on_dec P) as [a|n]; [|rewrite assert_bad by exact n; reflexivity].
  rewrite assert_ok by exact a. cbn [pbind]. rewrite assert_bad by tauto. reflexivity.
Qed.
End POINTS.
(** for every curve object with a modulus that is not zero *)
Lemma add_steps cv P Q : py_p cv <> 0 -> ec_add_steps P Q cv = ec_add P Q cv.
Proof.
  intros N0. set (p := py_p cv) in *. unfold ec_add_steps, ec_add. fold p. destruct (assert_on P cv) as [[]|e|]; [|reflexivity|reflexivity]. cbn [pbind]. destruct (assert_on Q cv) as [[]|e|]; [|reflexivity|reflexivity]. cbn [pbind].
  destruct P as [[x1 y1]|]; [|reflexivity]. destruct Q as [[x2 y2]|]; [|reflexivity]. destruct (_ && _); [reflexivity|].
  match goal with |- pbind ?m _ = pbind _ _ => destruct m as [m'|e|] end; [|reflexivity|reflexivity]. cbn [pbind].
  repeat (rewrite pymod_ok by exact N0; cbn [pbind]). cbn zeta.
  assert (E : ((m' * m') mod p - x1) mod p = (m' * m' - x1) mod p) by apply Zminus_mod_idemp_l. rewrite E.
  rewrite Zminus_mod_idemp_l. set (x3 := (m' * m' - x1 - x2) mod p). replace (x3 mod p) with x3 by (unfold x3; rewrite Z.mod_mod by exact N0; reflexivity). rewrite Zplus_mod_idemp_r. reflexivity.
Qed.
