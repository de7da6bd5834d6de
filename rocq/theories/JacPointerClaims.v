(** Proofs for C69. *)
From Coq Require Import List ZArith Bool Lia.
From Verif Require Import Outcome LoopModel WordsModel WordsSpec WordsProofs BigintModel BigintSpec BigintProofs BigintClaims NumModel NumProofs FpModel FieldOpModel EcModel EcCurveModel EcdsaModel EcdsaProofs PointerModel PointerSpec PointerClaims JacPointerModel JacPointerSpec.
Import ListNotations.
Open Scope Z_scope.

(** ** loops over points that correspond *)
Section LOOPS.
Context {P Q : Type}.
Variable R : P -> Q -> Prop.
Variable add : P -> P -> outcome P.
Variable add' : Q -> Q -> outcome Q.
Variable dbl : P -> outcome P.
Variable dbl' : Q -> outcome Q.
Hypothesis Hadd : forall u v u' v', R u u' -> R v v' -> agree R (add u v) (add' u' v').
Hypothesis Hdbl : forall u u', R u u' -> agree R (dbl u) (dbl' u').
Let rst (a : bigint * P * P) (b : bigint * Q * Q) : Prop := fst (fst a) = fst (fst b) /\ R (snd (fst a)) (snd (fst b)) /\ R (snd a) (snd b).
Let rres (x : loopres (bigint * P * P) (outcome P)) (y : loopres (bigint * Q * Q) (outcome Q)) : Prop :=
  match x, y with Next a, Next b => rst a b | Done a, Done b => agree R a b | _, _ => False end.
Lemma ladder_step_agree a b : rst a b -> rres (ladder_step add dbl a) (ladder_step add' dbl' b).
Proof.
  destruct a as [[s r] t], b as [[s' r'] t']. intros (Es & Hr & Ht). cbn [fst snd] in *. subst s'. unfold ladder_step. destruct (compares1 s 0 =? 0); [exact Hr|].
  match goal with |- rres (match ?f with _ => _ end) (match ?g with _ => _ end) => assert (A : agree (fun a b => R (fst a) (fst b) /\ R (snd a) (snd b)) f g) end.
  { eapply agree_bind with (R := R); [destruct (is_odd s); [apply Hadd; assumption|exact Hr]|]. intros r1 r1' Hr1. eapply agree_bind with (R := R); [apply Hdbl, Ht|]. intros t1 t1' Ht1. cbn. auto. }
  match goal with |- rres (match ?f with _ => _ end) (match ?g with _ => _ end) => destruct f as [[x y]| | |], g as [[x' y']| | |] end; cbn in A; try contradiction; cbn; auto. split; [reflexivity|exact A].
Qed.
Lemma ladder_loop_agree n a b : rst a b -> rres (loop2 n (ladder_step add dbl) a) (loop2 n (ladder_step add' dbl') b).
Proof.
  revert a b. induction n as [|n IH]; intros a b H; cbn [loop2]; [apply ladder_step_agree, H|]. specialize (IH a b H) as I1. match type of I1 with rres ?f ?g => destruct f as [a'|r], g as [b'|r'] end; cbn in I1; try contradiction; [apply IH, I1|exact I1].
Qed.
Lemma ladder_agree n s u v u' v' : R u u' -> R v v' -> agree R (run_loop n (ladder_step add dbl) (s, u, v)) (run_loop n (ladder_step add' dbl') (s, u', v')).
Proof.
  intros H1 H2. unfold run_loop. pose proof (ladder_loop_agree n (s, u, v) (s, u', v') (conj eq_refl (conj H1 H2))) as L.
  match goal with |- agree _ (match ?f with _ => _ end) (match ?g with _ => _ end) => change (rres f g) in L; destruct f, g end; cbn in L; try contradiction; [exact I|exact L].
Qed.
Lemma naf_agree l u n u' n' : R u u' -> R n n' -> forall r r', R r r' -> agree R (naf_loop add dbl u n l r) (naf_loop add' dbl' u' n' l r').
Proof.
  intros Hu Hn. induction l as [|d l IH]; intros r r' Hr; cbn [naf_loop]; [exact Hr|]. eapply agree_bind; [apply Hdbl, Hr|]. intros r1 r1' H1.
  eapply agree_bind with (R := R); [destruct (0 <? d); [apply Hadd; assumption|destruct (d <? 0); [apply Hadd; assumption|exact H1]]|]. intros r2 r2' H2. apply IH, H2.
Qed.
Variable inv : P -> outcome P.
Variable inv' : Q -> outcome Q.
Hypothesis Hinv : forall u u', R u u' -> agree R (inv u) (inv' u').
Lemma shamir_agree p q a b d e f g p' q' a' b' d' e' f' g' : R p p' -> R q q' -> R a a' -> R b b' -> R d d' -> R e e' -> R f f' -> R g g' ->
  forall la lb r r', R r r' -> agree R (shamir_loop add dbl p q a b d e f g la lb r) (shamir_loop add' dbl' p' q' a' b' d' e' f' g' la lb r').
Proof.
  intros. revert lb r r' H7. induction la as [|x la IH]; intros [|y lb] r r' Hr; cbn [shamir_loop]; try exact Hr. eapply agree_bind; [apply Hdbl, Hr|]. intros r1 r1' H1'.
  eapply agree_bind with (R := R); [|intros r2 r2' H2'; apply IH, H2']. destruct (x =? 0); [|destruct (x <? 0)]; (destruct (y =? 0); [|destruct (y <? 0)]); first [exact H1'|apply Hadd; assumption].
Qed.
Lemma mul_add_agree c i i' a p b q p' q' : R i i' -> R p p' -> R q q' -> agree R (mul_add_fast i inv add dbl c a p b q) (mul_add_fast i' inv' add' dbl' c a p' b q').
Proof.
  intros Hi Hp Hq. unfold mul_add_fast. destruct (to_rnaf c a) as [la| | |]; try exact I. cbn [bind]. destruct (to_rnaf c b) as [lb| | |]; try exact I. cbn [bind].
  repeat (eapply agree_bind; [first [apply Hinv; eassumption|apply Hadd; eassumption]|intros]). apply shamir_agree; assumption.
Qed.
End LOOPS.

Section OP.
Variable c : cap.
Variable h : heap.
Notation re := (re h).
Lemma weak x o1 o2 : agree (fun r w => re r w /\ om r = om x) o1 o2 -> agree re o1 o2.
Proof. intros H. eapply agree_mono; [exact H|]. intros u v (K & _). exact K. Qed.
Lemma mulk_re a x v : re x v -> agree re (fo_mulk c h a x) (big_times_fe c a v).
Proof.
  intros H. apply (weak x). unfold fo_mulk, big_times_fe, fo_mul_big, fe_mul_big. rewrite (fv_re _ _ _ H). destruct (is_one (ov x)); [apply with_re, H|]. destruct (is_one a); [split; [exact H|reflexivity]|]. apply with_re, H.
Qed.
Lemma sub_big_re x v y : re x v -> agree re (fo_sub_big c h x y) (fe_sub_big c v y).
Proof. intros H. apply (weak x). unfold fo_sub_big, fe_sub_big. rewrite (fv_re _ _ _ H). apply with_re, H. Qed.
Lemma one_re x v : re x v -> fo_is_one x = fe_is_one v.
Proof. intros H. unfold fo_is_one, fe_is_one. rewrite (fv_re _ _ _ H). reflexivity. Qed.
Lemma eq0_re x v : re x v -> fo_eq0 x = (compares1 (fv v) 0 =? 0).
Proof. intros H. unfold fo_eq0. rewrite (fv_re _ _ _ H). reflexivity. Qed.
Lemma eqb_re x v y w : re x v -> re y w -> fo_eqb x y = fe_eqb v w.
Proof. intros H K. unfold fo_eqb, fe_eqb. rewrite (fv_re _ _ _ H), (fv_re _ _ _ K). reflexivity. Qed.

Variable k : cobj.
Variable S : nat -> Prop.
Hypothesis HS : alike3 h k S.
Lemma alike3_alike : alike h k S.
Proof. intros i Si. destruct (HS i Si) as (k' & A & B & C & D & E & _). exists k'. auto. Qed.
Variable p0 : bigint.
Hypothesis Ep : p0 = k_p k.
Variable E : coeffs (fe_ops c p0).
Hypothesis Ea : cv_a _ E = k_a k.
Hypothesis Eb : cv_b _ E = k_b k.
Hypothesis Ez : cv_a_is_zero _ E = k_z k.
Hypothesis Em : cv_a_is_minus_3 _ E = k_m3 k.
Notation O := (fe_ops c p0).
Definition rt (P : tobj) (Q : option (fe * fe * fe)) : Prop := point3_of h S P /\ look3 h P = Q.
Lemma rt_inv P Q : rt P Q -> (tc P = None /\ Q = None) \/ exists i u v w, tc P = Some i /\ S i /\ Q = Some (u, v, w) /\ re (tx P) u /\ re (ty P) v /\ re (tz P) w.
Proof.
  intros ((Lx & Ly & Lz & Hi) & <-). unfold look3. destruct (tc P) as [i|] eqn:D; [right|left; auto]. exists i, (look h (tx P)), (look h (ty P)), (look h (tz P)). split; [reflexivity|]. split; [apply Hi; reflexivity|]. split; [reflexivity|]. split; [|split]; apply re_look; assumption.
Qed.
Lemma rt_default : rt (to_default c) None.
Proof. split; [|reflexivity]. split; [intros q H; discriminate|]. split; [intros q H; discriminate|]. split; [intros q H; discriminate|intros i H; discriminate]. Qed.
Lemma rt_mk i x y z u v w : S i -> re x u -> re y v -> re z w -> rt (mkto (Some i) x y z) (Some (u, v, w)).
Proof.
  intros Si (Lx & Ex) (Ly & Ey) (Lz & Ew). split; [|unfold look3; cbn [tc tx ty tz]; rewrite Ex, Ey, Ew; reflexivity].
  split; [exact Lx|]. split; [exact Ly|]. split; [exact Lz|]. intros j H. cbn [tc] in H. injection H as <-. exact Si.
Qed.
Lemma rt_make P i x y z u v w : tc P = Some i -> S i -> re x u -> re y v -> re z w -> agree rt (same_tcurve P x y z) (Ok (Some (u, v, w))).
Proof. intros D Si Hx Hy Hz. unfold same_tcurve. rewrite D. cbn [check bind agree]. apply rt_mk; assumption. Qed.
Lemma rt_affine P i x y u v : tc P = Some i -> S i -> re x u -> re y v -> agree (rp h S) (to_affine_curve P x y) (Ok (Some (u, v))).
Proof.
  intros D Si (Lx & Ex) (Ly & Ey). unfold to_affine_curve. rewrite D. cbn [check bind agree]. split; [|unfold look_point; cbn [oc ox oy]; rewrite Ex, Ey; reflexivity].
  split; [exact Lx|]. split; [exact Ly|]. intros j H. cbn [oc] in H. injection H as <-. exact Si.
Qed.
Lemma tcurve_rt P i : tc P = Some i -> S i -> exists k', tcurve h P = Ok k' /\ k_a k' = k_a k /\ k_b k' = k_b k /\ k_n k' = k_n k /\ k_m3 k' = k_m3 k /\ k_z k' = k_z k.
Proof. intros D Si. unfold tcurve. rewrite D. destruct (HS i Si) as (k' & -> & _ & A & B & N & M & Z). exists k'. auto 8. Qed.
Lemma lit_re i z : S i -> re (mkfo (of_int c z) (Some (PCurve i))) (o_lit O z).
Proof.
  intros Si. destruct (HS i Si) as (k' & D & P & _). split; [intros q H; cbn in H; injection H as <-; cbn; rewrite D; discriminate|]. unfold look. cbn [om ov deref]. rewrite D. cbn [option_map o_lit fe_ops]. rewrite P, Ep. reflexivity.
Qed.
Lemma id_rt P Q : rt P Q -> to_is_identity h P = Ok (is_identity3 O Q).
Proof.
  intros H. unfold to_is_identity. destruct (rt_inv _ _ H) as [(-> & ->)|(i & u & v & w & -> & Si & -> & Hx & Hy & Hz)]; [reflexivity|]. rewrite (is_zero_re _ _ _ Hz). reflexivity.
Qed.
Ltac go1 :=
  lazymatch goal with
  | |- forall _, _ => intros
  | |- agree _ (bind _ _) (bind _ _) => eapply (agree_bind re)
  | |- agree _ (fo_sub _ _ _ _) _ => eapply weak, sub_re; eassumption
  | |- agree _ (fo_add_big _ _ _ _) _ => eapply weak, add_big_re; eassumption
  | |- agree _ (fo_add _ _ _ _) _ => eapply weak, add_re; eassumption
  | |- agree _ (fo_mul _ _ _ _) _ => eapply weak, mul_re; eassumption
  | |- agree _ (fo_div _ _ _ _) _ => eapply weak, div_re; eassumption
  | |- agree _ (fo_sqr _ _ _) _ => eapply weak, sqr_re; eassumption
  | |- agree _ (fo_sqrt _ _ _) _ => eapply weak, sqrt_re; eassumption
  | |- agree _ (fo_inv _ _ _) _ => eapply weak, inv_re; eassumption
  | |- agree _ (fo_neg _ _ _) _ => eapply weak, neg_re; eassumption
  | |- agree _ (fo_mul_int _ _ _ _) _ => eapply weak, mul_int_re; eassumption
  | |- agree _ (fo_mulk _ _ _ _) _ => eapply mulk_re; eassumption
  | |- agree _ (fo_sub_big _ _ _ _) _ => eapply sub_big_re; eassumption
  | |- agree _ (same_tcurve _ _ _ _) _ => eapply rt_make; eassumption
  | |- agree _ (to_affine_curve _ _ _) _ => eapply rt_affine; eassumption
  | |- agree _ (if ?b then _ else _) (if ?b then _ else _) => destruct b
  | |- agree re (Ok _) (Ok _) => eassumption
  | H : PointerClaims.re h ?x ?v |- agree eq (Ok (fo_eq0 ?x)) _ => rewrite (eq0_re _ _ H); reflexivity
  | H : PointerClaims.re h ?x ?v, K : PointerClaims.re h ?y ?w |- agree eq (Ok (fo_eqb ?x ?y)) _ => rewrite (eqb_re _ _ _ _ H K); reflexivity
  end.
Ltac ops := cbn [o_add o_sub o_mul o_div o_sqr o_neg o_inv o_addk o_mulk o_muli o_is_zero o_is_one o_eq0 o_eqb fe_ops].
(** the case of a point with coordinates *)
Ltac coords H i u v w D Si Hx Hy Hz := destruct (rt_inv _ _ H) as [(D & ->)|(i & u & v & w & D & Si & -> & Hx & Hy & Hz)].

Lemma of_affine_rt P Q : rp h S P Q -> agree rt (to_of_affine c h P) (Ok (of_affine O Q)).
Proof.
  intros H. unfold to_of_affine. rewrite (id_rp c h S p0 _ _ H). cbn [bind]. unfold of_affine. destruct (aff_is_identity O Q) eqn:Id; [apply rt_default|].
  destruct (rp_inv _ _ _ _ H) as [(_ & ->)|(i & u & v & D & Si & -> & Hx & Hy)]; [discriminate|]. rewrite D. cbn [agree]. apply rt_mk; try assumption. apply lit_re, Si.
Qed.
Lemma inverted_rt P Q : rt P Q -> agree rt (to_inverted c h P) (inverted3 O Q).
Proof.
  intros H. unfold to_inverted. rewrite (id_rt _ _ H). cbn [bind]. unfold inverted3. destruct (is_identity3 O Q) eqn:Id; [exact H|]. coords H i u v w D Si Hx Hy Hz; [discriminate|]. ops. repeat go1.
Qed.
Lemma ho_to_affine_rt P Q : rt P Q -> agree (rp h S) (ho_to_affine c h P) (proj_to_affine O Q).
Proof.
  intros H. unfold ho_to_affine. rewrite (id_rt _ _ H). cbn [bind]. unfold proj_to_affine. destruct (is_identity3 O Q) eqn:Id; [apply rp_default|]. coords H i u v w D Si Hx Hy Hz; [discriminate|]. ops. rewrite (one_re _ _ Hz). repeat go1.
Qed.
Lemma jo_to_affine_rt P Q : rt P Q -> agree (rp h S) (jo_to_affine c h P) (jac_to_affine O Q).
Proof.
  intros H. unfold jo_to_affine. rewrite (id_rt _ _ H). cbn [bind]. unfold jac_to_affine. destruct (is_identity3 O Q) eqn:Id; [apply rp_default|]. coords H i u v w D Si Hx Hy Hz; [discriminate|]. ops. rewrite (one_re _ _ Hz). repeat go1.
Qed.
Lemma ho_on_rt P Q : rt P Q -> agree eq (ho_is_on_curve c h P) (proj_is_on_curve O E Q).
Proof.
  intros H. unfold ho_is_on_curve. rewrite (id_rt _ _ H). cbn [bind]. unfold proj_is_on_curve. destruct (is_identity3 O Q) eqn:Id; [reflexivity|]. coords H i u v w D Si Hx Hy Hz; [discriminate|].
  destruct (tcurve_rt P i D Si) as (k' & Ck & A & B & _). ops. rewrite Ea, Eb, Ck. cbn [bind]. rewrite A, B. repeat go1.
Qed.
Lemma jo_on_rt P Q : rt P Q -> agree eq (jo_is_on_curve c h P) (jac_is_on_curve O E Q).
Proof.
  intros H. unfold jo_is_on_curve. rewrite (id_rt _ _ H). cbn [bind]. unfold jac_is_on_curve. destruct (is_identity3 O Q) eqn:Id; [reflexivity|]. coords H i u v w D Si Hx Hy Hz; [discriminate|].
  destruct (tcurve_rt P i D Si) as (k' & Ck & A & B & _). ops. rewrite Ea, Eb, Ck. cbn [bind]. rewrite A, B. repeat go1.
Qed.
Lemma ho_doubled_rt P Q : rt P Q -> agree rt (ho_doubled c h P) (proj_doubled O E Q).
Proof.
  intros H. unfold ho_doubled. rewrite (id_rt _ _ H). cbn [bind]. unfold proj_doubled. coords H i u v w D Si Hx Hy Hz; [apply rt_default|]. ops. rewrite (eq0_re _ _ Hy). destruct (is_identity3 O (Some (u, v, w)) || (compares1 (fv v) 0 =? 0)); [apply rt_default|].
  destruct (tcurve_rt P i D Si) as (k' & Ck & A & B & _ & M & Z). rewrite Ea, Ez, Em, Ck. cbn [bind]. rewrite A, M, Z. repeat go1.
Qed.
Lemma jo_doubled_rt P Q : rt P Q -> agree rt (jo_doubled c h P) (jac_doubled O E Q).
Proof.
  intros H. unfold jo_doubled. rewrite (id_rt _ _ H). cbn [bind]. unfold jac_doubled. destruct (is_identity3 O Q) eqn:Id; [exact H|]. coords H i u v w D Si Hx Hy Hz; [discriminate|]. ops. rewrite (eq0_re _ _ Hy). destruct (compares1 (fv v) 0 =? 0); [apply rt_default|].
  destruct (tcurve_rt P i D Si) as (k' & Ck & A & B & _ & M & Z). rewrite Ea, Ez, Em, Ck. cbn [bind]. rewrite A, M, Z, (one_re _ _ Hz). repeat go1.
Qed.
Lemma ho_add_rt P P' Q Q' : rt P Q -> rt P' Q' -> agree rt (ho_add c h P P') (proj_add O E Q Q').
Proof.
  intros H H'. unfold ho_add. rewrite (id_rt _ _ H). cbn [bind]. unfold proj_add. destruct (is_identity3 O Q) eqn:Id; [exact H'|]. rewrite (id_rt _ _ H'). cbn [bind]. destruct (is_identity3 O Q') eqn:Id'; [exact H|]. pose proof (ho_doubled_rt _ _ H) as DB.
  coords H i u v w D Si Hx Hy Hz; [discriminate|]. coords H' i' u' v' w' D' Si' Hx' Hy' Hz'; [discriminate|]. ops. do 4 (eapply (agree_bind re); [go1|intros ? ? ?]).
  match goal with A : PointerClaims.re h ?t0 ?t0', A1 : PointerClaims.re h ?t1 ?t1', A2 : PointerClaims.re h ?u0 ?u0', A3 : PointerClaims.re h ?u1 ?u1' |- agree _ (if fo_eqb ?u0 ?u1 then if fo_eqb ?t0 ?t1 then _ else _ else _) _ => rewrite (eqb_re _ _ _ _ A2 A3), (eqb_re _ _ _ _ A A1) end.
  destruct (fe_eqb _ _); [destruct (fe_eqb _ _); [exact DB|apply rt_default]|]. repeat go1.
Qed.
Lemma jo_addex_rt P P' Q i i' u v w u' v' w' a b d e a' b' d' e' :
  rt P Q -> tc P = Some i -> tc P' = Some i' -> S i -> Q = Some (u, v, w) -> re (tz P) w -> re (tz P') w' -> re a a' -> re b b' -> re d d' -> re e e' -> (u', v') = (u, v) ->
  agree rt (jo_addex c h P P' a b d e) (jac_addex O E Q w w' a' b' d' e').
Proof.
  intros H D D' Si EQ Hz Hz' Ha Hb Hd He _. pose proof (jo_doubled_rt _ _ H) as DB. unfold jo_addex, jac_addex. ops. do 2 (eapply (agree_bind re); [go1|intros ? ? ?]).
  match goal with |- agree _ (bind (fo_is_zero h ?x) _) _ => match goal with A : PointerClaims.re h x ?y |- _ => rewrite (is_zero_re _ _ _ A) end end. cbn [bind].
  match goal with |- agree _ (if ?b then _ else _) (if ?b then _ else _) => destruct b end.
  - match goal with |- agree _ (bind (fo_is_zero h ?x) _) _ => match goal with A : PointerClaims.re h x ?y |- _ => rewrite (is_zero_re _ _ _ A) end end. cbn [bind].
    match goal with |- agree _ (if ?b then _ else _) (if ?b then _ else _) => destruct b end; [exact DB|apply rt_default].
  - rewrite (one_re _ _ Hz), (one_re _ _ Hz'). repeat go1.
Qed.
Lemma jo_add_rt P P' Q Q' : rt P Q -> rt P' Q' -> agree rt (jo_add c h P P') (jac_add O E Q Q').
Proof.
  intros H H'. unfold jo_add. rewrite (id_rt _ _ H). cbn [bind]. unfold jac_add. destruct (is_identity3 O Q) eqn:Id; [exact H'|]. rewrite (id_rt _ _ H'). cbn [bind]. destruct (is_identity3 O Q') eqn:Id'; [exact H|].
  pose proof H as H0. pose proof H' as H0'. coords H i u v w D Si Hx Hy Hz; [discriminate|]. coords H' i' u' v' w' D' Si' Hx' Hy' Hz'; [discriminate|]. cbn [snd]. ops. rewrite (one_re _ _ Hz), (one_re _ _ Hz').
  destruct (fe_is_one w && fe_is_one w'); [|destruct (fe_is_one w); [|destruct (fe_is_one w')]].
  - unfold jo_add_z_1, jac_add_z_1. eapply jo_addex_rt; eauto.
  - unfold jo_add_z2_1, jac_add_z2_1. ops. do 4 (eapply (agree_bind re); [go1|intros ? ? ?]). eapply jo_addex_rt; eauto.
  - unfold jo_add_z2_1, jac_add_z2_1. ops. do 4 (eapply (agree_bind re); [go1|intros ? ? ?]). eapply jo_addex_rt; eauto.
  - unfold jo_add_ne, jac_add_ne. ops. do 8 (eapply (agree_bind re); [go1|intros ? ? ?]). eapply jo_addex_rt; eauto.
Qed.
Lemma ho_sub_rt P P' Q Q' : rt P Q -> rt P' Q' -> agree rt (ho_sub c h P P') (proj_sub O E Q Q').
Proof. intros H H'. unfold ho_sub, proj_sub. eapply agree_bind; [apply inverted_rt, H'|]. intros. apply ho_add_rt; assumption. Qed.
Lemma jo_sub_rt P P' Q Q' : rt P Q -> rt P' Q' -> agree rt (jo_sub c h P P') (jac_sub O E Q Q').
Proof. intros H H'. unfold jo_sub, jac_sub. eapply agree_bind; [apply inverted_rt, H'|]. intros. apply jo_add_rt; assumption. Qed.
Lemma mul_cases_rt loop loop' P Q s : (forall P Q s, rt P Q -> is_identity3 O Q = false -> agree rt (loop P s) (loop' Q s)) -> rt P Q ->
  agree rt (to_mul_cases c h loop P s) (mul_cases None (is_identity3 O) (inverted3 O) loop' Q s).
Proof.
  intros HL H. unfold to_mul_cases, mul_cases. rewrite (id_rt _ _ H).
  destruct (is_one s); cbn [bind orb]; [exact H|]. destruct (is_identity3 O Q) eqn:Id; [exact H|]. destruct (is_zero s); [apply rt_default|]. destruct (compares1 s 0 <? 0); [|apply HL; assumption].
  eapply agree_bind; [apply inverted_rt, H|]. intros N N' HN. cbv zeta. rewrite (id_rt _ _ HN). destruct (is_one (op_neg s)); cbn [bind orb]; [exact HN|]. destruct (is_identity3 O N') eqn:IdN; [exact HN|].
  destruct (is_zero (op_neg s)); [apply rt_default|apply HL; assumption].
Qed.
Lemma ho_mul_rt P Q s : rt P Q -> agree rt (ho_mul c h P s) (proj_mul O E Q s).
Proof.
  intros H. unfold ho_mul, proj_mul. apply mul_cases_rt; [|exact H]. intros P1 Q1 s1 H1 _. unfold ho_loop, proj_loop. apply (ladder_agree rt); [intros; apply ho_add_rt; assumption|apply ho_doubled_rt|apply rt_default|exact H1].
Qed.
Lemma jo_mul_rt P Q s : rt P Q -> agree rt (jo_mul c h P s) (jac_mul O E c Q s).
Proof.
  intros H. unfold jo_mul, jac_mul. apply mul_cases_rt; [|exact H]. intros P1 Q1 s1 H1 Id. unfold jo_loop, jac_loop. eapply agree_bind; [apply inverted_rt, H1|]. intros N N' HN. destruct (to_rnaf c s1) as [l| | |]; try exact I. cbn [bind].
  pose proof H1 as H2. coords H1 i u v w D Si Hx Hy Hz; [discriminate|]. rewrite D. apply (naf_agree rt); [intros; apply jo_add_rt; assumption|apply jo_doubled_rt|exact H2|exact HN|]. apply rt_mk; [exact Si| | |]; apply lit_re, Si.
Qed.
Lemma is_valid_rt on mul on' mul' P Q : (forall P Q, rt P Q -> agree eq (on P) (on' Q)) -> (forall P Q s, rt P Q -> agree rt (mul P s) (mul' Q s)) -> rt P Q ->
  agree eq (to_is_valid h on mul P) (is_valid_with (is_identity3 O) on' mul' (k_n k) Q).
Proof.
  intros Hon Hmul H. unfold to_is_valid, is_valid_with. rewrite (id_rt _ _ H). cbn [bind]. destruct (is_identity3 O Q) eqn:Id; [reflexivity|]. eapply agree_bind; [apply Hon, H|]. intros o ? <-. destruct (negb o); [reflexivity|].
  pose proof H as H0. coords H i u v w D Si Hx Hy Hz; [discriminate|]. destruct (tcurve_rt P i D Si) as (k' & Ck & _ & _ & N & _). rewrite Ck. cbn [bind]. rewrite N. eapply agree_bind; [apply Hmul, H0|]. intros R R' HR. rewrite (id_rt _ _ HR). reflexivity.
Qed.
Lemma ho_valid_rt P Q : rt P Q -> agree eq (ho_is_valid c h P) (proj_is_valid O E (k_n k) Q).
Proof. intros H. apply is_valid_rt; [apply ho_on_rt|apply ho_mul_rt|exact H]. Qed.
Lemma jo_valid_rt P Q : rt P Q -> agree eq (jo_is_valid c h P) (jac_is_valid O E c (k_n k) Q).
Proof. intros H. apply is_valid_rt; [apply jo_on_rt|apply jo_mul_rt|exact H]. Qed.
Lemma ho_mul_add_rt a P b P' Q Q' : rt P Q -> rt P' Q' -> agree rt (ho_mul_add c h a P b P') (proj_mul_add O E c a Q b Q').
Proof. intros H H'. apply (mul_add_agree rt); [intros; apply ho_add_rt; assumption|apply ho_doubled_rt|apply inverted_rt|apply rt_default|exact H|exact H']. Qed.
Lemma jo_mul_add_rt a P b P' Q Q' : rt P Q -> rt P' Q' -> agree rt (jo_mul_add c h a P b P') (jac_mul_add O E c a Q b Q').
Proof. intros H H'. apply (mul_add_agree rt); [intros; apply jo_add_rt; assumption|apply jo_doubled_rt|apply inverted_rt|apply rt_default|exact H|exact H']. Qed.
(** equality *)
Lemma ho_eqb_rt P P' Q Q' : rt P Q -> rt P' Q' -> tc P = tc P' -> agree eq (ho_eqb c h P P') (proj_eqb O Q Q').
Proof.
  intros H H' ED. unfold ho_eqb, proj_eqb. rewrite (id_rt _ _ H), (id_rt _ _ H'). destruct (is_identity3 O Q) eqn:Id; cbn [bind orb andb]; [reflexivity|]. destruct (is_identity3 O Q') eqn:Id'; [reflexivity|].
  coords H i u v w D Si Hx Hy Hz; [discriminate|]. coords H' i' u' v' w' D' Si' Hx' Hy' Hz'; [discriminate|]. rewrite <- ED, D. cbn [same_address]. rewrite Nat.eqb_refl. ops. do 2 (eapply (agree_bind re); [go1|intros ? ? ?]).
  match goal with A2 : PointerClaims.re h ?u0 ?u0', A3 : PointerClaims.re h ?u1 ?u1' |- agree _ (if fo_eqb ?u0 ?u1 then _ else _) _ => rewrite (eqb_re _ _ _ _ A2 A3) end. destruct (fe_eqb _ _); [|reflexivity]. repeat go1.
Qed.
Lemma jo_eqb_rt P P' Q Q' : rt P Q -> rt P' Q' -> tc P = tc P' -> agree eq (jo_eqb c h P P') (jac_eqb O Q Q').
Proof.
  intros H H' ED. unfold jo_eqb, jac_eqb. rewrite (id_rt _ _ H), (id_rt _ _ H'). destruct (is_identity3 O Q) eqn:Id; cbn [bind orb andb]; [reflexivity|]. destruct (is_identity3 O Q') eqn:Id'; [reflexivity|].
  coords H i u v w D Si Hx Hy Hz; [discriminate|]. coords H' i' u' v' w' D' Si' Hx' Hy' Hz'; [discriminate|]. rewrite <- ED, D. cbn [same_address]. rewrite Nat.eqb_refl. ops. do 4 (eapply (agree_bind re); [go1|intros ? ? ?]).
  match goal with A2 : PointerClaims.re h ?u0 ?u0', A3 : PointerClaims.re h ?u1 ?u1' |- agree _ (if fo_eqb ?u0 ?u1 then _ else _) _ => rewrite (eqb_re _ _ _ _ A2 A3) end. destruct (fe_eqb _ _); [|reflexivity]. repeat go1.
Qed.
(** [normalize]: z keeps its own modulus *)
Lemma one_field x v : re x v -> in_field h k x -> agree re (fo_assign h x (of_int c 1) false) (Ok (o_lit O 1)).
Proof.
  intros (L & <-) (q & M & D). unfold fo_assign. rewrite M. cbn [bind agree]. split; [intros q' H; cbn in H; injection H as <-; congruence|]. unfold look. cbn [om ov]. rewrite D, <- Ep. reflexivity.
Qed.
Lemma ho_normalize_rt P Q : rt P Q -> in_field h k (tz P) \/ tc P = None -> agree rt (ho_normalize c h P) (proj_normalize O Q).
Proof.
  intros H F. unfold ho_normalize. rewrite (id_rt _ _ H). cbn [bind]. unfold proj_normalize. pose proof H as H0. coords H i u v w D Si Hx Hy Hz; [cbn [is_identity3 negb andb]; exact H0|]. destruct F as [F|F]; [|congruence]. ops. rewrite (one_re _ _ Hz).
  match goal with |- agree _ (if ?b then _ else _) (if ?b then _ else _) => destruct b end; [|exact H0]. do 3 (eapply (agree_bind re); [go1|intros ? ? ?]). match goal with |- agree _ ?f (Ok (Some (?a, ?b, ?d))) => change (agree rt f (bind (Ok d) (fun z => Ok (Some (a, b, z))))) end.
  eapply (agree_bind re); [eapply one_field; eassumption|]. intros z1 z1' Hz1. rewrite D. apply rt_mk; assumption.
Qed.
Lemma jo_normalize_rt P Q : rt P Q -> in_field h k (tz P) \/ tc P = None -> agree rt (jo_normalize c h P) (jac_normalize O Q).
Proof.
  intros H F. unfold jo_normalize. rewrite (id_rt _ _ H). cbn [bind]. unfold jac_normalize. pose proof H as H0. coords H i u v w D Si Hx Hy Hz; [cbn [is_identity3 negb andb]; exact H0|]. destruct F as [F|F]; [|congruence]. ops. rewrite (one_re _ _ Hz).
  match goal with |- agree _ (if ?b then _ else _) (if ?b then _ else _) => destruct b end; [|exact H0]. do 5 (eapply (agree_bind re); [go1|intros ? ? ?]).
  match goal with |- agree _ ?f (Ok (Some (?a, ?b, ?d))) => change (agree rt f (bind (Ok d) (fun z => Ok (Some (a, b, z))))) end.
  eapply (agree_bind re); [eapply one_field; eassumption|]. intros z1 z1' Hz1. rewrite D. apply rt_mk; assumption.
Qed.

(** ** decompression and ECDSA *)
Lemma decompress_rp i x odd C : S i -> cu_p C = p0 -> cu_a C = k_a k -> cu_b C = k_b k -> agree (rp h S) (po_decompress c h i x odd) (decompress_point c C x odd false).
Proof.
  intros Si Cp Ca Cb. destruct (HS i Si) as (k' & D & P & A & B & _). unfold po_decompress, decompress_point, make_field_element, decompress_fe, compute_y. rewrite D. cbn [bind].
  assert (HX : re (mkfo x (Some (PCurve i))) (mkfe x (Some (cu_p C)))). { split; [intros q H; cbn in H; injection H as <-; cbn; rewrite D; discriminate|]. unfold look. cbn [om ov deref]. rewrite D. cbn [option_map]. rewrite P, Cp, Ep. reflexivity. }
  rewrite A, B, Ca, Cb. remember (mkfo x (Some (PCurve i))) as X eqn:EX. rewrite !bind_assoc. repeat (first [rewrite bind_assoc|eapply (agree_bind re); [go1|intros ? ? ?]]).
  match goal with |- agree _ (bind (if negb (Bool.eqb _ (test_bit (ov ?y) 0)) then _ else _) _) _ => match goal with K : PointerClaims.re h y ?w |- _ => rewrite (fv_re _ _ _ K) end end.
  eapply (agree_bind re); [match goal with |- agree _ (if ?b then _ else _) (if ?b then _ else _) => destruct b end; repeat go1|]. intros y w Hy. rewrite (is_zero_re _ _ _ Hy). cbn [bind]. destruct (fe_is_zero w); [apply rp_default|].
  unfold make_point_fe. cbn [bind agree]. destruct HX as (LX & EX'). destruct Hy as (LY & EY). split; [split; [exact LX|split; [exact LY|]]; intros j Hj; cbn in Hj; injection Hj as <-; exact Si|]. unfold look_point. cbn [oc ox oy]. rewrite EX', EY. reflexivity.
Qed.
End OP.

(** ** with a curve *)
Section CURVE.
Variable c : cap.
Variable h : heap.
Variable k : cobj.
Variable S : nat -> Prop.
Hypothesis HS : alike3 h k S.
Variable C : curve.
Hypothesis Cp : cu_p C = k_p k.
Hypothesis Ca : cu_a C = k_a k.
Hypothesis Cb : cu_b C = k_b k.
Hypothesis Cn : cu_n C = k_n k.
Hypothesis Cz : cu_a_is_zero C = k_z k.
Hypothesis Cm : cu_a_is_minus_3 C = k_m3 k.
Hypothesis Cq : cu_p_minus_n C = k_pmn k.
Hypothesis HG : rp h S (k_g k) (cu_g C).
Notation O := (fe_ops c (cu_p C)).
Notation E := (cu_coeffs c C).
Lemma of_affine_ok P Q : rp h S P Q -> exists T, to_of_affine c h P = Ok T /\ rt h S T (of_affine O Q).
Proof. intros H. pose proof (of_affine_rt c h k S HS (cu_p C) Cp P Q H) as A. destruct (to_of_affine c h P) as [T| | |]; cbn in A; try contradiction. eauto. Qed.
Lemma mul_add_to_affine a P b P' Q Q' : rt h S P Q -> rt h S P' Q' ->
  agree (rp h S) (let* R := jo_mul_add c h a P b P' in jo_to_affine c h R) (let* R := jac_mul_add O E c a Q b Q' in jac_to_affine O R).
Proof.
  intros H H'. eapply agree_bind; [eapply jo_mul_add_rt; eassumption|]. intros R R' HR. eapply jo_to_affine_rt; eassumption.
Qed.
Lemma verify_rp q Q msg r s i : rp h S q Q -> oc q = None \/ oc q = Some i /\ at_addr (h_curves h) i = Some k -> agree eq (po_ecdsa_verify c h q msg r s) (ecdsa_verify c C Q msg r s).
Proof.
  intros H D. unfold po_ecdsa_verify, ecdsa_verify. rewrite (id_rp c h S (cu_p C) _ _ H). cbn [bind]. cbv zeta. destruct (aff_is_identity O Q) eqn:Id; [reflexivity|].
  destruct D as [D|(D & Dk)]. { destruct (rp_inv _ _ _ _ H) as [(_ & ->)|(j & ? & ? & D' & _)]; [discriminate|congruence]. }
  unfold curve_of. rewrite D, Dk. cbn [bind]. rewrite Cn. destruct (out_of_range (k_n k) r s); [reflexivity|].
  do 4 (eapply agree_bind; [apply agree_refl|intros ? ? <-]). destruct (of_affine_ok _ _ HG) as (G & -> & RG). destruct (of_affine_ok _ _ H) as (QJ & -> & RQ). cbn [bind].
  rewrite <- !bind_assoc. eapply agree_bind; [eapply mul_add_to_affine; eassumption|]. intros R R' HR. rewrite (id_rp c h S (cu_p C) _ _ HR). cbn [bind]. destruct (aff_is_identity O R') eqn:IdR; [reflexivity|].
  destruct (rp_inv _ _ _ _ HR) as [(_ & ->)|(j & gx & gy & D' & Sj & -> & Hx & Hy)]; [discriminate|]. rewrite <- (fv_re _ _ _ Hx).
  eapply (agree_bind (re h)); [destruct (negb (compare (fv gx) (k_n k) <? 0)); [apply sub_big_re, Hx|exact Hx]|]. intros x w Hw. cbn [agree]. rewrite (fv_re _ _ _ Hw). reflexivity.
Qed.
Lemma recover_rp i msg r s recid verify : S i -> at_addr (h_curves h) i = Some k -> agree (rp h S) (po_ecdsa_recover c h i msg r s recid verify) (ecdsa_recover c C msg r s recid verify).
Proof.
  intros Si Dk. unfold po_ecdsa_recover, ecdsa_recover. rewrite Dk. cbv zeta. rewrite Cn, Cq. destruct (out_of_range (k_n k) r s || negb (Z.land recid 3 =? recid)); [apply rp_default|].
  destruct (negb (Z.shiftr recid 1 =? 0) && negb (compare r (k_pmn k) <? 0)); [apply rp_default|]. eapply agree_bind; [apply agree_refl|intros e ? <-].
  eapply agree_bind with (R := rp h S). { destruct (negb (Z.shiftr recid 1 =? 0)); eapply decompress_rp; eauto. }
  intros R R' HR. rewrite (id_rp c h S (cu_p C) _ _ HR). cbn [bind]. destruct (aff_is_identity O R') eqn:IdR; [exact HR|].
  eapply agree_bind with (R := eq). { destruct verify; [|reflexivity]. eapply agree_bind; [eapply mul_rp; [eapply alike3_alike; exact HS|exact Ca|exact HR]|]. intros n n' Hn. rewrite (id_rp c h S (cu_p C) _ _ Hn). reflexivity. }
  intros ok ? <-. destruct (negb ok); [apply rp_default|]. do 3 (eapply agree_bind; [apply agree_refl|intros ? ? <-]). destruct (of_affine_ok _ _ HG) as (G & -> & RG). destruct (of_affine_ok _ _ HR) as (QJ & -> & RQ). cbn [bind].
  apply mul_add_to_affine; assumption.
Qed.
Lemma ho_generate_rt i x : at_addr (h_curves h) i = Some k -> agree (rt h S) (ho_generate c h i x) (generate_point_proj c C x).
Proof.
  intros Dk. unfold ho_generate, to_generate, generate_point_proj. rewrite Dk, Cn. eapply agree_bind; [apply agree_refl|]. intros _ _ _. destruct (of_affine_ok _ _ HG) as (G & -> & RG). cbn [bind]. eapply ho_mul_rt; eassumption.
Qed.
Lemma jo_generate_rt i x : at_addr (h_curves h) i = Some k -> agree (rt h S) (jo_generate c h i x) (generate_point_jac c C x).
Proof.
  intros Dk. unfold jo_generate, to_generate, generate_point_jac. rewrite Dk, Cn. eapply agree_bind; [apply agree_refl|]. intros _ _ _. destruct (of_affine_ok _ _ HG) as (G & -> & RG). cbn [bind]. eapply jo_mul_rt; eassumption.
Qed.
End CURVE.

(** * claims *)
Lemma points3_claim c h k S C : alike3 h k S -> look_curve h k = C ->
  let O := fe_ops c (cu_p C) in let E := cu_coeffs c C in
  let ok := fun P Q => point3_of h S P /\ look3 h P = Q in
  forall P Q, point3_of h S P -> point3_of h S Q -> let P' := look3 h P in let Q' := look3 h Q in
  (agree ok (ho_add c h P Q) (proj_add O E P' Q') /\ agree ok (ho_sub c h P Q) (proj_sub O E P' Q') /\ agree ok (ho_doubled c h P) (proj_doubled O E P') /\
   (forall s, agree ok (ho_mul c h P s) (proj_mul O E P' s)) /\ (forall a b, agree ok (ho_mul_add c h a P b Q) (proj_mul_add O E c a P' b Q')) /\
   agree eq (ho_is_on_curve c h P) (proj_is_on_curve O E P') /\ agree eq (ho_is_valid c h P) (proj_is_valid O E (cu_n C) P') /\
   (in_field h k (tz P) \/ tc P = None -> agree ok (ho_normalize c h P) (proj_normalize O P')) /\
   agree (fun A B => point_of h S A /\ look_point h A = B) (ho_to_affine c h P) (proj_to_affine O P')) /\
  (agree ok (jo_add c h P Q) (jac_add O E P' Q') /\ agree ok (jo_sub c h P Q) (jac_sub O E P' Q') /\ agree ok (jo_doubled c h P) (jac_doubled O E P') /\
   (forall s, agree ok (jo_mul c h P s) (jac_mul O E c P' s)) /\ (forall a b, agree ok (jo_mul_add c h a P b Q) (jac_mul_add O E c a P' b Q')) /\
   agree eq (jo_is_on_curve c h P) (jac_is_on_curve O E P') /\ agree eq (jo_is_valid c h P) (jac_is_valid O E c (cu_n C) P') /\
   (in_field h k (tz P) \/ tc P = None -> agree ok (jo_normalize c h P) (jac_normalize O P')) /\
   agree (fun A B => point_of h S A /\ look_point h A = B) (jo_to_affine c h P) (jac_to_affine O P')) /\
  agree ok (to_inverted c h P) (inverted3 O P') /\ to_is_identity h P = Ok (is_identity3 O P') /\
  (forall A, point_of h S A -> agree ok (to_of_affine c h A) (Ok (of_affine O (look_point h A)))) /\
  (tc P = tc Q -> agree eq (ho_eqb c h P Q) (proj_eqb O P' Q') /\ agree eq (jo_eqb c h P Q) (jac_eqb O P' Q')).
Proof.
  intros HS LC O E ok P Q HP HQ P' Q'. assert (RP : rt h S P P') by (split; [exact HP|reflexivity]). assert (RQ : rt h S Q Q') by (split; [exact HQ|reflexivity]).
  assert (Ep : cu_p C = k_p k) by (rewrite <- LC; reflexivity). assert (Ea : cv_a _ E = k_a k) by (unfold E; rewrite <- LC; reflexivity). assert (Eb : cv_b _ E = k_b k) by (unfold E; rewrite <- LC; reflexivity).
  assert (Ez : cv_a_is_zero _ E = k_z k) by (unfold E; rewrite <- LC; reflexivity). assert (Em : cv_a_is_minus_3 _ E = k_m3 k) by (unfold E; rewrite <- LC; reflexivity). assert (En : cu_n C = k_n k) by (rewrite <- LC; reflexivity). clearbody P' Q' E.
  split; [|split; [|split; [|split; [|split]]]].
  - split; [eapply ho_add_rt; eassumption|]. split; [eapply ho_sub_rt; eassumption|]. split; [eapply ho_doubled_rt; eassumption|]. split; [intros s; eapply ho_mul_rt; eassumption|]. split; [intros a b; eapply ho_mul_add_rt; eassumption|].
    split; [eapply ho_on_rt; eassumption|]. split; [rewrite En; eapply ho_valid_rt; eassumption|]. split; [intros F; eapply ho_normalize_rt; eassumption|]. eapply ho_to_affine_rt; eassumption.
  - split; [eapply jo_add_rt; eassumption|]. split; [eapply jo_sub_rt; eassumption|]. split; [eapply jo_doubled_rt; eassumption|]. split; [intros s; eapply jo_mul_rt; eassumption|]. split; [intros a b; eapply jo_mul_add_rt; eassumption|].
    split; [eapply jo_on_rt; eassumption|]. split; [rewrite En; eapply jo_valid_rt; eassumption|]. split; [intros F; eapply jo_normalize_rt; eassumption|]. eapply jo_to_affine_rt; eassumption.
  - eapply inverted_rt; eassumption.
  - eapply id_rt; eassumption.
  - intros A HA. eapply of_affine_rt; [eassumption|exact Ep|]. split; [exact HA|reflexivity].
  - intros ED. split; [eapply ho_eqb_rt; eassumption|eapply jo_eqb_rt; eassumption].
Qed.

(** the objects made from one original *)
Lemma family_object c l h k x j : krun c (mkheap [] []) l = Ok h -> nth_error (lives l) k = Some x -> family (lives l) (l_from x) j -> at_addr (h_curves h) j = Some (object c (l_from x) (l_params x)).
Proof.
  intros R H (y & Y & Al & F). pose proof (krun_known c l [] _ h (known_start c) R) as K. change (fold_left live_on l []) with (lives l) in K. rewrite (known_at _ _ _ _ _ K Y), Al, F.
  destruct K as (_ & K). destruct (K k x H) as (_ & _ & z & Z & _ & P). destruct (K j y Y) as (_ & _ & z' & Z' & _ & P'). rewrite F, Z in Z'. injection Z' as <-. rewrite <- P, P'. reflexivity.
Qed.
Lemma family_known c l h k x : krun c (mkheap [] []) l = Ok h -> nth_error (lives l) k = Some x -> exists_at (lives l) (l_from x) = true ->
  let o := object c (l_from x) (l_params x) in
  exists C, curve_with c (l_params x) = Ok C /\ look_curve h o = C /\ (forall T : nat -> Prop, (forall j, T j -> family (lives l) (l_from x) j) -> alike3 h o T) /\
  (forall T : nat -> Prop, T (l_from x) -> rp h T (k_g o) (cu_g C)) /\ family (lives l) (l_from x) (l_from x).
Proof.
  intros R H Ex o. pose proof (krun_known c l [] _ h (known_start c) R) as K. change (fold_left live_on l []) with (lives l) in K. unfold exists_at in Ex. destruct (nth_error (lives l) (l_from x)) as [y|] eqn:Y; [|discriminate].
  destruct (known_origin _ _ _ _ _ _ K H Y) as (F & P). assert (FM : family (lives l) (l_from x) (l_from x)) by (exists y; auto). pose proof (family_object _ _ _ _ _ _ R H FM) as Dy.
  destruct K as (Len & K). destruct (K k x H) as (_ & (C & W) & _). exists C. pose proof (object_curve c h _ _ C Dy W) as LC. split; [exact W|]. split; [exact LC|]. split; [|split; [|exact FM]].
  - intros T HT j Tj. exists o. split; [apply (family_object _ _ _ _ _ _ R H (HT j Tj))|auto 8].
  - intros T HT. assert (OG : oc (k_g o) = Some (l_from x) /\ om (ox (k_g o)) = Some (PCurve (l_from x)) /\ om (oy (k_g o)) = Some (PCurve (l_from x))). { unfold o, object. destruct (l_params x) as [[[[[[p a] b] gx] gy] n] cof]. auto. }
    destruct OG as (O1 & O2 & O3). split; [|rewrite <- LC; reflexivity]. split; [intros q Hq; rewrite O2 in Hq; injection Hq as <-; cbn; rewrite Dy; discriminate|]. split; [intros q Hq; rewrite O3 in Hq; injection Hq as <-; cbn; rewrite Dy; discriminate|]. intros i Hi. rewrite O1 in Hi. injection Hi as <-. exact HT.
Qed.
Lemma ecdsa_claim c l h k x : krun c (mkheap [] []) l = Ok h -> nth_error (lives l) k = Some x -> exists_at (lives l) (l_from x) = true ->
  let S := family (lives l) (l_from x) in
  exists C, curve_with c (l_params x) = Ok C /\
    (forall q msg r s, point_of h S q -> agree eq (po_ecdsa_verify c h q msg r s) (ecdsa_verify c C (look_point h q) msg r s)) /\
    (l_alive x = true -> forall msg r s recid verify,
      agree (fun P Q => point_of h S P /\ look_point h P = Q /\ (forall i, oc P = Some i -> i = k \/ i = l_from x)) (po_ecdsa_recover c h k msg r s recid verify) (ecdsa_recover c C msg r s recid verify)) /\
    (l_alive x = true -> forall u,
      agree (fun P Q => point3_of h S P /\ look3 h P = Q /\ (forall i, tc P = Some i -> i = l_from x)) (ho_generate c h k u) (generate_point_proj c C u) /\
      agree (fun P Q => point3_of h S P /\ look3 h P = Q /\ (forall i, tc P = Some i -> i = l_from x)) (jo_generate c h k u) (generate_point_jac c C u)).
Proof.
  intros R H Ex S. destruct (family_known c l h k x R H Ex) as (C & W & LC & AL & GR & FM). set (o := object c (l_from x) (l_params x)) in *. exists C. split; [exact W|].
  assert (Q1 : cu_p C = k_p o) by (rewrite <- LC; reflexivity). assert (Q2 : cu_a C = k_a o) by (rewrite <- LC; reflexivity). assert (Q3 : cu_b C = k_b o) by (rewrite <- LC; reflexivity). assert (Q4 : cu_n C = k_n o) by (rewrite <- LC; reflexivity).
  assert (Q5 : cu_a_is_zero C = k_z o) by (rewrite <- LC; reflexivity). assert (Q6 : cu_a_is_minus_3 C = k_m3 o) by (rewrite <- LC; reflexivity). assert (Q7 : cu_p_minus_n C = k_pmn o) by (rewrite <- LC; reflexivity).
  split; [|split].
  - intros q msg r s Hq. destruct (oc q) as [i|] eqn:D.
    + apply (verify_rp c h o S (AL S (fun j F => F)) C Q1 Q2 Q4 Q5 Q6 (GR S FM) q (look_point h q) msg r s i (conj Hq eq_refl)). right. split; [exact D|]. apply (family_object _ _ _ _ _ _ R H). apply Hq, D.
    + apply (verify_rp c h o S (AL S (fun j F => F)) C Q1 Q2 Q4 Q5 Q6 (GR S FM) q (look_point h q) msg r s O (conj Hq eq_refl)). left. exact D.
  - intros Al msg r s recid verify. set (T := fun j => j = k \/ j = l_from x). assert (FK : S k) by (exists x; auto). assert (TS : forall j, T j -> S j) by (intros j [-> | ->]; assumption).
    eapply agree_mono; [apply (recover_rp c h o T (AL T TS) C Q1 Q2 Q3 Q4 Q5 Q6 Q7 (GR T (or_intror eq_refl)) k msg r s recid verify (or_introl eq_refl) (family_object _ _ _ _ _ _ R H FK))|].
    intros P Q ((Lx & Ly & Hi) & E). split; [split; [exact Lx|split; [exact Ly|]]; intros i Di; apply TS, Hi, Di|]. split; [exact E|exact Hi].
  - intros Al u. set (T := fun j => j = l_from x). assert (FK : S k) by (exists x; auto). assert (TS : forall j, T j -> S j) by (intros j ->; assumption).
    split; (eapply agree_mono; [first [apply (ho_generate_rt c h o T (AL T TS) C Q1 Q2 Q4 Q5 Q6 (GR T eq_refl) k u (family_object _ _ _ _ _ _ R H FK))|apply (jo_generate_rt c h o T (AL T TS) C Q1 Q2 Q4 Q5 Q6 (GR T eq_refl) k u (family_object _ _ _ _ _ _ R H FK))]|]);
    (intros P Q ((Lx & Ly & Lz & Hi) & E); split; [split; [exact Lx|split; [exact Ly|split; [exact Lz|]]]; intros i Di; apply TS, Hi, Di|]; split; [exact E|exact Hi]).
Qed.

(** ** destroyed curves *)
Lemma key_dead c h q i msg r s : oc q = Some i -> om (ox q) = Some (PCurve i) -> at_addr (h_curves h) i = None -> po_ecdsa_verify c h q msg r s = UB.
Proof.
  intros D M N. unfold po_ecdsa_verify, po_is_identity. rewrite D. destruct (is_one (ov (ox q))) eqn:E1.
  - unfold fo_is_zero at 1. rewrite E1. cbn [bind]. unfold curve_of. rewrite D, N. reflexivity.
  - rewrite (zero_dead h (ox q) (PCurve i) M) by (cbn; rewrite ?N; auto). reflexivity.
Qed.
(** a generator whose curve is gone *)
Section DEAD.
Variable c : cap.
Variable h : heap.
Variable d : nat.
Hypothesis Dead : at_addr (h_curves h) d = None.
Variable gx gy : bigint.
Let g := mkpo (Some d) (mkfo gx (Some (PCurve d))) (mkfo gy (Some (PCurve d))).
Let gj := mkto (Some d) (mkfo gx (Some (PCurve d))) (mkfo gy (Some (PCurve d))) (mkfo (of_int c 1) (Some (PCurve d))).
Lemma deref_dead : deref h (PCurve d) = None. Proof. cbn. rewrite Dead. reflexivity. Qed.
Lemma of_affine_dead : to_of_affine c h g = UB \/ to_of_affine c h g = Ok gj.
Proof.
  unfold to_of_affine, po_is_identity, g. cbn [oc ox oy]. destruct (is_one gx) eqn:E1.
  - right. unfold fo_is_zero. cbn [ov om]. rewrite E1. reflexivity.
  - left. rewrite (zero_dead h (mkfo gx (Some (PCurve d))) (PCurve d)); [reflexivity|reflexivity|apply deref_dead|exact E1].
Qed.
Lemma id_dead : to_is_identity h gj = UB \/ to_is_identity h gj = Ok false.
Proof.
  unfold to_is_identity, gj. cbn [tc tz]. destruct (is_one (of_int c 1)) eqn:E1.
  - right. unfold fo_is_zero. cbn [ov om]. rewrite E1. reflexivity.
  - left. apply (zero_dead h _ (PCurve d)); [reflexivity|apply deref_dead|exact E1].
Qed.
Lemma inverted_dead : to_inverted c h gj = UB.
Proof.
  unfold to_inverted. destruct id_dead as [->| ->]; [reflexivity|]. cbn [bind]. unfold fo_neg. rewrite with_p_dead; [reflexivity|]. cbn [gj ty om]. apply deref_dead.
Qed.
Lemma mul_add_dead {A} a b Q la lb (f : tobj -> outcome A) : to_rnaf c a = Ok la -> to_rnaf c b = Ok lb -> bind (to_of_affine c h g) (fun G => bind (Ok Q) (fun Q => bind (jo_mul_add c h a G b Q) f)) = UB.
Proof.
  intros Ha Hb. destruct of_affine_dead as [->| ->]; [reflexivity|]. cbn [bind]. unfold jo_mul_add, mul_add_fast. rewrite Ha, Hb. cbn [bind]. rewrite inverted_dead. reflexivity.
Qed.
Lemma jo_mul_dead s : is_one s = false -> is_zero s = false -> (compares1 s 0 <? 0) = false -> bind (to_of_affine c h g) (fun G => jo_mul c h G s) = UB.
Proof.
  intros S1 S0 Sn. destruct of_affine_dead as [->| ->]; [reflexivity|]. cbn [bind]. unfold jo_mul, to_mul_cases. rewrite S1, S0, Sn. destruct id_dead as [->| ->]; [reflexivity|]. cbn [bind]. unfold jo_loop. rewrite inverted_dead. reflexivity.
Qed.
End DEAD.
Lemma mul_add_rnaf {O : fops} {E : coeffs O} c a P b Q R : jac_mul_add O E c a P b Q = Ok R -> exists la lb, to_rnaf c a = Ok la /\ to_rnaf c b = Ok lb.
Proof. unfold jac_mul_add, mul_add_fast. destruct (to_rnaf c a) as [la| | |]; try discriminate. destruct (to_rnaf c b) as [lb| | |]; try discriminate. eauto. Qed.
(** a copy whose original is gone *)
Lemma copy_dead c l h k x : krun c (mkheap [] []) l = Ok h -> nth_error (lives l) k = Some x -> l_alive x = true -> exists_at (lives l) (l_from x) = false ->
  let o := object c (l_from x) (l_params x) in
  at_addr (h_curves h) k = Some o /\ at_addr (h_curves h) (l_from x) = None /\
  exists C gx gy, curve_with c (l_params x) = Ok C /\ cu_p C = k_p o /\ cu_a C = k_a o /\ cu_b C = k_b o /\ cu_n C = k_n o /\ cu_p_minus_n C = k_pmn o /\
    k_g o = mkpo (Some (l_from x)) (mkfo gx (Some (PCurve (l_from x)))) (mkfo gy (Some (PCurve (l_from x)))).
Proof.
  intros R H Al Ex o. pose proof (krun_known c l [] _ h (known_start c) R) as K. change (fold_left live_on l []) with (lives l) in K.
  pose proof (known_at _ _ _ _ _ K H) as D. rewrite Al in D. destruct K as (Len & K0). destruct (K0 k x H) as (_ & (C & W) & y & Y & F & P). pose proof (known_at _ _ _ _ _ (conj Len K0) Y) as Dy. unfold exists_at in Ex. rewrite Y in Ex. rewrite Ex in Dy.
  split; [exact D|]. split; [exact Dy|]. exists C. unfold o. clear - W. destruct (l_params x) as [[[[[[p a] b] gx] gy] n] cof]. exists gx, gy. split; [exact W|]. cbn [curve_with] in W. unfold curve_make, make_field_element, check in W. destruct (is_valid_integer p gx); [|discriminate]. cbn [bind] in W. destruct (is_valid_integer p gy); [|discriminate]. cbn [bind] in W. injection W as <-.
  cbn. auto 8.
Qed.
Lemma verify_dead c l h k x C q msg r s v : krun c (mkheap [] []) l = Ok h -> nth_error (lives l) k = Some x -> l_alive x = true -> exists_at (lives l) (l_from x) = false -> curve_with c (l_params x) = Ok C ->
  oc q = Some k -> live h (ox q) -> live h (oy q) -> aff_is_identity (fe_ops c (cu_p C)) (look_point h q) = false -> out_of_range (cu_n C) r s = false ->
  ecdsa_verify c C (look_point h q) msg r s = Ok v -> po_ecdsa_verify c h q msg r s = UB.
Proof.
  intros R H Al Ex W Dq Lx Ly Id OR V. destruct (copy_dead c l h k x R H Al Ex) as (Dk & Dead & C' & gx & gy & W' & Q1 & Q2 & Q3 & Q4 & Q5 & EG). rewrite W in W'. injection W' as <-. set (o := object c (l_from x) (l_params x)) in *.
  assert (AL : alike3 h o (fun j => j = k)) by (intros j ->; exists o; auto 8).
  assert (HQ : rp h (fun j => j = k) q (look_point h q)). { split; [|reflexivity]. split; [exact Lx|]. split; [exact Ly|]. intros i Hi. congruence. }
  unfold po_ecdsa_verify. rewrite (id_rp c h _ (cu_p C) _ _ HQ), Id. cbn [bind]. unfold curve_of. rewrite Dq, Dk. cbn [bind]. cbv zeta. unfold ecdsa_verify in V. cbv zeta in V. rewrite Id, OR in V. rewrite Q4 in *. rewrite OR.
  destruct (digest_int c (k_n o) msg) as [e| | |]; try discriminate. cbn [bind] in *. destruct (op_modinv c s (k_n o)) as [w| | |]; try discriminate. cbn [bind] in *. destruct (op_mod c (op_mul c e w) (k_n o)) as [u1| | |]; try discriminate. cbn [bind] in *. destruct (op_mod c (op_mul c r w) (k_n o)) as [u2| | |]; try discriminate. cbn [bind] in *.
  match type of V with bind ?m _ = _ => destruct m as [R'| | |] eqn:MA; try discriminate end. destruct (mul_add_rnaf _ _ _ _ _ _ MA) as (la & lb & Ha & Hb). destruct (of_affine_ok c h o _ AL C Q1 _ _ HQ) as (QJ & -> & _). rewrite EG. apply (mul_add_dead c h _ Dead gx gy u1 u2 QJ la lb); assumption.
Qed.
Lemma recover_dead c l h k x C msg r s recid verify Q : krun c (mkheap [] []) l = Ok h -> nth_error (lives l) k = Some x -> l_alive x = true -> exists_at (lives l) (l_from x) = false -> curve_with c (l_params x) = Ok C ->
  ecdsa_recover c C msg r s recid verify = Ok (Some Q) -> po_ecdsa_recover c h k msg r s recid verify = UB.
Proof.
  intros R H Al Ex W V. destruct (copy_dead c l h k x R H Al Ex) as (Dk & Dead & C' & gx & gy & W' & Q1 & Q2 & Q3 & Q4 & Q5 & EG). rewrite W in W'. injection W' as <-. set (o := object c (l_from x) (l_params x)) in *.
  assert (AL : alike3 h o (fun j => j = k)) by (intros j ->; exists o; auto 8).
  unfold po_ecdsa_recover. rewrite Dk. cbv zeta. unfold ecdsa_recover in V. cbv zeta in V. rewrite Q4, Q5 in V. destruct (out_of_range (k_n o) r s || negb (Z.land recid 3 =? recid)); [discriminate|]. destruct (negb (Z.shiftr recid 1 =? 0) && negb (compare r (k_pmn o) <? 0)); [discriminate|].
  destruct (digest_int c (k_n o) msg) as [e| | |]; try discriminate. cbn [bind] in *.
  match type of V with bind ?m _ = _ => match goal with |- bind ?m' _ = _ => assert (A : agree (rp h (fun j => j = k)) m' m) by (destruct (negb (Z.shiftr recid 1 =? 0)); eapply decompress_rp; eauto); assert (NI : forall P, m = Ok P -> P = None \/ aff_is_identity (fe_ops c (cu_p C)) P = false) end end.
  { intros P HP. assert (DC : exists X, decompress_point c C X (negb (Z.land recid 1 =? 0)) false = Ok P) by (destruct (negb (Z.shiftr recid 1 =? 0)); eauto). clear - DC. destruct DC as (X & DC). unfold decompress_point, decompress_fe, make_field_element in DC. cbn [bind] in DC.
    destruct (compute_y c C (mkfe X (Some (cu_p C))) (negb (Z.land recid 1 =? 0))) as [y| | |]; try discriminate. cbn [bind] in DC. destruct (fe_is_zero y) eqn:Zy; [left; congruence|right]. unfold make_point_fe in DC. cbn [bind] in DC. injection DC as <-. cbn [aff_is_identity o_is_zero fe_ops]. rewrite Zy. apply andb_false_r. }
  match type of V with bind ?m _ = _ => match goal with |- bind ?m' _ = _ => destruct m' as [P| | |], m as [P'| | |]; cbn [agree] in A; try contradiction; try discriminate end end. cbn [bind] in *.
  rewrite (id_rp c h _ (cu_p C) _ _ A). cbn [bind]. destruct (NI P' eq_refl) as [->|Id]; [discriminate|]. change (aff_is_identity (fe_ops c (cu_p C)) P' = false) in Id. rewrite Id in V |- *.
  match type of V with bind ?m _ = _ => match goal with |- bind ?m' _ = _ => assert (B0 : agree eq m' m) end end.
  { destruct verify; [|reflexivity]. eapply agree_bind; [eapply mul_rp; [eapply alike3_alike; exact AL|exact Q2|exact A]|]. intros n n' Hn. rewrite (id_rp c h _ (cu_p C) _ _ Hn). reflexivity. }
  match type of V with bind ?m _ = _ => match goal with |- bind ?m' _ = _ => destruct m' as [ok| | |], m as [ok'| | |]; cbn [agree] in B0; try contradiction; try discriminate end end. subst ok'. cbn [bind] in *. destruct (negb ok); [discriminate|].
  destruct (op_modinv c r (k_n o)) as [w| | |]; try discriminate. cbn [bind] in *. match type of V with bind ?m _ = _ => destruct m as [u1| | |]; try discriminate end. cbn [bind] in *. match type of V with bind ?m _ = _ => destruct m as [u2| | |]; try discriminate end. cbn [bind] in *.
  match type of V with bind ?m _ = _ => destruct m as [R'| | |] eqn:MA; try discriminate end. destruct (mul_add_rnaf _ _ _ _ _ _ MA) as (la & lb & Ha & Hb). destruct (of_affine_ok c h o _ AL C Q1 _ _ A) as (QJ & -> & _). rewrite EG. apply (mul_add_dead c h _ Dead gx gy u1 u2 QJ la lb); assumption.
Qed.
Lemma original_dead c l h k x : krun c (mkheap [] []) l = Ok h -> nth_error (lives l) k = Some x -> l_alive x = true -> exists_at (lives l) (l_from x) = false ->
  exists C, curve_with c (l_params x) = Ok C /\
  (forall q msg r s v, oc q = Some k -> live h (ox q) -> live h (oy q) -> aff_is_identity (fe_ops c (cu_p C)) (look_point h q) = false ->
     valid c (cu_n C) -> valid c r -> valid c s -> 1 <= value r < value (cu_n C) -> 1 <= value s < value (cu_n C) -> ecdsa_verify c C (look_point h q) msg r s = Ok v -> po_ecdsa_verify c h q msg r s = UB) /\
  (forall msg r s recid verify Q, ecdsa_recover c C msg r s recid verify = Ok (Some Q) -> po_ecdsa_recover c h k msg r s recid verify = UB) /\
  (forall u, valid c (cu_n C) -> valid c u -> 2 <= value u < value (cu_n C) -> jo_generate c h k u = UB).
Proof.
  intros R H Al Ex. destruct (copy_dead c l h k x R H Al Ex) as (Dk & Dead & C & gx & gy & W & Q1 & Q2 & Q3 & Q4 & Q5 & EG). exists C. split; [exact W|]. split; [|split].
  - intros q msg r s v D Lx Ly Id Vn Vr Vs Rr Rs V. eapply verify_dead; try eassumption. rewrite (range_claim c) by assumption. lia.
  - intros. eapply recover_dead; eassumption.
  - intros u Vn Vu Ru. unfold jo_generate, to_generate. rewrite Dk, <- Q4, EG. pose proof (compares1_spec c u 0 Vu ltac:(unfold int32; lia)) as M0. pose proof (compare_spec c u _ Vu Vn) as M1. unfold cmp_result in M0, M1.
    replace ((compares1 u 0 >? 0) && (compare u (cu_n C) <? 0)) with true by lia. cbn [check bind]. apply jo_mul_dead; [exact Dead|rewrite (is_one_value c u Vu); lia|rewrite (is_zero_value c u Vu); lia|lia].
Qed.

(** ** equality across copies *)
Lemma eqb_other c h P Q i j : tc P = Some i -> tc Q = Some j -> i <> j -> to_is_identity h P = Ok false -> to_is_identity h Q = Ok false ->
  ho_eqb c h P Q = Ok false /\ (forall u v, fo_sqr c h (tz P) = Ok u -> fo_sqr c h (tz Q) = Ok v -> jo_eqb c h P Q = Ok false).
Proof.
  intros D D' N I1 I2. unfold ho_eqb, jo_eqb. rewrite I1, I2, D, D'. cbn [bind same_address]. rewrite (proj2 (Nat.eqb_neq i j) N). split; [reflexivity|]. intros u v -> ->. reflexivity.
Qed.
Lemma copy_equality3 c l h k x : krun c (mkheap [] []) l = Ok h -> nth_error (lives l) k = Some x -> l_alive x = true -> exists_at (lives l) (l_from x) = true -> l_from x <> k ->
  let '(p, _, _, gx, gy, n, _) := l_params x in valid c gx -> valid c n -> 1 < value n -> 0 < value gx -> 1 < value p -> valid c p ->
  exists A G P, jo_generate c h k (of_int c 1) = Ok G /\ po_make c h k gx gy false = Ok A /\ to_of_affine c h A = Ok P /\ look3 h G = look3 h P /\ ho_eqb c h G P = Ok false /\ jo_eqb c h G P = Ok false.
Proof.
  intros R H Al Ex NE. destruct (family_known c l h k x R H Ex) as (C & W & LC & _ & _ & FM). pose proof (family_object _ _ _ _ _ _ R H FM) as Dy. assert (FK : family (lives l) (l_from x) k) by (exists x; auto). pose proof (family_object _ _ _ _ _ _ R H FK) as D.
  destruct (l_params x) as [[[[[[p a] b] gx] gy] n] cof] eqn:EP. intros Vx Vn Ln Lx Lp Vp. destruct (of_int_value c 1 (valid_room1 c gx Vx) ltac:(lia)) as ((Vo & _) & Ov). remember (of_int c 1) as o eqn:Eo.
  assert (I1 : is_one o = true) by (rewrite (is_one_value c o Vo), Ov; reflexivity).
  assert (ID : forall i, at_addr (h_curves h) i = Some (object c (l_from x) (p, a, b, gx, gy, n, cof)) -> to_of_affine c h (mkpo (Some i) (mkfo gx (Some (PCurve i))) (mkfo gy (Some (PCurve i)))) = Ok (mkto (Some i) (mkfo gx (Some (PCurve i))) (mkfo gy (Some (PCurve i))) (mkfo o (Some (PCurve i))))).
  { intros i Hi. unfold to_of_affine, po_is_identity. cbn [oc ox oy]. unfold fo_is_zero at 1. cbn [ov om]. unfold dm. cbn [om deref]. rewrite Hi. cbn [option_map object k_p bind]. destruct (is_one gx); [cbn [bind]; rewrite <- Eo; reflexivity|].
    replace (is_zero p || is_one p || is_zero gx) with false by (rewrite (is_zero_value c p Vp), (is_one_value c p Vp), (is_zero_value c gx Vx); lia). cbn [bind]. rewrite <- Eo. reflexivity. }
  set (G := mkto (Some (l_from x)) (mkfo gx (Some (PCurve (l_from x)))) (mkfo gy (Some (PCurve (l_from x)))) (mkfo o (Some (PCurve (l_from x))))). set (P := mkto (Some k) (mkfo gx (Some (PCurve k))) (mkfo gy (Some (PCurve k))) (mkfo o (Some (PCurve k)))).
  assert (IG : to_is_identity h G = Ok false) by (unfold to_is_identity, G, fo_is_zero; cbn [tc tz ov]; rewrite I1; reflexivity). assert (IP : to_is_identity h P = Ok false) by (unfold to_is_identity, P, fo_is_zero; cbn [tc tz ov]; rewrite I1; reflexivity).
  exists (mkpo (Some k) (mkfo gx (Some (PCurve k))) (mkfo gy (Some (PCurve k)))), G, P. split; [|split; [|split; [|split]]].
  - unfold jo_generate, to_generate. rewrite D. cbn [object k_n k_g]. pose proof (compares1_spec c o 0 Vo ltac:(unfold int32; lia)) as M0. pose proof (compare_spec c o n Vo Vn) as M1. unfold cmp_result in M0, M1.
    replace ((compares1 o 0 >? 0) && (compare o n <? 0)) with true by lia. cbn [check bind]. rewrite (ID _ Dy). cbn [bind]. unfold jo_mul, to_mul_cases. rewrite I1. reflexivity.
  - unfold po_make. rewrite D. cbn [object k_p]. cbn [curve_with] in W. unfold curve_make, check in W. destruct (is_valid_integer p gx) eqn:E1; [|discriminate]. cbn [bind] in W. destruct (is_valid_integer p gy) eqn:E2; [|discriminate]. reflexivity.
  - apply ID, D.
  - unfold look3, look, G, P. cbn [tc tx ty tz ov om deref]. rewrite D, Dy. reflexivity.
  - destruct (eqb_other c h G P (l_from x) k eq_refl eq_refl NE IG IP) as (A & B0). split; [exact A|]. eapply B0; unfold fo_sqr, G, P; cbn [tz ov]; rewrite I1; reflexivity.
Qed.
