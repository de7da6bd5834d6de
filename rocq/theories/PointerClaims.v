(** Proofs for C68. *)
From Coq Require Import List ZArith Bool Lia.
From Verif Require Import Outcome LoopModel WordsModel WordsSpec WordsProofs BigintModel BigintSpec BigintProofs BigintClaims NumModel NumProofs FpModel FieldOpModel EcModel EcCurveModel PointerModel PointerSpec.
Import ListNotations.
Open Scope Z_scope.

Lemma agree_bind {A B A' B'} (R : A -> B -> Prop) (S : A' -> B' -> Prop) o1 o2 f g :
  agree R o1 o2 -> (forall u v, R u v -> agree S (f u) (g v)) -> agree S (bind o1 f) (bind o2 g).
Proof. intros H K. destruct o1, o2; cbn in *; try contradiction; auto. Qed.
Lemma agree_mono {A B} (R S : A -> B -> Prop) o1 o2 : agree R o1 o2 -> (forall u v, R u v -> S u v) -> agree S o1 o2.
Proof. intros H K. destruct o1, o2; cbn in *; auto. Qed.
Lemma agree_refl {A} (o : outcome A) : agree eq o o.
Proof. destruct o; cbn; auto. Qed.

Section OP.
Variable c : cap.
Variable h : heap.
(** an element and what it stands for *)
Definition re (x : fobj) (v : fe) : Prop := live h x /\ look h x = v.
Lemma re_look x : live h x -> re x (look h x). Proof. intros H. split; [exact H|reflexivity]. Qed.
Lemma fv_re x v : re x v -> fv v = ov x. Proof. intros (_ & <-). reflexivity. Qed.
(** operations through [*pm_] *)
Lemma with_re x v f : re x v -> agree (fun r w => re r w /\ om r = om x) (with_p h x f) (with_m v f).
Proof.
  intros (L & <-). unfold with_p, dm, with_m, look. cbn [fm fv]. destruct (om x) as [q|] eqn:E; [|exact I]. destruct (deref h q) as [p|] eqn:D; [|destruct (L q E D)]. cbn [bind].
  destruct (f p) as [r| | |]; cbn [bind agree]; auto. split; [|reflexivity]. split; [intros q' H; cbn [om] in H; injection H as <-; congruence|]. unfold look. cbn [om ov]. rewrite D. reflexivity.
Qed.
Notation keeps x := (fun r w => re r w /\ om r = om x).
Lemma agree_keeps {A B} x (R : A -> B -> Prop) o1 o2 f g :
  agree (keeps x) o1 o2 -> (forall u v, re u v -> agree R (f u) (g v)) -> agree R (bind o1 f) (bind o2 g).
Proof. intros H K. eapply agree_bind; [exact H|]. intros u v (D & _). apply K, D. Qed.
Lemma add_big_re x v y : re x v -> agree (keeps x) (fo_add_big c h x y) (fe_add_big c v y).
Proof. intros H. unfold fo_add_big, fe_add_big. rewrite (fv_re _ _ H). apply with_re, H. Qed.
Lemma add_re x v y w : re x v -> re y w -> agree (keeps x) (fo_add c h x y) (fe_add c v w).
Proof. intros H K. unfold fo_add, fe_add. rewrite (fv_re _ _ K). apply add_big_re, H. Qed.
Lemma sub_re x v y w : re x v -> re y w -> agree (keeps x) (fo_sub c h x y) (fe_sub c v w).
Proof. intros H K. unfold fo_sub, fe_sub, fe_sub_big. rewrite (fv_re _ _ K), (fv_re _ _ H). apply with_re, H. Qed.
Lemma mul_re x v y w : re x v -> re y w -> agree (keeps x) (fo_mul c h x y) (fe_mul c v w).
Proof.
  intros H K. unfold fo_mul, fe_mul, fo_mul_big, fe_mul_big. rewrite (fv_re _ _ K), (fv_re _ _ H). destruct (is_one (ov x)); [apply with_re, H|]. destruct (is_one (ov y)); [split; [exact H|reflexivity]|]. apply with_re, H.
Qed.
Lemma mul_int_re k x v : re x v -> agree (keeps x) (fo_mul_int c h k x) (int_times_fe c k v).
Proof.
  intros H. unfold fo_mul_int, int_times_fe, fe_mul_int. rewrite (fv_re _ _ H). destruct (is_one (ov x)); [apply with_re, H|]. destruct (k =? 1); [split; [exact H|reflexivity]|]. apply with_re, H.
Qed.
Lemma sqr_re x v : re x v -> agree (keeps x) (fo_sqr c h x) (fe_sqr c v).
Proof. intros H. unfold fo_sqr, fe_sqr. rewrite (fv_re _ _ H). destruct (is_one (ov x)); [split; [exact H|reflexivity]|]. apply with_re, H. Qed.
Lemma sqrt_re x v : re x v -> agree (keeps x) (fo_sqrt c h x) (fe_sqrt c v).
Proof. intros H. unfold fo_sqrt, fe_sqrt. rewrite (fv_re _ _ H). destruct (is_one (ov x)); [split; [exact H|reflexivity]|]. apply with_re, H. Qed.
Lemma div_re x v y w : re x v -> re y w -> agree (keeps x) (fo_div c h x y) (fe_div c v w).
Proof. intros H K. unfold fo_div, fe_div, fe_div_big. rewrite (fv_re _ _ K), (fv_re _ _ H). destruct (is_one (ov y)); [split; [exact H|reflexivity]|]. apply with_re, H. Qed.
Lemma inv_re x v : re x v -> agree (keeps x) (fo_inv c h x) (fe_inv c v).
Proof. intros H. unfold fo_inv, fe_inv. rewrite (fv_re _ _ H). apply with_re, H. Qed.
Lemma neg_re x v : re x v -> agree (keeps x) (fo_neg c h x) (fe_neg c v).
Proof. intros H. unfold fo_neg, fe_neg. rewrite (fv_re _ _ H). apply with_re, H. Qed.
Lemma is_zero_re x v : re x v -> fo_is_zero h x = Ok (fe_is_zero v).
Proof.
  intros (L & <-). unfold fo_is_zero, fe_is_zero, dm, look. cbn [fv fm]. destruct (is_one (ov x)); [reflexivity|]. cbn [negb andb]. destruct (om x) as [q|] eqn:E; [|reflexivity].
  destruct (deref h q) as [p|] eqn:D; [reflexivity|destruct (L q E D)].
Qed.
Lemma is_valid_re x v : re x v -> fo_is_valid h x = Ok (fe_is_valid v).
Proof.
  intros (L & <-). unfold fo_is_valid, fe_is_valid, dm, look. cbn [fv fm]. destruct (om x) as [q|] eqn:E; [|reflexivity]. destruct (deref h q) as [p|] eqn:D; [reflexivity|destruct (L q E D)].
Qed.
Lemma assign_re x v w chk : re x v -> agree (keeps x) (fo_assign h x w chk) (fe_assign v w chk).
Proof.
  intros (L & <-). unfold fo_assign, fe_assign, dm, look. cbn [fv fm]. destruct (om x) as [q|] eqn:E; [|cbn; split; [split; [exact L|unfold look; rewrite E; reflexivity]|exact E]].
  destruct (deref h q) as [p|] eqn:D; [|destruct (L q E D)]. cbn [bind].
  assert (K : keeps x (mkfo w (Some q)) (mkfe w (Some p))). { split; [|rewrite E; reflexivity]. split; [intros q' H; cbn in H; injection H as <-; congruence|]. unfold look. cbn [om ov]. rewrite D. reflexivity. }
  destruct chk; cbn [negb orb]; [|exact (conj (proj1 K) eq_refl)]. unfold check. destruct (fp_is_valid w p); [exact (conj (proj1 K) eq_refl)|exact I].
Qed.
Lemma make_re v q p chk : deref h q = Some p -> agree (fun r w => re r w /\ om r = Some q) (fo_make h v q chk) (fe_make v p chk).
Proof.
  intros D. unfold fo_make, fe_make. assert (K : re (mkfo v (Some q)) (mkfe v (Some p))). { split; [intros q' H; cbn in H; injection H as <-; congruence|]. unfold look. cbn [om ov]. rewrite D. reflexivity. }
  destruct chk; [|split; [exact K|reflexivity]]. rewrite (is_valid_re _ _ K). cbn [bind fe_is_valid fm fv]. unfold check. destruct (fp_is_valid v p); [split; [exact K|reflexivity]|exact I].
Qed.

(** ** points *)
Variable k : cobj.
Variable S : nat -> Prop.
Hypothesis HS : alike h k S.
Variable p0 : bigint.
Variable E : coeffs (fe_ops c p0).
Hypothesis Ea : cv_a _ E = k_a k.
Hypothesis Eb : cv_b _ E = k_b k.
Definition rp (P : pobj) (Q : option (fe * fe)) : Prop := point_of h S P /\ look_point h P = Q.
Lemma rp_inv P Q : rp P Q -> (oc P = None /\ Q = None) \/ exists i u v, oc P = Some i /\ S i /\ Q = Some (u, v) /\ re (ox P) u /\ re (oy P) v.
Proof.
  intros ((Lx & Ly & Hi) & <-). unfold look_point. destruct (oc P) as [i|] eqn:D; [right|left; auto]. exists i, (look h (ox P)), (look h (oy P)). split; [reflexivity|]. split; [apply Hi; reflexivity|]. split; [reflexivity|]. split; apply re_look; assumption.
Qed.
Lemma rp_default : rp (po_default c) None.
Proof. split; [|reflexivity]. split; [intros q H; discriminate|]. split; [intros q H; discriminate|intros i H; discriminate]. Qed.
Lemma rp_make P i x y u v : oc P = Some i -> S i -> re x u -> re y v -> agree rp (same_curve P x y) (Ok (Some (u, v))).
Proof.
  intros D Si (Lx & Ex) (Ly & Ey). unfold same_curve. rewrite D. cbn [check bind agree]. split; [|unfold look_point; cbn [oc ox oy]; rewrite Ex, Ey; reflexivity].
  split; [exact Lx|]. split; [exact Ly|]. intros j H. cbn [oc] in H. injection H as <-. exact Si.
Qed.
Lemma curve_rp P i : oc P = Some i -> S i -> exists k', curve_of h P = Ok k' /\ k_a k' = k_a k /\ k_b k' = k_b k /\ k_n k' = k_n k.
Proof. intros D Si. unfold curve_of. rewrite D. destruct (HS i Si) as (k' & -> & _ & A & B & N). exists k'. auto. Qed.
Lemma id_rp P Q : rp P Q -> po_is_identity h P = Ok (aff_is_identity (fe_ops c p0) Q).
Proof.
  intros H. unfold po_is_identity. destruct (rp_inv _ _ H) as [(-> & ->)|(i & u & v & -> & Si & -> & Hx & Hy)]; [reflexivity|]. rewrite (is_zero_re _ _ Hx). cbn [bind]. unfold aff_is_identity. cbn [o_is_zero fe_ops].
  destruct (fe_is_zero u); [apply is_zero_re, Hy|reflexivity].
Qed.
Ltac go1 :=
  lazymatch goal with
  | |- forall _, _ => intros
  | |- agree _ (bind _ _) (bind _ _) => eapply agree_keeps
  | |- agree _ (fo_sub _ _ _ _) _ => apply sub_re; eassumption
  | |- agree _ (fo_add_big _ _ _ _) _ => apply add_big_re; eassumption
  | |- agree _ (fo_mul _ _ _ _) _ => apply mul_re; eassumption
  | |- agree _ (fo_div _ _ _ _) _ => apply div_re; eassumption
  | |- agree _ (fo_sqr _ _ _) _ => apply sqr_re; eassumption
  | |- agree _ (fo_neg _ _ _) _ => apply neg_re; eassumption
  | |- agree _ (fo_mul_int _ _ _ _) _ => apply mul_int_re; eassumption
  | |- agree _ (same_curve _ _ _) _ => eapply rp_make; eassumption
  end.
Lemma on_curve_rp P Q : rp P Q -> agree eq (po_is_on_curve c h P) (aff_is_on_curve (fe_ops c p0) E Q).
Proof.
  intros H. unfold po_is_on_curve. rewrite (id_rp _ _ H). cbn [bind]. unfold aff_is_on_curve. destruct (aff_is_identity (fe_ops c p0) Q) eqn:Id; [reflexivity|].
  destruct (rp_inv _ _ H) as [(_ & ->)|(i & u & v & D & Si & -> & Hx & Hy)]; [discriminate|]. destruct (curve_rp P i D Si) as (k' & Ck & A & B & _).
  cbn [o_sqr o_addk o_mul o_sub o_eq0 fe_ops]. rewrite Ea, Eb. rewrite Ck. cbn [bind]. rewrite A, B. repeat go1. cbn [agree]. match goal with K : re ?x ?w |- (compares1 (ov ?x) 0 =? 0) = _ => rewrite (fv_re _ _ K) end. reflexivity.
Qed.
Lemma inverted_rp P Q : rp P Q -> agree rp (po_inverted c h P) (aff_inverted (fe_ops c p0) Q).
Proof.
  intros H. unfold po_inverted. rewrite (id_rp _ _ H). cbn [bind]. unfold aff_inverted. destruct (aff_is_identity (fe_ops c p0) Q) eqn:Id; [exact H|].
  destruct (rp_inv _ _ H) as [(_ & ->)|(i & u & v & D & Si & -> & Hx & Hy)]; [discriminate|]. cbn [o_neg fe_ops]. repeat go1.
Qed.
Lemma doubled_rp P Q : rp P Q -> agree rp (po_doubled c h P) (aff_doubled (fe_ops c p0) E Q).
Proof.
  intros H. unfold po_doubled. rewrite (id_rp _ _ H). cbn [bind]. unfold aff_doubled. destruct (rp_inv _ _ H) as [(D & ->)|(i & u & v & D & Si & -> & Hx & Hy)]; [apply rp_default|].
  set (id := aff_is_identity (fe_ops c p0) (Some (u, v))). rewrite (is_zero_re _ _ Hy).
  replace (let* b := if id then Ok true else Ok (fe_is_zero v) in _) with
    (if id || fe_is_zero v then Ok (po_default c) else
       let* x2 := fo_sqr c h (ox P) in let* n := fo_mul_int c h 3 x2 in let* k := curve_of h P in let* n := fo_add_big c h n (k_a k) in
       let* d := fo_mul_int c h 2 (oy P) in let* s := fo_div c h n d in let* s2 := fo_sqr c h s in let* dx := fo_mul_int c h 2 (ox P) in
       let* x2 := fo_sub c h s2 dx in let* t := fo_sub c h (ox P) x2 in let* t := fo_mul c h s t in let* y2 := fo_sub c h t (oy P) in same_curve P x2 y2) by (destruct id, (fe_is_zero v); reflexivity).
  cbn [o_is_zero fe_ops]. destruct (id || fe_is_zero v); [apply rp_default|].
  destruct (curve_rp P i D Si) as (k' & Ck & A & _). cbn [o_sqr o_addk o_mul o_sub o_muli o_div]. rewrite Ea. rewrite Ck. cbn [bind]. rewrite A. repeat go1.
Qed.
Lemma add_rp P Q P' Q' : rp P Q -> rp P' Q' -> agree rp (po_add c h P P') (aff_add (fe_ops c p0) E Q Q').
Proof.
  intros H H'. unfold po_add. rewrite (id_rp _ _ H). cbn [bind]. unfold aff_add. destruct (aff_is_identity (fe_ops c p0) Q) eqn:Id; [exact H'|].
  rewrite (id_rp _ _ H'). cbn [bind]. destruct (aff_is_identity (fe_ops c p0) Q') eqn:Id'; [exact H|]. pose proof (doubled_rp _ _ H) as DB.
  destruct (rp_inv _ _ H) as [(_ & ->)|(i & u & v & D & Si & -> & Hx & Hy)]; [discriminate|]. destruct (rp_inv _ _ H') as [(_ & ->)|(i' & u' & v' & D' & Si' & -> & Hx' & Hy')]; [discriminate|].
  cbn [o_sub o_is_zero o_eqb fe_ops]. eapply agree_bind; [apply sub_re; eassumption|]. intros s w (Hs & _). rewrite (is_zero_re _ _ Hs). cbn [bind]. destruct (fe_is_zero w).
  - unfold fe_eqb. rewrite (fv_re _ _ Hy), (fv_re _ _ Hy'). destruct (compare (ov (oy P)) (ov (oy P')) =? 0); [exact DB|apply rp_default].
  - cbn [o_sqr o_mul o_div]. repeat go1.
Qed.
Lemma sub_rp P Q P' Q' : rp P Q -> rp P' Q' -> agree rp (po_sub c h P P') (aff_sub (fe_ops c p0) E Q Q').
Proof. intros H H'. unfold po_sub, aff_sub. eapply agree_bind; [apply inverted_rp, H'|]. intros. apply add_rp; assumption. Qed.

(** the ladder *)
Definition rl (a : bigint * pobj * pobj) (b : bigint * option (fe * fe) * option (fe * fe)) : Prop :=
  fst (fst a) = fst (fst b) /\ rp (snd (fst a)) (snd (fst b)) /\ rp (snd a) (snd b).
Definition ragree (x : loopres (bigint * pobj * pobj) (outcome pobj)) (y : loopres (bigint * option (fe * fe) * option (fe * fe)) (outcome (option (fe * fe)))) : Prop :=
  match x, y with Next a, Next b => rl a b | Done a, Done b => agree rp a b | _, _ => False end.
Lemma step_rl a b : rl a b -> ragree (ladder_step (po_add c h) (po_doubled c h) a) (ladder_step (aff_add (fe_ops c p0) E) (aff_doubled (fe_ops c p0) E) b).
Proof.
  destruct a as [[s r] t], b as [[s' r'] t']. intros (Es & Hr & Ht). cbn [fst snd] in *. subst s'. unfold ladder_step. destruct (compares1 s 0 =? 0); [exact Hr|].
  match goal with |- ragree (match ?f with _ => _ end) (match ?g with _ => _ end) => assert (A : agree (fun a b => rp (fst a) (fst b) /\ rp (snd a) (snd b)) f g) end.
  { eapply agree_bind with (R := rp); [destruct (is_odd s); [apply add_rp; assumption|exact Hr]|]. intros r1 r1' Hr1. eapply agree_bind with (R := rp); [apply doubled_rp, Ht|]. intros t1 t1' Ht1. cbn. auto. }
  match goal with |- ragree (match ?f with _ => _ end) (match ?g with _ => _ end) => destruct f as [[x y]| | |], g as [[x' y']| | |] end; cbn in A; try contradiction; cbn; auto. split; [reflexivity|exact A].
Qed.
Lemma loop2_rl n a b : rl a b -> ragree (loop2 n (ladder_step (po_add c h) (po_doubled c h)) a) (loop2 n (ladder_step (aff_add (fe_ops c p0) E) (aff_doubled (fe_ops c p0) E)) b).
Proof.
  revert a b. induction n as [|n IH]; intros a b H; cbn [loop2]; [apply step_rl, H|]. specialize (IH a b H) as I1. match type of I1 with ragree ?f ?g => destruct f as [a'|r], g as [b'|r'] end; cbn in I1; try contradiction; [apply IH, I1|exact I1].
Qed.
Lemma loop_rp P Q s : rp P Q -> agree rp (po_loop c h P s) (aff_loop (fe_ops c p0) E Q s).
Proof.
  intros H. unfold po_loop, aff_loop, run_loop. pose proof (loop2_rl (32 * size s + 1) (s, po_default c, P) (s, None, Q)) as L. cbv beta in L. specialize (L (conj eq_refl (conj rp_default H))).
  match goal with |- agree _ (match ?f with _ => _ end) (match ?g with _ => _ end) => change (ragree f g) in L; destruct f, g end; cbn in L; try contradiction; [exact I|exact L].
Qed.
Lemma mul_rp P Q s : rp P Q -> agree rp (po_mul c h P s) (aff_mul (fe_ops c p0) E Q s).
Proof.
  intros H. unfold po_mul, aff_mul, mul_cases. rewrite (id_rp _ _ H).
  replace (let* b := if is_one s then Ok true else Ok (aff_is_identity (fe_ops c p0) Q) in _) with
    (if is_one s || aff_is_identity (fe_ops c p0) Q then Ok P else if is_zero s then Ok (po_default c) else if compares1 s 0 <? 0 then
       let* N := po_inverted c h P in let* b := if is_one (op_neg s) then Ok true else po_is_identity h N in
       if b then Ok N else if is_zero (op_neg s) then Ok (po_default c) else po_loop c h N (op_neg s) else po_loop c h P s) by (destruct (is_one s), (aff_is_identity (fe_ops c p0) Q); reflexivity).
  destruct (is_one s || aff_is_identity (fe_ops c p0) Q); [exact H|]. destruct (is_zero s); [apply rp_default|]. destruct (compares1 s 0 <? 0); [|apply loop_rp, H].
  eapply agree_bind; [apply inverted_rp, H|]. intros N N' HN. cbv zeta. rewrite (id_rp _ _ HN). destruct (is_one (op_neg s)); cbn [bind orb]; [exact HN|]. destruct (aff_is_identity (fe_ops c p0) N'); [exact HN|].
  destruct (is_zero (op_neg s)); [apply rp_default|apply loop_rp, HN].
Qed.
Lemma is_valid_rp P Q : rp P Q -> agree eq (po_is_valid c h P) (aff_is_valid (fe_ops c p0) E (k_n k) Q).
Proof.
  intros H. unfold po_is_valid, aff_is_valid, is_valid_with. rewrite (id_rp _ _ H). cbn [bind]. destruct (aff_is_identity (fe_ops c p0) Q) eqn:Id; [reflexivity|].
  eapply agree_bind; [apply on_curve_rp, H|]. intros o ? <-. destruct (negb o); [reflexivity|].
  destruct (rp_inv _ _ H) as [(_ & ->)|(i & u & v & D & Si & -> & Hx & Hy)]; [discriminate|]. destruct (curve_rp P i D Si) as (k' & Ck & _ & _ & N). rewrite Ck. cbn [bind]. rewrite N.
  eapply agree_bind; [apply mul_rp, H|]. intros R R' HR. rewrite (id_rp _ _ HR). reflexivity.
Qed.
End OP.

(** * programs *)
Lemma at_app {A} (l m : list (option A)) i v : at_addr l i = Some v -> at_addr (l ++ m) i = Some v.
Proof. unfold at_addr. intros H. destruct (nth_error l i) as [o|] eqn:E; [|discriminate]. rewrite nth_error_app1 by (apply nth_error_Some; congruence). rewrite E. exact H. Qed.
Lemma put_other {A} (l : list A) i j v : i <> j -> nth_error (put l i v) j = nth_error l j.
Proof. revert i j. induction l as [|x l IH]; intros [|i] [|j] H; cbn; auto; congruence. Qed.
Lemma put_same {A} (l : list A) i v x : nth_error l i = Some x -> nth_error (put l i v) i = Some v.
Proof. revert i. induction l as [|y l IH]; intros [|i] H; cbn in *; try discriminate; auto. Qed.
Lemma put_length {A} (l : list A) i v : length (put l i v) = length l.
Proof. revert i. induction l as [|y l IH]; intros [|i]; cbn; auto. Qed.
Lemma Forall2_nth {A B} (R : A -> B -> Prop) l m : Forall2 R l m -> forall j, match nth_error l j, nth_error m j with Some x, Some y => R x y | None, None => True | _, _ => False end.
Proof. induction 1 as [|x y l m H _ IH]; intros [|j]; cbn; auto. apply IH. Qed.
Lemma Forall2_put {A B} (R : A -> B -> Prop) l m j x y : Forall2 R l m -> R x y -> Forall2 R (put l j x) (put m j y).
Proof. intros H K. revert j. induction H as [|u v l m H F IH]; intros [|j]; cbn; constructor; auto. Qed.

Section PROG.
Variable c : cap.
(** an element of the variable i, and what it stands for *)
Definition el (h : heap) (x : fobj) (w : fe * nat) : Prop := re h x (fst w) /\ om x = Some (PInt (snd w)).
Definition rs (ps : list nat) (s : fstate) (v : vstate) : Prop :=
  h_ints (f_heap s) = v_ints v /\ exists ws, v_els v = map fst ws /\ ps = map snd ws /\ Forall2 (el (f_heap s)) (f_els s) ws.
Lemma el_keep h h' x w : (forall v, at_addr (h_ints h) (snd w) = Some v -> at_addr (h_ints h') (snd w) = Some v) -> el h x w -> el h' x w.
Proof.
  intros K ((L & E) & M). split; [|exact M]. assert (D : exists p, at_addr (h_ints h) (snd w) = Some p). { specialize (L _ M). cbn [deref] in L. destruct (at_addr (h_ints h) (snd w)) as [p|]; [eauto|congruence]. }
  destruct D as (p & D). split.
  - intros q Q. rewrite M in Q. injection Q as <-. cbn [deref]. rewrite (K p D). discriminate.
  - rewrite <- E. unfold look. rewrite M. cbn [deref]. rewrite (K p D), D. reflexivity.
Qed.
Lemma els_keep h h' els ws : (forall i v, In i (map snd ws) -> at_addr (h_ints h) i = Some v -> at_addr (h_ints h') i = Some v) -> Forall2 (el h) els ws -> Forall2 (el h') els ws.
Proof.
  intros K F. induction F as [|x w els ws H F IH]; constructor.
  - eapply el_keep; [|exact H]. intros v. apply K. left. reflexivity.
  - apply IH. intros i v J. apply K. right. exact J.
Qed.
Lemma refers_in ps i : refers ps i = false -> ~ In i ps.
Proof. unfold refers. intros H J. assert (E : existsb (Nat.eqb i) ps = true); [|congruence]. apply existsb_exists. exists i. split; [exact J|apply Nat.eqb_refl]. Qed.
Lemma bin_re o h x v y w : re h x v -> re h y w -> agree (fun r z => re h r z /\ om r = om x) (run_bin c h o x y) (val_bin c o v w).
Proof. intros H K. destruct o; [apply add_re|apply sub_re|apply mul_re|apply div_re]; assumption. Qed.
Lemma un_re o h x v : re h x v -> agree (fun r z => re h r z /\ om r = om x) (run_un c h o x) (val_un c o v).
Proof. intros H. destruct o; [apply neg_re|apply inv_re|apply sqr_re|apply sqrt_re]; assumption. Qed.
Lemma push_rs ps h els ints ws x v i : h_ints h = ints -> ps = map snd ws -> Forall2 (el h) els ws -> re h x v -> om x = Some (PInt i) ->
  rs (ps ++ [i]) (mkfs h (els ++ [x])) (mkvs ints (map fst ws ++ [v])).
Proof.
  intros Ei -> F H M. split; [exact Ei|]. exists (ws ++ [(v, i)]). cbn [v_els f_els f_heap]. rewrite !map_app. split; [reflexivity|]. split; [reflexivity|]. apply Forall2_app; [exact F|]. constructor; [|constructor]. split; assumption.
Qed.
Lemma elem_el h els ws j : Forall2 (el h) els ws -> agree (fun x w => el h x w /\ nth_error ws j = Some w) (elem_at els j) (elem_at ws j).
Proof. intros F. pose proof (Forall2_nth _ _ _ F j) as H. unfold elem_at. destruct (nth_error els j), (nth_error ws j); cbn; try contradiction; auto. Qed.
Lemma elem_map {A B} (f : A -> B) l j : elem_at (map f l) j = bind (elem_at l j) (fun x => Ok (f x)).
Proof. unfold elem_at. rewrite nth_error_map. destruct (nth_error l j); reflexivity. Qed.
Lemma nth_snd (ws : list (fe * nat)) j w : nth_error ws j = Some w -> nth j (map snd ws) O = snd w.
Proof. intros H. apply nth_error_nth. rewrite nth_error_map, H. reflexivity. Qed.
Lemma bind_assoc {A B D} (m : outcome A) (f : A -> outcome B) (g : B -> outcome D) : bind (bind m f) g = bind m (fun x => bind (f x) g).
Proof. destruct m; reflexivity. Qed.
Lemma map_put {A B} (f : A -> B) l j v : map f (put l j v) = put (map f l) j (f v).
Proof. revert j. induction l as [|x l IH]; intros [|j]; cbn; auto. f_equal. apply IH. Qed.
Lemma put_snd (ws : list (fe * nat)) j w : nth_error ws j = Some w -> map snd ws = put (map snd ws) j (snd w).
Proof. revert j. induction ws as [|u ws IH]; intros [|j] N; cbn in *; try discriminate; [injection N as ->; reflexivity|]. f_equal. apply IH, N. Qed.
(** the variables after a command *)
Definition next_refs (ps : list nat) (m : fcmd) : list nat :=
  match m with
  | FElem _ i _ => ps ++ [i] | FCopy j | FBin _ j _ | FUn _ j => ps ++ [nth j ps O] | FStore j k => put ps j (nth k ps O) | _ => ps
  end.
Definition allowed (ps : list nat) (m : fcmd) : bool := match m with FSet i _ | FKill i => negb (refers ps i) | FTemp _ _ => false | _ => true end.
Lemma stable_cons ps m l : stable ps (m :: l) = true -> allowed ps m = true /\ stable (next_refs ps m) l = true.
Proof. destruct m; cbn; intros H; try (apply andb_true_iff in H as (H1 & H2)); auto. discriminate. Qed.
Lemma fstep_rs ps s v m : rs ps s v -> allowed ps m = true -> agree (rs (next_refs ps m)) (fstep c s m) (vstep c v m).
Proof.
  destruct s as [h els], v as [ints fes]. intros (Ei & ws & Ef & Ep & F) Al. cbn [f_heap f_els v_ints v_els] in *. subst fes ps.
  destruct m as [v|i v|i|v i chk|v p|j|j k|o j k|o j|j v chk]; cbn [fstep vstep f_heap f_els v_ints v_els next_refs allowed] in *.
  - cbn [agree]. split; [cbn; rewrite Ei; reflexivity|]. exists ws. split; [reflexivity|]. split; [reflexivity|]. cbn [f_els f_heap]. eapply els_keep; [|exact F]. intros i w _ D. cbn. apply at_app, D.
  - rewrite Ei. destruct (at_addr ints i) eqn:D; [|exact I]. cbn [agree]. split; [cbn; reflexivity|]. exists ws. split; [reflexivity|]. split; [reflexivity|]. cbn [f_els f_heap]. eapply els_keep; [|exact F]. intros j w J Dj. cbn [h_ints set_ints]. unfold at_addr in *. rewrite put_other; [rewrite <- Ei; exact Dj|].
    intros ->. apply negb_true_iff in Al. apply (refers_in _ _ Al), J.
  - rewrite Ei. destruct (at_addr ints i) eqn:D; [|exact I]. cbn [agree]. split; [cbn; reflexivity|]. exists ws. split; [reflexivity|]. split; [reflexivity|]. cbn [f_els f_heap]. eapply els_keep; [|exact F]. intros j w J Dj. cbn [h_ints set_ints]. unfold at_addr in *. rewrite put_other; [rewrite <- Ei; exact Dj|].
    intros ->. apply negb_true_iff in Al. apply (refers_in _ _ Al), J.
  - rewrite Ei. destruct (at_addr ints i) as [p|] eqn:D; [|exact I]. eapply agree_bind; [apply (make_re h v (PInt i) p chk); cbn [deref]; rewrite Ei; exact D|]. intros x w (H & M). cbn [agree]. apply push_rs; auto.
  - discriminate.
  - rewrite elem_map, bind_assoc. eapply agree_bind; [apply elem_el, F|]. intros x w ((H & M) & N). cbn [bind agree]. rewrite (nth_snd _ _ _ N). apply push_rs; auto.
  - rewrite !elem_map, bind_assoc. eapply agree_bind; [apply elem_el, F|]. intros x0 w0 _. cbn [bind]. rewrite bind_assoc. eapply agree_bind; [apply elem_el, F|]. intros x w (H & N). cbn [bind agree]. rewrite (nth_snd _ _ _ N).
    split; [exact Ei|]. exists (put ws j w). cbn [v_els f_els f_heap]. rewrite !map_put. split; [reflexivity|]. split; [reflexivity|]. apply Forall2_put; assumption.
  - rewrite !elem_map, bind_assoc. eapply agree_bind; [apply elem_el, F|]. intros x w ((H & M) & N). cbn [bind]. rewrite bind_assoc. eapply agree_bind; [apply elem_el, F|]. intros y w' ((H' & _) & _). cbn [bind].
    eapply agree_bind; [apply bin_re; eassumption|]. intros r z (Hr & Mr). cbn [agree]. rewrite (nth_snd _ _ _ N). apply push_rs; auto. rewrite Mr. exact M.
  - rewrite elem_map, bind_assoc. eapply agree_bind; [apply elem_el, F|]. intros x w ((H & M) & N). cbn [bind]. eapply agree_bind; [apply un_re; eassumption|]. intros r z (Hr & Mr). cbn [agree]. rewrite (nth_snd _ _ _ N). apply push_rs; auto. rewrite Mr. exact M.
  - rewrite elem_map, bind_assoc. eapply agree_bind; [apply elem_el, F|]. intros x w ((H & M) & N). cbn [bind]. eapply agree_bind; [apply assign_re; eassumption|]. intros r z (Hr & Mr). cbn [agree].
    split; [exact Ei|]. exists (put ws j (z, snd w)). cbn [v_els f_els f_heap]. rewrite !map_put. cbn [fst snd]. split; [reflexivity|]. split; [|apply Forall2_put; [exact F|]; split; [exact Hr|cbn [snd]; rewrite Mr; exact M]].
    apply put_snd, N.
Qed.
Lemma run_rs l : forall ps s v, rs ps s v -> stable ps l = true -> agree (fun s v => exists ps, rs ps s v) (frun c s l) (vrun c v l).
Proof.
  induction l as [|m l IH]; intros ps s v H St; cbn [frun vrun]; [exists ps; exact H|]. destruct (stable_cons _ _ _ St) as (A & St'). eapply agree_bind; [apply fstep_rs; eassumption|]. intros s' v' H'. apply (IH _ _ _ H' St').
Qed.
Lemma programs_claim l : stable [] l = true -> agree (fun s v => h_ints (f_heap s) = v_ints v /\ map (look (f_heap s)) (f_els s) = v_els v) (frun c fstart l) (vrun c vstart l).
Proof.
  intros H. eapply agree_mono; [apply (run_rs l []); [|exact H]|].
  - split; [reflexivity|]. exists []. split; [reflexivity|]. split; [reflexivity|constructor].
  - intros s v (ps & Ei & ws & -> & _ & F). split; [exact Ei|]. clear Ei. induction F as [|x w els ws' ((_ & E) & _) F IH]; [reflexivity|]. cbn. rewrite E, IH. reflexivity.
Qed.
End PROG.

(** an element of a temporary *)
Lemma temporary_ub c v p : 
  (forall o, frun c fstart [FTemp v p; FUn Uneg 0] = UB /\ frun c fstart [FTemp v p; FUn Uinv 0] = UB /\ (o <> Bdiv -> is_one v = false -> frun c fstart [FTemp v p; FBin o 0 0] = UB)) /\
  frun c fstart [FTemp v p; FBin Badd 0 0] = UB /\ frun c fstart [FTemp v p; FBin Bsub 0 0] = UB.
Proof.
  split; [|split; reflexivity]. intros o. split; [reflexivity|]. split; [reflexivity|]. intros Ho E. destruct o; [reflexivity|reflexivity| |contradiction]. cbn. unfold fo_mul, fo_mul_big. cbn. rewrite E. reflexivity.
Qed.

(** * curve objects *)
(** the object a constructor at address [r] makes *)
Definition object (c : cap) (r : nat) (ps : bigint * bigint * bigint * bigint * bigint * bigint * Z) : cobj :=
  let '(p, a, b, gx, gy, n, cof) := ps in
  mkco p a b (mkpo (Some r) (mkfo gx (Some (PCurve r))) (mkfo gy (Some (PCurve r)))) n cof (compare a (subs1 c false (zero c) p 3) =? 0) (is_zero a) (op_sub c p n).
Definition known (c : cap) (ls : list life) (h : heap) : Prop :=
  length (h_curves h) = length ls /\
  forall k x, nth_error ls k = Some x ->
    nth_error (h_curves h) k = Some (if l_alive x then Some (object c (l_from x) (l_params x)) else None) /\
    (exists C, curve_with c (l_params x) = Ok C) /\
    (exists y, nth_error ls (l_from x) = Some y /\ l_from y = l_from x /\ l_params y = l_params x).
Lemma nth_snoc {A} (l : list A) x k y : nth_error (l ++ [x]) k = Some y -> (nth_error l k = Some y /\ (k < length l)%nat) \/ (k = length l /\ y = x).
Proof.
  intros H. destruct (Nat.lt_ge_cases k (length l)) as [L|L]; [left; rewrite nth_error_app1 in H by exact L; auto|right]. rewrite nth_error_app2 in H by exact L.
  destruct (k - length l)%nat as [|m] eqn:E; [|destruct m; discriminate]. injection H as <-. split; [lia|reflexivity].
Qed.
Lemma nth_last {A} (l : list A) x : nth_error (l ++ [x]) (length l) = Some x.
Proof. rewrite nth_error_app2, Nat.sub_diag by lia. reflexivity. Qed.
Lemma nth_old {A} (l m : list A) k x : nth_error l k = Some x -> nth_error (l ++ m) k = Some x.
Proof. intros H. rewrite nth_error_app1; [exact H|]. apply nth_error_Some. congruence. Qed.
Lemma kstep_known c ls h m h' : known c ls h -> kstep c h m = Ok h' -> known c (live_on ls m) h'.
Proof.
  intros (Len & K) St. destruct m as [p a b gx gy n cof|i|i]; cbn [kstep live_on] in *.
  - unfold new_curve in St. unfold check in St. destruct (is_valid_integer p gx) eqn:Vx; [|discriminate]. cbn [bind] in St. destruct (is_valid_integer p gy) eqn:Vy; [|discriminate]. cbn [bind] in St. injection St as <-. split; [cbn; rewrite !app_length, Len; reflexivity|].
    intros k x H. cbn [h_curves]. destruct (nth_snoc _ _ _ _ H) as [(H0 & L)|(-> & ->)].
    + destruct (K k x H0) as (E & W & y & Y & F & P). split; [apply nth_old, E|]. split; [exact W|]. exists y. split; [apply nth_old, Y|]. auto.
    + cbn [l_alive l_from l_params]. split; [rewrite <- Len; apply nth_last|]. split.
      * eexists. cbn [curve_with]. unfold curve_make, make_field_element, check. rewrite Vx, Vy. cbn [bind]. reflexivity.
      * eexists. split; [apply nth_last|]. auto.
  - unfold copy_curve, at_addr in St. destruct (nth_error (h_curves h) i) as [[k0|]|] eqn:E0; try discriminate. injection St as <-.
    destruct (nth_error ls i) as [x|] eqn:Ei; [|apply nth_error_None in Ei; rewrite <- Len in Ei; apply nth_error_None in Ei; congruence].
    destruct (K i x Ei) as (E1 & W1 & y1 & Y1 & F1 & P1). rewrite E1 in E0. destruct (l_alive x); [|discriminate]. injection E0 as <-.
    split; [cbn; rewrite !app_length, Len; reflexivity|]. intros k z H. cbn [h_curves]. destruct (nth_snoc _ _ _ _ H) as [(H0 & L)|(-> & ->)].
    + destruct (K k z H0) as (E & W & y & Y & F & P). split; [apply nth_old, E|]. split; [exact W|]. exists y. split; [apply nth_old, Y|]. auto.
    + cbn [l_alive l_from l_params]. split; [rewrite <- Len; apply nth_last|]. split; [exact W1|]. exists y1. split; [apply nth_old, Y1|]. auto.
  - injection St as <-. unfold kill_curve. destruct (nth_error ls i) as [x|] eqn:Ei.
    + destruct (K i x Ei) as (E1 & W1 & y1 & Y1 & F1 & P1). split; [cbn; rewrite !put_length; exact Len|]. intros k z H. cbn [h_curves].
      assert (FR : forall r y, nth_error ls r = Some y -> exists y', nth_error (put ls i (mklife (l_from x) false (l_params x))) r = Some y' /\ l_from y' = l_from y /\ l_params y' = l_params y).
      { intros r y Hr. destruct (Nat.eq_dec i r) as [->|N]; [|exists y; rewrite put_other by exact N; auto]. rewrite (put_same _ _ _ _ Hr). rewrite Ei in Hr. injection Hr as <-. eexists. split; [reflexivity|]. auto. }
      destruct (Nat.eq_dec i k) as [->|N].
      * rewrite (put_same _ _ _ _ Ei) in H. injection H as <-. cbn [l_alive l_from l_params]. split; [apply (put_same _ _ _ _ E1)|]. split; [exact W1|]. destruct (FR _ _ Y1) as (y' & Y' & A & B). exists y'. split; [exact Y'|]. split; congruence.
      * rewrite put_other in H by exact N. destruct (K k z H) as (E & W & y & Y & F & P). split; [rewrite put_other by exact N; exact E|]. split; [exact W|]. destruct (FR _ _ Y) as (y' & Y' & A & B). exists y'. split; [exact Y'|]. split; congruence.
    + apply nth_error_None in Ei. rewrite <- Len in Ei.
      assert (PN : forall (l : list (option cobj)) j, (length l <= j)%nat -> put l j None = l) by (induction l as [|u l IH]; intros [|j] L; cbn in *; try lia; auto; f_equal; apply IH; lia).
      split; [cbn; rewrite put_length; exact Len|]. cbn [h_curves]. rewrite PN by exact Ei. exact K.
Qed.
Lemma krun_known c l : forall ls h h', known c ls h -> krun c h l = Ok h' -> known c (fold_left live_on l ls) h'.
Proof.
  induction l as [|m l IH]; intros ls h h' K R; cbn [krun fold_left] in *; [injection R as <-; exact K|]. destruct (kstep c h m) as [h1| | |] eqn:E; try discriminate. cbn [bind] in R. eapply IH; [eapply kstep_known; eassumption|exact R].
Qed.
Lemma known_start c : known c [] (mkheap [] []).
Proof. split; [reflexivity|]. intros [|k] x H; discriminate. Qed.
(** a curve object and the curve with its parameters, while the original exists *)
Lemma object_curve c h r ps C : at_addr (h_curves h) r = Some (object c r ps) -> curve_with c ps = Ok C -> look_curve h (object c r ps) = C.
Proof.
  destruct ps as [[[[[[p a] b] gx] gy] n] cof]. intros D W. cbn [curve_with] in W. unfold curve_make, make_field_element, check in W. destruct (is_valid_integer p gx); [|discriminate]. cbn [bind] in W. destruct (is_valid_integer p gy); [|discriminate]. cbn [bind] in W. injection W as <-.
  unfold look_curve, object. cbn [k_p k_a k_b k_g k_n k_h k_m3 k_z k_pmn]. unfold look_point, look. cbn [oc ox oy ov om deref]. rewrite D. reflexivity.
Qed.
Lemma known_at c ls h k x : known c ls h -> nth_error ls k = Some x -> at_addr (h_curves h) k = if l_alive x then Some (object c (l_from x) (l_params x)) else None.
Proof. intros (_ & K) H. unfold at_addr. rewrite (proj1 (K k x H)). destruct (l_alive x); reflexivity. Qed.
Lemma known_origin c ls h x y k : known c ls h -> nth_error ls k = Some x -> nth_error ls (l_from x) = Some y -> l_from y = l_from x /\ l_params y = l_params x.
Proof. intros (_ & K) H Y. destruct (K k x H) as (_ & _ & y' & Y' & F). rewrite Y in Y'. injection Y' as <-. exact F. Qed.

(** generating points with any curve object whose original exists *)
Lemma generate_known c l h k x : krun c (mkheap [] []) l = Ok h -> nth_error (lives l) k = Some x -> l_alive x = true -> exists_at (lives l) (l_from x) = true ->
  exists C, curve_with c (l_params x) = Ok C /\ look_curve h (object c (l_from x) (l_params x)) = C /\ at_addr (h_curves h) k = Some (object c (l_from x) (l_params x)) /\
    (forall s, agree (fun P Q => oc P = None \/ oc P = Some (l_from x)) (po_generate c h k s) (generate_point c C s)) /\
    (forall s, agree (fun P Q => look_point h P = Q) (po_generate c h k s) (generate_point c C s)) /\
    (forall u v verify, agree (fun P Q => look_point h P = Q /\ oc P = Some k) (po_make c h k u v verify) (make_point c C u v verify)).
Proof.
  intros R H Al Ex. pose proof (krun_known c l [] _ h (known_start c) R) as K. change (fold_left live_on l []) with (lives l) in K.
  pose proof (known_at _ _ _ _ _ K H) as D. rewrite Al in D. unfold exists_at in Ex. destruct (nth_error (lives l) (l_from x)) as [y|] eqn:Y; [|discriminate].
  pose proof (known_at _ _ _ _ _ K Y) as Dy. rewrite Ex in Dy. destruct (known_origin _ _ _ _ _ _ K H Y) as (F & P). rewrite F, P in Dy.
  destruct K as (Len & K). destruct (K k x H) as (_ & (C & W) & _). exists C. pose proof (object_curve c h _ _ C Dy W) as LC. split; [exact W|]. split; [exact LC|]. split; [exact D|].
  set (o := object c (l_from x) (l_params x)) in *.
  assert (Q1 : k_p o = cu_p C) by (rewrite <- LC; reflexivity). assert (Q2 : k_a o = cu_a C) by (rewrite <- LC; reflexivity). assert (Q3 : k_b o = cu_b C) by (rewrite <- LC; reflexivity). assert (Q4 : k_n o = cu_n C) by (rewrite <- LC; reflexivity).
  assert (AL : forall i, at_addr (h_curves h) i = Some o -> alike h o (fun j => j = i)). { intros i Hi j ->. exists o. auto. }
  assert (OG : oc (k_g o) = Some (l_from x) /\ om (ox (k_g o)) = Some (PCurve (l_from x)) /\ om (oy (k_g o)) = Some (PCurve (l_from x))). { unfold o, object. destruct (l_params x) as [[[[[[p a] b] gx] gy] n] cof]. auto. }
  destruct OG as (O1 & O2 & O3).
  assert (G : rp h (fun j => j = l_from x) (k_g o) (cu_g C)).
  { split; [|rewrite <- LC; reflexivity]. split; [intros q Hq; rewrite O2 in Hq; injection Hq as <-; cbn; rewrite Dy; discriminate|]. split; [intros q Hq; rewrite O3 in Hq; injection Hq as <-; cbn; rewrite Dy; discriminate|]. intros i Hi. rewrite O1 in Hi. injection Hi as <-. reflexivity. }
  assert (GG : forall s, agree (rp h (fun j => j = l_from x)) (po_generate c h k s) (generate_point c C s)).
  { intros s. unfold po_generate, generate_point. rewrite D, Q4. eapply agree_bind; [apply agree_refl|]. intros _ _ _. eapply mul_rp; [apply AL, Dy|symmetry; exact Q2|exact G]. }
  split; [|split].
  - intros s. eapply agree_mono; [apply GG|]. intros P0 Q0 ((_ & _ & I0) & _). destruct (oc P0) as [i|]; [right; f_equal; apply I0; reflexivity|left; reflexivity].
  - intros s. eapply agree_mono; [apply GG|]. intros P0 Q0 (_ & E0). exact E0.
  - intros u v verify. unfold po_make, make_point. rewrite D, Q1. eapply agree_bind; [apply agree_refl|]. intros _ _ _. eapply agree_bind; [apply agree_refl|]. intros _ _ _. unfold make_field_element. cbn [bind]. unfold make_point_fe.
    set (P0 := mkpo (Some k) (mkfo u (Some (PCurve k))) (mkfo v (Some (PCurve k)))).
    assert (E0 : look_point h P0 = Some (mkfe u (Some (cu_p C)), mkfe v (Some (cu_p C)))). { unfold P0, look_point, look. cbn [oc ox oy ov om deref]. rewrite D. cbn [option_map]. rewrite Q1. reflexivity. }
    assert (GP : rp h (fun j => j = k) P0 (Some (mkfe u (Some (cu_p C)), mkfe v (Some (cu_p C))))).
    { split; [|exact E0]. split; [intros q Hq; cbn in Hq; injection Hq as <-; cbn; rewrite D; discriminate|]. split; [intros q Hq; cbn in Hq; injection Hq as <-; cbn; rewrite D; discriminate|]. intros i Hi. cbn in Hi. injection Hi as <-. reflexivity. }
    eapply agree_bind with (R := fun _ _ => True).
    + destruct verify; [|exact I]. eapply agree_bind with (R := eq).
      * rewrite <- Q4. eapply is_valid_rp; [apply AL, D|symmetry; exact Q2|symmetry; exact Q3|exact GP].
      * intros b ? <-. eapply agree_mono; [apply agree_refl|auto].
    + intros _ _ _. cbn [agree]. split; [exact E0|reflexivity].
Qed.

(** ** when the original is gone *)
Lemma with_p_dead h x f : match om x with None => True | Some q => deref h q = None end -> with_p h x f = UB.
Proof. intros D. unfold with_p, dm. destruct (om x) as [q|]; [rewrite D|]; reflexivity. Qed.
Lemma zero_dead h x q : om x = Some q -> deref h q = None -> is_one (ov x) = false -> fo_is_zero h x = UB.
Proof. intros M D E. unfold fo_is_zero, dm. rewrite E, M, D. reflexivity. Qed.
Lemma mul_int_dead c h k x q : om x = Some q -> deref h q = None -> k <> 1 -> fo_mul_int c h k x = UB.
Proof. intros M D E. unfold fo_mul_int. rewrite !with_p_dead by (rewrite M; exact D). rewrite (proj2 (Z.eqb_neq k 1) E). destruct (is_one (ov x)); reflexivity. Qed.
Lemma doubled_dead c h P i q r : oc P = Some i -> om (ox P) = Some q -> om (oy P) = Some r -> deref h q = None -> deref h r = None -> po_doubled c h P = UB.
Proof.
  intros O M N D D'. unfold po_doubled, po_is_identity. rewrite O. destruct (is_one (ov (ox P))) eqn:E1.
  - unfold fo_is_zero at 1. rewrite E1. cbn [bind]. destruct (is_one (ov (oy P))) eqn:E2; [|rewrite (zero_dead h (oy P) r N D' E2); reflexivity].
    unfold fo_is_zero. rewrite E2. cbn [bind]. unfold fo_sqr at 1. rewrite E1. cbn [bind]. rewrite (mul_int_dead c h 3 (ox P) q M D) by lia. reflexivity.
  - rewrite (zero_dead h (ox P) q M D E1). reflexivity.
Qed.
Lemma mul_dead c h P i q r s : oc P = Some i -> om (ox P) = Some q -> om (oy P) = Some r -> deref h q = None -> deref h r = None ->
  is_one s = false -> is_zero s = false -> (compares1 s 0 <? 0) = false -> (compares1 s 0 =? 0) = false -> po_mul c h P s = UB.
Proof.
  intros O M N D D' S1 S0 Sn Sz. unfold po_mul. rewrite S1, S0, Sn. destruct (is_one (ov (ox P))) eqn:E1.
  - unfold po_is_identity. rewrite O. unfold fo_is_zero at 1. rewrite E1. cbn [bind]. unfold po_loop, run_loop.
    assert (LD : forall n, loop2 n (ladder_step (po_add c h) (po_doubled c h)) (s, po_default c, P) = Done UB).
    { assert (L0 : ladder_step (po_add c h) (po_doubled c h) (s, po_default c, P) = Done UB).
      { unfold ladder_step. rewrite Sz. assert (A : (if is_odd s then po_add c h (po_default c) P else Ok (po_default c)) = Ok (if is_odd s then P else po_default c)) by (destruct (is_odd s); reflexivity).
        rewrite A. cbn [bind]. rewrite (doubled_dead c h P i q r) by assumption. reflexivity. }
      induction n as [|n IH]; cbn [loop2]; [exact L0|rewrite IH; reflexivity]. }
    rewrite LD. reflexivity.
  - unfold po_is_identity. rewrite O, (zero_dead h (ox P) q M D E1). reflexivity.
Qed.
Lemma generate_dead c l h k x s : krun c (mkheap [] []) l = Ok h -> nth_error (lives l) k = Some x -> l_alive x = true -> exists_at (lives l) (l_from x) = false ->
  let '(_, _, _, _, _, n, _) := l_params x in valid c s -> valid c n -> 2 <= value s < value n -> po_generate c h k s = UB.
Proof.
  intros R H Al Ex. pose proof (krun_known c l [] _ h (known_start c) R) as K. change (fold_left live_on l []) with (lives l) in K.
  pose proof (known_at _ _ _ _ _ K H) as D. rewrite Al in D. destruct K as (Len & K0). destruct (K0 k x H) as (_ & _ & y & Y & F & P). pose proof (known_at _ _ _ _ _ (conj Len K0) Y) as Dy. unfold exists_at in Ex. rewrite Y in Ex. rewrite Ex in Dy.
  destruct (l_params x) as [[[[[[p a] b] gx] gy] n] cof] eqn:EP. intros Vs Vn Rs. unfold po_generate. rewrite D. cbn [object k_n k_g].
  assert (Z0 : int32 0) by (unfold int32; lia). pose proof (compares1_spec c s 0 Vs Z0) as M0. pose proof (compare_spec c s n Vs Vn) as M1. unfold cmp_result in M0, M1.
  replace ((compares1 s 0 >? 0) && (compare s n <? 0)) with true by lia. cbn [check bind]. eapply mul_dead; try reflexivity; cbn [deref]; rewrite ?Dy; try reflexivity; try lia.
  - rewrite (is_one_value c s Vs). lia.
  - rewrite (is_zero_value c s Vs). lia.
Qed.

(** ** equality *)
Lemma equality_claim c h P Q : (forall v, v = ov (ox P) \/ v = ov (oy P) \/ v = ov (ox Q) \/ v = ov (oy Q) -> valid c v) ->
  (po_eqb P Q = true <-> value (ov (ox P)) = value (ov (ox Q)) /\ value (ov (oy P)) = value (ov (oy Q)) /\ (oc P = oc Q \/ value (ov (ox P)) = 0)) /\
  (oc P = oc Q -> oc P <> None -> po_eqb P Q = aff_eqb (fe_ops c (zero c)) (look_point h P) (look_point h Q)).
Proof.
  intros V. assert (Vx := V (ov (ox P)) ltac:(auto)). assert (Vy := V (ov (oy P)) ltac:(auto)). assert (Wx := V (ov (ox Q)) ltac:(auto)). assert (Wy := V (ov (oy Q)) ltac:(auto 6)). clear V.
  pose proof (compare_spec c _ _ Vx Wx) as M1. pose proof (compare_spec c _ _ Vy Wy) as M2. pose proof (compares1_spec c _ 0 Vx ltac:(unfold int32; lia)) as M3. unfold cmp_result in *.
  assert (SA : same_address (oc P) (oc Q) = true <-> oc P = oc Q). { destruct (oc P) as [i|], (oc Q) as [j|]; cbn; split; intros H; try discriminate; auto; [apply Nat.eqb_eq in H; congruence|apply Nat.eqb_eq; congruence]. }
  split.
  - unfold po_eqb. rewrite !andb_true_iff, orb_true_iff, !Z.eqb_eq, SA. intuition lia.
  - intros E N. unfold po_eqb. rewrite (proj2 SA E). cbn [orb]. rewrite andb_true_r. unfold look_point. rewrite <- E. destruct (oc P) as [i|]; [reflexivity|congruence].
Qed.
(** a copy of a curve and its own generator *)
Lemma copy_equality c l h k x : krun c (mkheap [] []) l = Ok h -> nth_error (lives l) k = Some x -> l_alive x = true -> exists_at (lives l) (l_from x) = true -> l_from x <> k ->
  let '(p, _, _, gx, gy, n, _) := l_params x in valid c gx -> valid c gy -> valid c n -> 1 < value n -> 0 < value gx ->
  exists G P, po_generate c h k (of_int c 1) = Ok G /\ po_make c h k gx gy false = Ok P /\ look_point h G = look_point h P /\ po_eqb G P = false.
Proof.
  intros R H Al Ex NE. destruct (generate_known c l h k x R H Al Ex) as (C & W & LC & D & _).
  pose proof (krun_known c l [] _ h (known_start c) R) as K. change (fold_left live_on l []) with (lives l) in K. unfold exists_at in Ex. destruct (nth_error (lives l) (l_from x)) as [y|] eqn:Y; [|discriminate].
  pose proof (known_at _ _ _ _ _ K Y) as Dy. rewrite Ex in Dy. destruct (known_origin _ _ _ _ _ _ K H Y) as (F & P). rewrite F, P in Dy. clear K.
  destruct (l_params x) as [[[[[[p a] b] gx] gy] n] cof] eqn:EP. intros Vx Vy Vn Ln Lx. destruct (of_int_value c 1 (valid_room1 c gx Vx) ltac:(lia)) as ((Vo & _) & Ov). remember (of_int c 1) as o eqn:Eo. clear Eo.
  exists (mkpo (Some (l_from x)) (mkfo gx (Some (PCurve (l_from x)))) (mkfo gy (Some (PCurve (l_from x))))), (mkpo (Some k) (mkfo gx (Some (PCurve k))) (mkfo gy (Some (PCurve k)))).
  split; [|split; [|split]].
  - unfold po_generate. rewrite D. cbn [object k_n k_g]. pose proof (compares1_spec c o 0 Vo ltac:(unfold int32; lia)) as M0. pose proof (compare_spec c o n Vo Vn) as M1. unfold cmp_result in M0, M1.
    replace ((compares1 o 0 >? 0) && (compare o n <? 0)) with true by lia. cbn [check bind]. unfold po_mul. rewrite (is_one_value c o Vo), Ov. reflexivity.
  - unfold po_make. rewrite D. cbn [object k_p]. cbn [curve_with] in W. unfold curve_make, check in W. destruct (is_valid_integer p gx) eqn:E1; [|discriminate]. cbn [bind] in W. destruct (is_valid_integer p gy) eqn:E2; [|discriminate]. reflexivity.
  - unfold look_point, look. cbn [oc ox oy ov om deref]. rewrite D, Dy. reflexivity.
  - unfold po_eqb. cbn [oc ox oy ov same_address]. rewrite (proj2 (Nat.eqb_neq (l_from x) k) NE). pose proof (compares1_spec c gx 0 Vx ltac:(unfold int32; lia)) as M0. unfold cmp_result in M0. replace (compares1 gx 0 =? 0) with false by lia. apply andb_false_r.
Qed.
(** points of copies of one curve *)
Lemma points_claim c h k S C : alike h k S -> look_curve h k = C ->
  let O := fe_ops c (cu_p C) in let E := cu_coeffs c C in
  let ok := fun P Q => point_of h S P /\ look_point h P = Q in
  forall P Q, point_of h S P -> point_of h S Q ->
  agree ok (po_add c h P Q) (aff_add O E (look_point h P) (look_point h Q)) /\ agree ok (po_sub c h P Q) (aff_sub O E (look_point h P) (look_point h Q)) /\
  agree ok (po_doubled c h P) (aff_doubled O E (look_point h P)) /\ agree ok (po_inverted c h P) (aff_inverted O (look_point h P)) /\
  (forall s, agree ok (po_mul c h P s) (aff_mul O E (look_point h P) s)) /\
  agree eq (po_is_on_curve c h P) (aff_is_on_curve O E (look_point h P)) /\ agree eq (po_is_valid c h P) (aff_is_valid O E (cu_n C) (look_point h P)) /\
  po_is_identity h P = Ok (aff_is_identity O (look_point h P)).
Proof.
  intros HS LC O E ok P Q HP HQ. assert (RP : rp h S P (look_point h P)) by (split; [exact HP|reflexivity]). assert (RQ : rp h S Q (look_point h Q)) by (split; [exact HQ|reflexivity]).
  assert (Ea : cv_a _ E = k_a k) by (unfold E; rewrite <- LC; reflexivity). assert (Eb : cv_b _ E = k_b k) by (unfold E; rewrite <- LC; reflexivity). assert (En : cu_n C = k_n k) by (rewrite <- LC; reflexivity).
  split; [eapply add_rp; eassumption|]. split; [eapply sub_rp; eassumption|]. split; [eapply doubled_rp; eassumption|]. split; [eapply inverted_rp; eassumption|]. split; [intros s; eapply mul_rp; eassumption|].
  split; [eapply on_curve_rp; eassumption|]. split; [rewrite En; eapply is_valid_rp; eassumption|]. eapply id_rp; eassumption.
Qed.
