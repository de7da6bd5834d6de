(** Scalar multiplication with assertions enabled: the loops give the results of the release build. *)
From Coq Require Import List ZArith Znumtheory Bool Lia.
From Verif Require Import Outcome LoopModel LoopProofs WordsModel WordsSpec WordsProofs BigintModel BigintSpec BigintProofs BigintBits BigintClosure BigintClaims NumModel NumProofs BigintBytes FpModel FpSpec FpProofs EcModel EcFeSpec EcTransfer AssertModel AssertSpec AssertProofs AssertRefine AssertSim AssertLoops DebugEcModel DebugFp DebugSqrt DebugEc.
Import ListNotations.
Open Scope Z_scope.

Lemma same_of {A} (G : A -> Prop) (R : A -> A -> Prop) d f : (forall u v, R u v -> u = v /\ G u) -> orel R d f -> same G d f.
Proof.
  intros K H. destruct f as [v| | |]; cbn in H; [|subst d; split; [reflexivity|discriminate]..]. destruct H as (u & -> & H). destruct (K _ _ H) as (<- & Q). apply same_ok, Q.
Qed.

Section GEN.
Variable c : cap.
Variable P : Type.
Variable G : P -> Prop.
Variables add1 add2 : P -> P -> outcome P.
Variables dbl1 dbl2 inv1 inv2 : P -> outcome P.
Hypothesis Hadd : forall u v, G u -> G v -> same G (add1 u v) (add2 u v).
Hypothesis Hdbl : forall u, G u -> same G (dbl1 u) (dbl2 u).
Hypothesis Hinv : forall u, G u -> same G (inv1 u) (inv2 u).

Definition lgood (s : bigint * P * P) : Prop := let '(n, r, t) := s in valid c n /\ G r /\ G t.
Lemma ladder_next s r t : lgood (s, r, t) -> compares1 s 0 =? 0 = false ->
  exists o, same (fun rt => G (fst rt) /\ G (snd rt)) o (let* r := if is_odd s then add2 r t else Ok r in let* t := dbl2 t in Ok (r, t)) /\
    d_ladder_step c add1 dbl1 (s, r, t) = match o with Ok (r, t) => Next (shr s s 1, r, t) | Abort => Done Abort | UB => Done UB | NoFuel => Done NoFuel end.
Proof using Hadd Hdbl.
  clear Hinv inv1 inv2.
  intros (V & Hr & Ht) E. exists (let* r := if is_odd s then add1 r t else Ok r in let* t := dbl1 t in Ok (r, t)). split.
  - apply (same_bind G); [apply same_if; [apply Hadd; assumption|apply same_ok, Hr]|]. intros r' Hr'. apply (same_bind G); [apply Hdbl, Ht|]. intros t' Ht'. apply same_ok. split; assumption.
  - unfold d_ladder_step. rewrite E. destruct (if is_odd s then add1 r t else Ok r) as [r'| | |]; cbn [bind step_of]; try reflexivity.
    destruct (dbl1 t) as [t'| | |]; cbn [bind step_of]; try reflexivity. rewrite (d_shr_eq c s s 1 V ltac:(lia)). reflexivity.
Qed.
Lemma ladder_same k s r t : valid c s -> G r -> G t -> same G (run_loop k (d_ladder_step c add1 dbl1) (s, r, t)) (run_loop k (ladder_step add2 dbl2) (s, r, t)).
Proof using Hadd Hdbl.
  clear Hinv inv1 inv2.
  intros V Hr Ht.
  assert (N : forall st st', lgood st -> ladder_step add2 dbl2 st = Next st' -> lgood st').
  { intros [[n u] v] st' H. unfold ladder_step. destruct (compares1 n 0 =? 0) eqn:E; [discriminate|]. destruct (ladder_next n u v H E) as (o & (-> & Q) & _).
    destruct (let* r := _ in _) as [[u' v']| | |] eqn:Eo; try discriminate. intros K. injection K as <-. destruct (Q _ eq_refl) as (Gu & Gv). split; [|split; assumption]. apply (shr1_val c n (proj1 H)). }
  split.
  - apply (run_eq _ _ lgood); [|exact N|split; [exact V|split; assumption]]. intros [[n u] v] H. destruct (compares1 n 0 =? 0) eqn:E.
    + unfold d_ladder_step, ladder_step. rewrite E. reflexivity.
    + destruct (ladder_next n u v H E) as (o & (Eo & _) & ->). unfold ladder_step. rewrite E, Eo. destruct (let* r := _ in _) as [[u' v']| | |]; reflexivity.
  - assert (Q : (fun o => forall v, o = Ok v -> G v) (run_loop k (ladder_step add2 dbl2) (s, r, t))).
    { apply (run_done _ lgood); [exact N| |discriminate|split; [exact V|split; assumption]].
      intros [[n u] v] o H. unfold ladder_step. destruct (compares1 n 0 =? 0); [intros K; injection K as <-; intros w Ew; injection Ew as <-; apply H|].
      destruct (let* r := _ in _) as [[u' v']| | |]; intros K; try discriminate; injection K as <-; discriminate. }
    exact Q.
Qed.
Lemma naf_same q qn l : G q -> G qn -> forall r, G r -> same G (naf_loop add1 dbl1 q qn l r) (naf_loop add2 dbl2 q qn l r).
Proof using Hadd Hdbl.
  clear Hinv inv1 inv2.
  intros Hq Hqn. induction l as [|d l IH]; intros r Hr; cbn [naf_loop]; [apply same_ok, Hr|].
  apply (same_bind G); [apply Hdbl, Hr|]. intros r1 H1. apply (same_bind G); [|exact IH]. apply same_if; [apply Hadd; assumption|]. apply same_if; [apply Hadd; assumption|apply same_ok, H1].
Qed.
Lemma shamir_same u v un vn a1 a2 a3 a4 : G u -> G v -> G un -> G vn -> G a1 -> G a2 -> G a3 -> G a4 -> forall la lb r, G r ->
  same G (shamir_loop add1 dbl1 u v un vn a1 a2 a3 a4 la lb r) (shamir_loop add2 dbl2 u v un vn a1 a2 a3 a4 la lb r).
Proof using Hadd Hdbl.
  clear Hinv inv1 inv2.
  intros. revert lb r H7. induction la as [|x la IH]; intros lb r Hr; [cbn [shamir_loop]; apply same_ok, Hr|]. destruct lb as [|y lb]; cbn [shamir_loop]; [apply same_ok, Hr|].
  apply (same_bind G); [apply Hdbl, Hr|]. intros r1 H1'. apply (same_bind G); [|intros r2 Hr2; apply IH, Hr2]. repeat apply same_if; first [apply Hadd; assumption|apply same_ok, H1'].
Qed.
Lemma mul_add_same id a u b v : G id -> G u -> G v -> d_to_rnaf c a = to_rnaf c a -> d_to_rnaf c b = to_rnaf c b ->
  same G (d_mul_add_fast c id inv1 add1 dbl1 a u b v) (mul_add_fast id inv2 add2 dbl2 c a u b v).
Proof using Hadd Hdbl Hinv.
  intros Hi Hu Hv Ea Eb. unfold d_mul_add_fast, mul_add_fast. rewrite Ea, Eb. apply (same_bind (fun _ => True)); [apply same_any; reflexivity|]. intros la _.
  apply (same_bind (fun _ => True)); [apply same_any; reflexivity|]. intros lb _. cbv zeta.
  apply (same_bind G); [apply Hinv, Hu|]. intros un Hun. apply (same_bind G); [apply Hinv, Hv|]. intros vn Hvn.
  apply (same_bind G); [apply Hadd; assumption|]. intros x1 Hx1. apply (same_bind G); [apply Hadd; assumption|]. intros x2 Hx2.
  apply (same_bind G); [apply Hinv, Hx2|]. intros x3 Hx3. apply (same_bind G); [apply Hinv, Hx1|]. intros x4 Hx4. apply shamir_same; assumption.
Qed.
Lemma mul_cases_same id is_id loop1 loop2 q s : valid c s -> G id -> G q -> (forall q s', G q -> valid c s' -> size s' = size s -> 0 < value s' -> same G (loop1 q s') (loop2 q s')) ->
  same G (mul_cases id is_id inv1 loop1 q s) (mul_cases id is_id inv2 loop2 q s).
Proof using Hinv.
  clear Hadd Hdbl add1 add2 dbl1 dbl2.
  intros V Hi Hq L. unfold mul_cases. apply same_if; [apply same_ok, Hq|]. rewrite (is_zero_value c s V). destruct (Z.eqb_spec (value s) 0) as [E|E]; [apply same_ok, Hi|].
  pose proof (compares1_spec c s 0 V ltac:(unfold int32; lia)) as C. unfold cmp_result in C. destruct (Z.ltb_spec (compares1 s 0) 0).
  - apply (same_bind G); [apply Hinv, Hq|]. intros n Hn. unfold op_neg. cbv zeta. apply same_if; [apply same_ok, Hn|]. apply same_if; [apply same_ok, Hi|].
    destruct (neg_op_spec c s V) as (V' & E'). apply L; [exact Hn|exact V'|reflexivity|lia].
  - apply L; [exact Hq|exact V|reflexivity|lia].
Qed.
Lemma is_valid_same is_id on1 on2 mul1 mul2 n q : G q -> on1 q = on2 q -> same G (mul1 q n) (mul2 q n) ->
  is_valid_with is_id on1 mul1 n q = is_valid_with is_id on2 mul2 n q.
Proof.
  intros Hq E (M & _). unfold is_valid_with. rewrite E, M. reflexivity.
Qed.
End GEN.
(** the signed digits; for a negative number the loop ends at once *)
Lemma d_to_rnaf_eq c x : valid c x -> room c (size x + 1) -> d_to_rnaf c x = to_rnaf c x.
Proof.
  intros V R. unfold d_to_rnaf, to_rnaf. f_equal. destruct (neg x) eqn:N; [|apply d_to_naf_eq; assumption].
  unfold d_to_naf, to_naf. rewrite (d_bit_length_eq c x V). cbn [bind].
  assert (Q : compareu1 x 0 >? 0 = false) by (unfold compareu1; rewrite N; reflexivity).
  apply (run_eq _ _ (fun s => fst s = x)); [| |reflexivity].
  - intros [n acc] H. cbn [fst] in H. subst n. unfold d_naf_step, naf_step. rewrite Q. reflexivity.
  - intros [n acc] s' H. cbn [fst] in H. subst n. unfold naf_step. rewrite Q. discriminate.
Qed.

(** ** the three point classes *)
Section MUL.
Variable c : cap.
Variable p : bigint.
Hypothesis Hp : modulus_ok c p.
Variable Pp : prime (value p).
Hypothesis p3 : 3 < value p.
Variable a b : bigint.
Hypothesis Ha : reduced c p a.
Hypothesis Hb : reduced c p b.
Variables fz0 fm3 : bool.
Notation O1 := (d_fe_ops c p).
Notation O2 := (fe_ops c p).
Notation E1 := (DebugEc.E1 c p a b fz0 fm3).
Notation E2 := (DebugEc.E2 c p a b fz0 fm3).
Notation A2 := (option (fe * fe)). Notation A3 := (option (fe * fe * fe)).
Notation G2 := (good2 c p). Notation G3 := (good3 c p).
Lemma s2 d f : orel (R2 c p) d f -> same G2 d f. Proof. apply same_of. intros u v H. exact H. Qed.
Lemma s3 d f : orel (R3 c p) d f -> same G3 d f. Proof. apply same_of. intros u v H. exact H. Qed.
Lemma r2 P : G2 P -> R2 c p P P. Proof. intros H. split; [reflexivity|exact H]. Qed.
Lemma r3 P : G3 P -> R3 c p P P. Proof. intros H. split; [reflexivity|exact H]. Qed.
Lemma sb (d f : outcome bool) : orel eq d f -> d = f.
Proof. intros H. apply (same_of (fun _ => True) eq d f) in H; [apply H|]. auto. Qed.
Lemma aff_add_same (P Q : A2) : G2 P -> G2 Q -> same (A := A2) G2 (aff_add O1 E1 P Q) (aff_add O2 E2 P Q).
Proof. intros HP HQ. apply s2. eapply aff_add_rel; first [eassumption|apply r2; assumption]. Qed.
Lemma aff_dbl_same (P : A2) : G2 P -> same (A := A2) G2 (aff_doubled O1 E1 P) (aff_doubled O2 E2 P).
Proof. intros HP. apply s2. eapply aff_doubled_rel; first [eassumption|apply r2; assumption]. Qed.
Lemma aff_inv_same (P : A2) : G2 P -> same (A := A2) G2 (aff_inverted O1 P) (aff_inverted O2 P).
Proof. intros HP. apply s2. eapply aff_inverted_rel; first [eassumption|apply r2; assumption]. Qed.
Lemma proj_add_same (P Q : A3) : G3 P -> G3 Q -> same (A := A3) G3 (proj_add O1 E1 P Q) (proj_add O2 E2 P Q).
Proof. intros HP HQ. apply s3. eapply proj_add_rel; first [eassumption|apply r3; assumption]. Qed.
Lemma proj_dbl_same (P : A3) : G3 P -> same (A := A3) G3 (proj_doubled O1 E1 P) (proj_doubled O2 E2 P).
Proof. intros HP. apply s3. eapply proj_doubled_rel; first [eassumption|apply r3; assumption]. Qed.
Lemma inv3_same (P : A3) : G3 P -> same (A := A3) G3 (inverted3 O1 P) (inverted3 O2 P).
Proof. intros HP. apply s3. eapply inverted3_rel; first [eassumption|apply r3; assumption]. Qed.
Lemma aff_mul_same (P : A2) s : G2 P -> valid c s -> same (A := A2) G2 (d_aff_mul c p E1 P s) (aff_mul O2 E2 P s).
Proof.
  intros HP V. unfold d_aff_mul, aff_mul. apply (mul_cases_same c A2 G2); [exact aff_inv_same|exact V|exact I|exact HP|]. intros q s' Hq V' _ _.
  apply (ladder_same c A2 G2); [exact aff_add_same|exact aff_dbl_same|exact V'|exact I|exact Hq].
Qed.
Lemma proj_mul_same (P : A3) s : G3 P -> valid c s -> same (A := A3) G3 (d_proj_mul c p E1 P s) (proj_mul O2 E2 P s).
Proof.
  intros HP V. unfold d_proj_mul, proj_mul. apply (mul_cases_same c A3 G3); [exact inv3_same|exact V|exact I|exact HP|]. intros q s' Hq V' _ _.
  apply (ladder_same c A3 G3); [exact proj_add_same|exact proj_dbl_same|exact V'|exact I|exact Hq].
Qed.
Lemma aff_mul_add_same (P Q : A2) s t : G2 P -> G2 Q -> valid c s -> valid c t -> room c (size s + 1) -> room c (size t + 1) ->
  same (A := A2) G2 (d_aff_mul_add c p E1 s P t Q) (aff_mul_add O2 E2 c s P t Q).
Proof.
  intros HP HQ Vs Vt Rs Rt. apply (mul_add_same c A2 G2); [exact aff_add_same|exact aff_dbl_same|exact aff_inv_same|exact I|exact HP|exact HQ|apply d_to_rnaf_eq; assumption..].
Qed.
Lemma proj_mul_add_same (P Q : A3) s t : G3 P -> G3 Q -> valid c s -> valid c t -> room c (size s + 1) -> room c (size t + 1) ->
  same (A := A3) G3 (d_proj_mul_add c p E1 s P t Q) (proj_mul_add O2 E2 c s P t Q).
Proof.
  intros HP HQ Vs Vt Rs Rt. apply (mul_add_same c A3 G3); [exact proj_add_same|exact proj_dbl_same|exact inv3_same|exact I|exact HP|exact HQ|apply d_to_rnaf_eq; assumption..].
Qed.
Lemma aff_valid_same (P : A2) n : G2 P -> valid c n -> d_aff_is_valid c p E1 n P = aff_is_valid O2 E2 n P.
Proof. intros HP V. apply (is_valid_same A2 G2); [exact HP|apply sb; eapply aff_on_rel; first [eassumption|apply r2; assumption]|apply aff_mul_same; assumption]. Qed.
Lemma proj_valid_same (P : A3) n : G3 P -> valid c n -> d_proj_is_valid c p E1 n P = proj_is_valid O2 E2 n P.
Proof. intros HP V. apply (is_valid_same A3 G3); [exact HP|apply sb; eapply proj_on_rel; first [eassumption|apply r3; assumption]|apply proj_mul_same; assumption]. Qed.
Hypothesis p8 : 8 < value p.
Lemma jac_add_same (P Q : A3) : G3 P -> G3 Q -> same (A := A3) G3 (jac_add O1 E1 P Q) (jac_add O2 E2 P Q).
Proof. intros HP HQ. apply s3. eapply jac_add_rel; first [eassumption|apply r3; assumption]. Qed.
Lemma jac_dbl_same (P : A3) : G3 P -> same (A := A3) G3 (jac_doubled O1 E1 P) (jac_doubled O2 E2 P).
Proof. intros HP. apply s3. eapply jac_doubled_rel; first [eassumption|apply r3; assumption]. Qed.
Lemma jac_mul_same (P : A3) s : G3 P -> valid c s -> room c (size s + 1) -> same (A := A3) G3 (d_jac_mul c p E1 P s) (jac_mul O2 E2 c P s).
Proof.
  intros HP V Rs. unfold d_jac_mul, jac_mul. apply (mul_cases_same c A3 G3); [exact inv3_same|exact V|exact I|exact HP|]. intros q s' Hq V' Es _.
  unfold d_jac_loop, jac_loop. apply (same_bind (A := A3) G3); [apply inv3_same, Hq|]. intros qn Hqn. rewrite (d_to_rnaf_eq c s' V') by (rewrite Es; exact Rs).
  apply (same_bind (fun _ => True)); [apply same_any; reflexivity|]. intros l _. apply (naf_same A3 G3); [exact jac_add_same|exact jac_dbl_same|exact Hq|exact Hqn|].
  destruct (lit_rel c p Hp p3 0 ltac:(lia)) as (_ & L0). destruct (lit_rel c p Hp p3 1 ltac:(lia)) as (_ & L1). split; [exact L0|split; [exact L0|exact L1]].
Qed.
Lemma jac_mul_add_same (P Q : A3) s t : G3 P -> G3 Q -> valid c s -> valid c t -> room c (size s + 1) -> room c (size t + 1) ->
  same (A := A3) G3 (d_jac_mul_add c p E1 s P t Q) (jac_mul_add O2 E2 c s P t Q).
Proof.
  intros HP HQ Vs Vt Rs Rt. apply (mul_add_same c A3 G3); [exact jac_add_same|exact jac_dbl_same|exact inv3_same|exact I|exact HP|exact HQ|apply d_to_rnaf_eq; assumption..].
Qed.
Lemma jac_valid_same (P : A3) n : G3 P -> valid c n -> room c (size n + 1) -> d_jac_is_valid c p E1 n P = jac_is_valid O2 E2 c n P.
Proof.
  intros HP V Rn. apply (is_valid_same A3 G3); [exact HP|apply sb; eapply jac_on_rel; first [eassumption|apply r3; assumption]|apply jac_mul_same; assumption].
Qed.
End MUL.
