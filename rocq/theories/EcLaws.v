(** Agreement of the coordinate systems, scaling, and where the point classes fail. *)
From Coq Require Import Field List ZArith Znumtheory Bool Lia.
From Verif Require Import Outcome LoopModel WordsModel WordsSpec BigintModel BigintSpec BigintProofs BigintClaims NumModel NumProofs FpModel FpSpec FpProofs FpClaims EcGroup EcGroupProofs ZpField EcModel EcSpec EcExact EcScalar EcFeSpec EcTransfer EcCurveModel EcClaims.
Import ListNotations.
Open Scope Z_scope.

Section CURVE.
Variable c : cap.
Variable p : bigint.
Variable Pp : prime (value p).
Variables a b : bigint.
Hypothesis CO : curve_ok c p Pp a b.
Hypothesis bz : value b <> 0.
Notation F := (GFp p Pp).
Notation O := (fe_ops c p).
Notation E := (coeffs_of c p a b).
Notation A := (kval p Pp a). Notation B := (kval p Pp b).
Notation on := (on_curve A B).
Notation aff_pt := (aff_pt p Pp). Notation proj_pt := (proj_pt p Pp). Notation jac_pt := (jac_pt p Pp).

Lemma proj_agrees_claim P Q : good3 c p P -> good3 c p Q -> on (proj_pt P) -> on (proj_pt Q) ->
  exists R r p' q' s, proj_add O E P Q = Ok R /\ proj_to_affine O R = Ok r /\ proj_to_affine O P = Ok p' /\ proj_to_affine O Q = Ok q' /\
    aff_add O E p' q' = Ok s /\ aff_eqb O r s = true.
Proof.
  intros GP GQ CP CQ. destruct (proj_add_claim c p Pp a b CO P Q GP GQ CP CQ) as (R & K & G & X).
  destruct (proj_to_affine_pt c p Pp a b CO R bz G ltac:(rewrite X; apply padd_curve; auto; apply (two_ne c p Pp a b CO))) as (r & K1 & G1 & X1).
  destruct (proj_to_affine_pt c p Pp a b CO P bz GP CP) as (p' & K2 & G2 & X2). destruct (proj_to_affine_pt c p Pp a b CO Q bz GQ CQ) as (q' & K3 & G3 & X3).
  destruct (aff_add_claim c p Pp a b CO bz p' q' G2 G3 ltac:(congruence) ltac:(congruence)) as (s & K4 & G4 & X4).
  exists R, r, p', q', s. repeat (split; [assumption|]). apply (aff_eqb_claim c p Pp a b CO); [assumption..|]. congruence.
Qed.
Lemma proj_double_agrees_claim P : good3 c p P -> on (proj_pt P) ->
  exists R r p' s, proj_doubled O E P = Ok R /\ proj_to_affine O R = Ok r /\ proj_to_affine O P = Ok p' /\ aff_doubled O E p' = Ok s /\ aff_eqb O r s = true.
Proof.
  intros GP CP. destruct (proj_doubled_claim c p Pp a b CO P GP CP) as (R & K & G & X).
  destruct (proj_to_affine_pt c p Pp a b CO R bz G ltac:(rewrite X; apply padd_curve; auto; apply (two_ne c p Pp a b CO))) as (r & K1 & G1 & X1).
  destruct (proj_to_affine_pt c p Pp a b CO P bz GP CP) as (p' & K2 & G2 & X2).
  destruct (aff_doubled_claim c p Pp a b CO bz p' G2 ltac:(congruence)) as (s & K4 & G4 & X4).
  exists R, r, p', s. repeat (split; [assumption|]). apply (aff_eqb_claim c p Pp a b CO); [assumption..|]. congruence.
Qed.
Lemma proj_to_affine_raw P : good3 c p P -> exists R, proj_to_affine O P = Ok R /\ good2 c p R /\ raw_pt p Pp R = proj_pt P.
Proof.
  intros G. destruct (proj_to_affine_claim c p Pp a b CO P G) as (R & K & G' & X). exists R. split; [exact K|]. split; [exact G'|].
  destruct (proj_pt P); [subst R; reflexivity|]. destruct R as [[u v]|]; [|discriminate]. injection X as <- <-. reflexivity.
Qed.
Lemma jac_to_affine_raw P : good3 c p P -> exists R, jac_to_affine O P = Ok R /\ good2 c p R /\ raw_pt p Pp R = jac_pt P.
Proof.
  intros G. destruct (jac_to_affine_claim c p Pp a b CO P G) as (R & K & G' & X). exists R. split; [exact K|]. split; [exact G'|].
  destruct (jac_pt P); [subst R; reflexivity|]. destruct R as [[u v]|]; [|discriminate]. injection X as <- <-. reflexivity.
Qed.
Section JAC.
Hypothesis p8 : 8 < value p.
Lemma jac_agrees_claim P Q : good3 c p P -> good3 c p Q -> on (jac_pt P) -> on (jac_pt Q) ->
  exists R r p' q' s, jac_add O E P Q = Ok R /\ jac_to_affine O R = Ok r /\ jac_to_affine O P = Ok p' /\ jac_to_affine O Q = Ok q' /\
    aff_add O E p' q' = Ok s /\ aff_eqb O r s = true.
Proof.
  intros GP GQ CP CQ. destruct (jac_add_claim c p Pp a b CO p8 P Q GP GQ CP CQ) as (R & K & G & X).
  destruct (jac_to_affine_pt c p Pp a b CO R bz G ltac:(rewrite X; apply padd_curve; auto; apply (two_ne c p Pp a b CO))) as (r & K1 & G1 & X1).
  destruct (jac_to_affine_pt c p Pp a b CO P bz GP CP) as (p' & K2 & G2 & X2). destruct (jac_to_affine_pt c p Pp a b CO Q bz GQ CQ) as (q' & K3 & G3 & X3).
  destruct (aff_add_claim c p Pp a b CO bz p' q' G2 G3 ltac:(congruence) ltac:(congruence)) as (s & K4 & G4 & X4).
  exists R, r, p', q', s. repeat (split; [assumption|]). apply (aff_eqb_claim c p Pp a b CO); [assumption..|]. congruence.
Qed.
Lemma jac_double_agrees_claim P : good3 c p P -> on (jac_pt P) ->
  exists R r p' s, jac_doubled O E P = Ok R /\ jac_to_affine O R = Ok r /\ jac_to_affine O P = Ok p' /\ aff_doubled O E p' = Ok s /\ aff_eqb O r s = true.
Proof.
  intros GP CP. destruct (jac_doubled_claim c p Pp a b CO p8 P GP CP) as (R & K & G & X).
  destruct (jac_to_affine_pt c p Pp a b CO R bz G ltac:(rewrite X; apply padd_curve; auto; apply (two_ne c p Pp a b CO))) as (r & K1 & G1 & X1).
  destruct (jac_to_affine_pt c p Pp a b CO P bz GP CP) as (p' & K2 & G2 & X2).
  destruct (aff_doubled_claim c p Pp a b CO bz p' G2 ltac:(congruence)) as (s & K4 & G4 & X4).
  exists R, r, p', s. repeat (split; [assumption|]). apply (aff_eqb_claim c p Pp a b CO); [assumption..|]. congruence.
Qed.
End JAC.
End CURVE.

(** equality ignores the scaling factor *)
Section SCALE.
Variable c : cap.
Variable p : bigint.
Variable Pp : prime (value p).
Variables a b : bigint.
Hypothesis CO : curve_ok c p Pp a b.
Notation F := (GFp p Pp).
Notation O := (fe_ops c p).
Add Field FldS : (f_theory F).
Lemma fval_mul x y z : elem c p x -> elem c p y -> fe_mul c x y = Ok z -> fval p Pp z = (fval p Pp x * fval p Pp y)%f /\ elem c p z.
Proof.
  intros Hx Hy H. destruct (mul_rel c p (Hp c p Pp a b CO) Pp x y _ _ (conj Hx eq_refl) (conj Hy eq_refl)) as (u & K & G & X). cbn [o_mul fe_ops] in K. rewrite H in K. injection K as ->. auto.
Qed.
Lemma nz k : elem c p k -> value (fv k) <> 0 -> fval p Pp k <> 0%f.
Proof. intros Hk N H. apply N. rewrite <- (zval_fval c p Pp k Hk), H. apply (zval_0 p Pp (p3 c p Pp a b CO)). Qed.
Lemma fb_z (x : F) k : k <> 0%f -> fb (x * k)%f 0%f = fb x 0%f.
Proof. intros N. apply (fb_scale0 F x k N). Qed.
Lemma proj_scale_claim x y z k x' y' z' : elem c p x -> elem c p y -> elem c p z -> elem c p k -> value (fv k) <> 0 ->
  fe_mul c x k = Ok x' -> fe_mul c y k = Ok y' -> fe_mul c z k = Ok z' -> proj_eqb O (Some (x, y, z)) (Some (x', y', z')) = Ok true.
Proof.
  intros Hx Hy Hz Hk N Ex Ey Ez. destruct (fval_mul _ _ _ Hx Hk Ex) as (Vx & Gx), (fval_mul _ _ _ Hy Hk Ey) as (Vy & Gy), (fval_mul _ _ _ Hz Hk Ez) as (Vz & Gz).
  pose proof (nz k Hk N) as Nk.
  destruct (proj_eqb_claim c p Pp a b CO (Some (x, y, z)) (Some (x', y', z'))) as (v & -> & H); [split; [|split]; assumption|split; [|split]; assumption|].
  f_equal. apply H. unfold proj_pt. cbn [option_map fst snd]. rewrite Vx, Vy, Vz. cbn [abs_proj]. rewrite fb_z by exact Nk.
  destruct (fb (fval p Pp z) 0%f) eqn:Z; [reflexivity|]. apply fb_false in Z. f_equal; field; auto.
Qed.
Lemma jac_scale_claim x y z k k2 k3 x' y' z' : elem c p x -> elem c p y -> elem c p z -> elem c p k -> value (fv k) <> 0 ->
  fe_mul c k k = Ok k2 -> fe_mul c k2 k = Ok k3 ->
  fe_mul c x k2 = Ok x' -> fe_mul c y k3 = Ok y' -> fe_mul c z k = Ok z' -> jac_eqb O (Some (x, y, z)) (Some (x', y', z')) = Ok true.
Proof.
  intros Hx Hy Hz Hk N E2 E3 Ex Ey Ez. destruct (fval_mul _ _ _ Hk Hk E2) as (V2 & G2). destruct (fval_mul _ _ _ G2 Hk E3) as (V3 & G3).
  destruct (fval_mul _ _ _ Hx G2 Ex) as (Vx & Gx), (fval_mul _ _ _ Hy G3 Ey) as (Vy & Gy), (fval_mul _ _ _ Hz Hk Ez) as (Vz & Gz).
  pose proof (nz k Hk N) as Nk.
  destruct (jac_eqb_claim c p Pp a b CO (Some (x, y, z)) (Some (x', y', z'))) as (v & -> & H); [split; [|split]; assumption|split; [|split]; assumption|].
  f_equal. apply H. unfold jac_pt. cbn [option_map fst snd]. rewrite Vx, Vy, Vz, V3, V2. cbn [abs_jac]. rewrite fb_z by exact Nk.
  destruct (fb (fval p Pp z) 0%f) eqn:Z; [reflexivity|]. apply fb_false in Z. f_equal; field; auto.
Qed.
End SCALE.

(** *** a small curve for the examples: y^2 = x^3 + 2x + 2 over GF(17), a group of 19 points *)
Definition ex_c : cap := Fixed 4.
Definition ex_p : bigint := of_int ex_c 17.
Definition ex_prime : prime (value ex_p) := prime_17.
Definition ex_2 : bigint := of_int ex_c 2.
Definition ex_fe (k : Z) : fe := mkfe (of_int ex_c k) (Some ex_p).
Lemma of_int_ok c k m : room c 1 -> 0 <= k < m -> m < 2 ^ 31 -> valid c (of_int c k) /\ 0 <= value (of_int c k) < m /\ value (of_int c k) = k.
Proof. intros R K M. destruct (of_int_value c k R ltac:(lia)) as ((V & _) & EV). split; [exact V|]. lia. Qed.
Lemma ex_elem k : 0 <= k < 17 -> elem ex_c ex_p (ex_fe k).
Proof. intros H. split; [reflexivity|]. destruct (of_int_ok ex_c k 17 ltac:(cbn; lia) H ltac:(lia)) as (V & R & _). split; assumption. Qed.
Lemma ex_mod : modulus_ok ex_c ex_p.
Proof. destruct (of_int_ok ex_c 17 18 ltac:(cbn; lia) ltac:(lia) ltac:(lia)) as (V & _ & EV). split; [exact V|]. unfold ex_p. rewrite EV. split; [lia|]. vm_compute. lia. Qed.
Lemma ex_curve : curve_ok ex_c ex_p ex_prime ex_2 ex_2.
Proof.
  split; [exact ex_mod|]. split; [reflexivity|]. destruct (of_int_ok ex_c 2 17 ltac:(cbn; lia) ltac:(lia) ltac:(lia)) as (V & R & _).
  split; [split; assumption|]. split; [split; assumption|]. intros H. apply (f_equal zval) in H. vm_compute in H. discriminate.
Qed.
Definition ex_pt (x y : Z) : option (fe * fe) := Some (ex_fe x, ex_fe y).
Definition ex_pt3 (x y z : Z) : option (fe * fe * fe) := Some (ex_fe x, ex_fe y, ex_fe z).

(** *** a curve with b = 0 has the point (0, 0), which the affine class takes for the identity:
    y^2 = x^3 + x over GF(11), (5,3) + (9,1) = (0,0) *)
Lemma prime_11 : prime 11.
Proof.
  constructor; [lia|]. intros n Hn. apply Zgcd_1_rel_prime. assert (H : n = 1 \/ n = 2 \/ n = 3 \/ n = 4 \/ n = 5 \/ n = 6 \/ n = 7 \/ n = 8 \/ n = 9 \/ n = 10) by lia.
  repeat destruct H as [->|H]; try reflexivity. subst n. reflexivity.
Qed.
Definition el (c : cap) (p k : Z) : fe := mkfe (of_int c k) (Some (of_int c p)).
Lemma el_elem c p k : room c 1 -> 0 <= k < p -> p < 2 ^ 31 - 1 -> elem c (of_int c p) (el c p k).
Proof.
  intros R K M. split; [reflexivity|]. destruct (of_int_ok c k p R K ltac:(lia)) as (V & B & _). split; [exact V|]. cbn [fv el].
  destruct (of_int_ok c p (p + 1) R ltac:(lia) ltac:(lia)) as (_ & _ & ->). exact B.
Qed.
Lemma mod_ok c p : room c 2 -> 1 < p < 2 ^ 31 - 1 -> size (of_int c p) = 1%nat -> modulus_ok c (of_int c p).
Proof.
  intros R H S. assert (R1 : room c 1) by (apply room_le with 2%nat; [exact R|lia]). destruct (of_int_ok c p (p + 1) R1 ltac:(lia) ltac:(lia)) as (V & _ & EV).
  split; [exact V|]. rewrite EV, S. split; [lia|exact R].
Qed.
Lemma aff_b_zero_refute : exists c p (Pp : prime (value p)) a b P Q S PQ QS L M,
  curve_ok c p Pp a b /\ good2 c p P /\ good2 c p Q /\ good2 c p S /\
  on_curve (kval p Pp a) (kval p Pp b) (raw_pt p Pp P) /\ on_curve (kval p Pp a) (kval p Pp b) (raw_pt p Pp Q) /\ on_curve (kval p Pp a) (kval p Pp b) (raw_pt p Pp S) /\
  aff_add (fe_ops c p) (coeffs_of c p a b) P Q = Ok PQ /\ aff_add (fe_ops c p) (coeffs_of c p a b) PQ S = Ok L /\
  aff_add (fe_ops c p) (coeffs_of c p a b) Q S = Ok QS /\ aff_add (fe_ops c p) (coeffs_of c p a b) P QS = Ok M /\
  aff_eqb (fe_ops c p) L M = false.
Proof.
  exists ex_c, (of_int ex_c 11), prime_11, (of_int ex_c 1), (of_int ex_c 0),
    (Some (el ex_c 11 5, el ex_c 11 3)), (Some (el ex_c 11 9, el ex_c 11 1)), (Some (el ex_c 11 7, el ex_c 11 3)).
  do 4 eexists. split.
  { split; [apply mod_ok; [cbn; lia|lia|reflexivity]|]. split; [reflexivity|].
    destruct (of_int_ok ex_c 1 11 ltac:(cbn; lia) ltac:(lia) ltac:(lia)) as (V & R & _). destruct (of_int_ok ex_c 0 11 ltac:(cbn; lia) ltac:(lia) ltac:(lia)) as (V' & R' & _).
    split; [split; assumption|]. split; [split; assumption|]. intros H. apply (f_equal zval) in H. vm_compute in H. discriminate. }
  do 3 (split; [split; (apply el_elem; [cbn; lia|lia|lia])|]).
  do 3 (split; [apply zval_inj; vm_compute; reflexivity|]).
  split; [vm_compute; reflexivity|]. split; [vm_compute; reflexivity|]. split; [vm_compute; reflexivity|]. split; [vm_compute; reflexivity|]. vm_compute. reflexivity.
Qed.
(** *** over GF(7) the Jacobian doubling of (1, 1) on y^2 = x^3 + 4x + 3 leaves a negative coordinate *)
Lemma jac_small_refute : exists c p (Pp : prime (value p)) a b P R r s,
  curve_ok c p Pp a b /\ value b <> 0 /\ good2 c p P /\ on_curve (kval p Pp a) (kval p Pp b) (aff_pt p Pp P) /\
  jac_doubled (fe_ops c p) (coeffs_of c p a b) (of_affine (fe_ops c p) P) = Ok R /\ jac_to_affine (fe_ops c p) R = Ok r /\
  aff_doubled (fe_ops c p) (coeffs_of c p a b) P = Ok s /\ aff_eqb (fe_ops c p) r s = false /\ ~ good2 c p r.
Proof.
  exists ex_c, (of_int ex_c 7), prime_7, (of_int ex_c 4), (of_int ex_c 3), (Some (el ex_c 7 1, el ex_c 7 1)).
  do 3 eexists. split.
  { split; [apply mod_ok; [cbn; lia|lia|reflexivity]|]. split; [reflexivity|].
    destruct (of_int_ok ex_c 4 7 ltac:(cbn; lia) ltac:(lia) ltac:(lia)) as (V & R & _). destruct (of_int_ok ex_c 3 7 ltac:(cbn; lia) ltac:(lia) ltac:(lia)) as (V' & R' & _).
    split; [split; assumption|]. split; [split; assumption|]. intros H. apply (f_equal zval) in H. vm_compute in H. discriminate. }
  split; [discriminate|]. split; [split; (apply el_elem; [cbn; lia|lia|lia])|].
  split; [apply zval_inj; vm_compute; reflexivity|].
  split; [vm_compute; reflexivity|]. split; [vm_compute; reflexivity|]. split; [vm_compute; reflexivity|]. split; [vm_compute; reflexivity|].
  intros (_ & (_ & _ & H & _)). apply H. reflexivity.
Qed.
(** *** scalar multiplication in the same two situations: 2 * P over GF(7), and 3 * P for a point of order 4 with 2 * P = (0, 0) *)
Lemma jac_mul_small_refute : exists c p (Pp : prime (value p)) a b P k R r s,
  curve_ok c p Pp a b /\ value b <> 0 /\ good2 c p P /\ on_curve (kval p Pp a) (kval p Pp b) (aff_pt p Pp P) /\ valid c k /\ room c (size k + 1) /\
  jac_mul (fe_ops c p) (coeffs_of c p a b) c (of_affine (fe_ops c p) P) k = Ok R /\ jac_to_affine (fe_ops c p) R = Ok r /\
  aff_mul (fe_ops c p) (coeffs_of c p a b) P k = Ok s /\ aff_eqb (fe_ops c p) r s = false.
Proof.
  exists ex_c, (of_int ex_c 7), prime_7, (of_int ex_c 4), (of_int ex_c 3), (Some (el ex_c 7 1, el ex_c 7 1)), (of_int ex_c 2).
  do 3 eexists. split.
  { split; [apply mod_ok; [cbn; lia|lia|reflexivity]|]. split; [reflexivity|].
    destruct (of_int_ok ex_c 4 7 ltac:(cbn; lia) ltac:(lia) ltac:(lia)) as (V & R & _). destruct (of_int_ok ex_c 3 7 ltac:(cbn; lia) ltac:(lia) ltac:(lia)) as (V' & R' & _).
    split; [split; assumption|]. split; [split; assumption|]. intros H. apply (f_equal zval) in H. vm_compute in H. discriminate. }
  split; [discriminate|]. split; [split; (apply el_elem; [cbn; lia|lia|lia])|].
  split; [apply zval_inj; vm_compute; reflexivity|]. split; [apply (of_int_ok ex_c 2 7); cbn; lia|]. split; [vm_compute; lia|].
  split; [vm_compute; reflexivity|]. split; [vm_compute; reflexivity|]. split; [vm_compute; reflexivity|]. vm_compute. reflexivity.
Qed.
Lemma aff_mul_b_zero_refute : exists c p (Pp : prime (value p)) a b P k R,
  curve_ok c p Pp a b /\ good2 c p P /\ on_curve (kval p Pp a) (kval p Pp b) (raw_pt p Pp P) /\ valid c k /\ 0 <= value k /\
  aff_mul (fe_ops c p) (coeffs_of c p a b) P k = Ok R /\ raw_pt p Pp R <> zmul (kval p Pp a) (value k) (raw_pt p Pp P).
Proof.
  exists ex_c, (of_int ex_c 11), prime_11, (of_int ex_c 1), (of_int ex_c 0), (Some (el ex_c 11 10, el ex_c 11 3)), (of_int ex_c 3).
  eexists. split.
  { split; [apply mod_ok; [cbn; lia|lia|reflexivity]|]. split; [reflexivity|].
    destruct (of_int_ok ex_c 1 11 ltac:(cbn; lia) ltac:(lia) ltac:(lia)) as (V & R & _). destruct (of_int_ok ex_c 0 11 ltac:(cbn; lia) ltac:(lia) ltac:(lia)) as (V' & R' & _).
    split; [split; assumption|]. split; [split; assumption|]. intros H. apply (f_equal zval) in H. vm_compute in H. discriminate. }
  split; [split; (apply el_elem; [cbn; lia|lia|lia])|]. split; [apply zval_inj; vm_compute; reflexivity|]. split; [apply (of_int_ok ex_c 3 11); cbn; lia|]. split; [vm_compute; discriminate|].
  split; [vm_compute; reflexivity|]. intros H.
  apply (f_equal (fun P : point (GFp (of_int ex_c 11) prime_11) => match P with Inf => -1 | Aff x y => zval y end)) in H. vm_compute in H. discriminate.
Qed.
