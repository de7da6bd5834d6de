(** Field elements with operands of every type. *)
From Coq Require Import ZArith Znumtheory List Bool Lia.
From Verif Require Import Outcome LoopModel WordsModel WordsSpec BigintModel BigintSpec BigintProofs BigintClaims NumModel NumProofs NumClaims FpModel FpSpec FpProofs FpClaims OperatorModel OperatorSpec OperatorClaims FieldOpModel FieldOpSpec.
From Verif Require EcLaws.
Import ListNotations.
Open Scope Z_scope.

Section FOP.
Variable c : cap.
Variable p : bigint.
Hypothesis Hp : modulus_ok c p.
Let Vp : valid c p. Proof. apply Hp. Qed.
Let P1 : 1 < value p. Proof. apply Hp. Qed.

Lemma pos_sign x : valid c x -> 0 < value x -> neg x = false.
Proof. intros V P. pose proof (magnitude_range c x V) as M. pose proof (value_sgn x) as E. destruct (neg x); [cbn [sgn] in *; lia|reflexivity]. Qed.
Lemma neg_sign x : valid c x -> value x < 0 -> neg x = true.
Proof. intros V P. pose proof (magnitude_range c x V) as M. pose proof (value_sgn x) as E. destruct (neg x); [reflexivity|cbn [sgn] in *; lia]. Qed.
Lemma add_tail_any s : valid c s -> valid c (fp_add_tail c s p) /\ value (fp_add_tail c s p) = if value p <=? value s then value s - value p else value s.
Proof.
  intros V. pose proof P1. unfold fp_add_tail. pose proof (compare_spec c s p V Vp) as C. unfold cmp_result in C.
  destruct (Z.geb_spec (compare s p) 0) as [G|G]; destruct (Z.leb_spec (value p) (value s)) as [L|L]; try lia; [|split; [exact V|reflexivity]].
  apply sub_same_claim; auto. rewrite (pos_sign s V) by lia. rewrite (pos_sign p Vp) by lia. reflexivity.
Qed.
Lemma sub_tail_any s : valid c s -> valid c (fp_sub_tail c s p) /\ value (fp_sub_tail c s p) = if value s <? 0 then value s + value p else value s.
Proof.
  intros V. pose proof P1. unfold fp_sub_tail. pose proof (compares1_spec c s 0 V ltac:(unfold int32; lia)) as C. unfold cmp_result in C.
  destruct (Z.ltb_spec (compares1 s 0) 0) as [G|G]; destruct (Z.ltb_spec (value s) 0) as [L|L]; try lia; [|split; [exact V|reflexivity]].
  apply add_opposite_claim; auto. rewrite (neg_sign s V) by lia. rewrite (pos_sign p Vp) by lia. discriminate.
Qed.
Lemma to_big_claim a o : valid c a -> operand_ok c o -> room c (size a + operand_size a o + 1) ->
  exists b, to_big c a o = Ok b /\ valid c b /\ value b = operand_value (value a) o.
Proof.
  intros Va Vo R. assert (R1 : room c 1) by apply (valid_room1 c a Va).
  destruct o as [k|k|k|k|b|].
  - eexists. split; [reflexivity|]. destruct (of_int_value c k R1) as ((V & _) & E); [cbn in Vo; lia|]. auto.
  - eexists. split; [reflexivity|]. destruct (of_word_value c k R1 Vo) as ((V & _) & E). auto.
  - destruct (big_claim c a (KI64 k) Va Vo R I) as (b & E & V & Eb & _). exists b. auto.
  - destruct (big_claim c a (KU64 k) Va Vo R I) as (b & E & V & Eb & _). exists b. auto.
  - exists b. auto.
  - exists a. auto.
Qed.
Lemma one_claim a o : valid c a -> operand_ok c o -> operand_is_one a o = (operand_value (value a) o =? 1).
Proof. intros Va Vo. destruct o as [k|k|k|k|b|]; try reflexivity; apply (is_one_value c); assumption. Qed.
Lemma zero_claim a o : valid c a -> operand_ok c o -> operand_is_zero a o = (operand_value (value a) o =? 0).
Proof.
  intros Va Vo. destruct o as [k|k|k|k|b|]; try reflexivity; cbn [operand_is_zero operand_value].
  - pose proof (compares1_spec c b 0 Vo ltac:(unfold int32; lia)) as C. unfold cmp_result in C. destruct (Z.eqb_spec (compares1 b 0) 0), (Z.eqb_spec (value b) 0); lia.
  - pose proof (compares1_spec c a 0 Va ltac:(unfold int32; lia)) as C. unfold cmp_result in C. destruct (Z.eqb_spec (compares1 a 0) 0), (Z.eqb_spec (value a) 0); lia.
Qed.

Lemma rem_class a : (Z.rem a (value p)) mod value p = a mod value p.
Proof. pose proof P1. rewrite (Z.quot_rem' a (value p)) at 2. rewrite Z.add_comm, Z.mul_comm, Z_mod_plus_full. reflexivity. Qed.
Lemma rem_range a : 0 <= Z.rem a (value p) < value p <-> 0 <= a \/ (value p | a).
Proof.
  pose proof P1. split.
  - intros (L & _). destruct (Z_le_gt_dec 0 a); [left; assumption|right].
    assert (Z.rem a (value p) <= 0) by (apply Z.rem_nonpos; lia). apply Z.rem_divide; lia.
  - intros [G|D]; [apply Z.rem_bound_pos; lia|]. apply Z.rem_divide in D; lia.
Qed.
Lemma stored_class s op x v : stored op (value p) x v mod value p = (if swapped s op then - exact s op x v else exact s op x v) mod value p.
Proof.
  pose proof P1. replace (if swapped s op then - exact s op x v else exact s op x v) with (match op with FPlus => x + v | FMinus => x - v | FTimes => x * v end) by (destruct op, s; cbn; lia).
  destruct op; cbn [stored].
  - destruct (Z.leb_spec (value p) (x + v)); [|reflexivity]. replace (x + v - value p) with (x + v + (-1) * value p) by lia. apply Z_mod_plus_full.
  - destruct (Z.ltb_spec (x - v) 0); [|reflexivity]. replace (x - v + value p) with (x - v + 1 * value p) by lia. apply Z_mod_plus_full.
  - destruct (Z.eqb_spec x 1) as [->|_]; [rewrite Z.mul_1_l; reflexivity|apply rem_class].
Qed.
Lemma stored_range op x v : 0 <= x < value p -> (0 <= stored op (value p) x v < value p <-> in_range op (value p) x v).
Proof.
  intros X. pose proof P1. destruct op; cbn [stored in_range].
  - destruct (Z.leb_spec (value p) (x + v)); lia.
  - destruct (Z.ltb_spec (x - v) 0); lia.
  - destruct (Z.eqb_spec x 1); [reflexivity|]. rewrite rem_range. destruct (Z.eq_dec x 0) as [->|NX].
    + cbn. split; intros _; right; exists 0; reflexivity.
    + split; (intros [L|D]; [left; nia|right; exact D]).
Qed.
Lemma field_claim s op x o : elem c p x -> operand_ok c o -> room c (size (fv x) + operand_size (fv x) o + 1) ->
  exists r, field_op c s op x o = Ok r /\ fm r = Some p /\ valid c (fv r) /\
    value (fv r) = stored op (value p) (value (fv x)) (operand_value (value (fv x)) o) /\
    value (fv r) mod value p = (let e := exact s op (value (fv x)) (operand_value (value (fv x)) o) in if swapped s op then - e else e) mod value p /\
    (elem c p r <-> in_range op (value p) (value (fv x)) (operand_value (value (fv x)) o)).
Proof.
  intros (Ex & Vx & Rx) Vo R.
  enough (exists r, field_op c s op x o = Ok r /\ fm r = Some p /\ valid c (fv r) /\ value (fv r) = stored op (value p) (value (fv x)) (operand_value (value (fv x)) o)) as (r & E & M & V & S).
  { exists r. split; [exact E|]. split; [exact M|]. split; [exact V|]. split; [exact S|]. split; [rewrite S; apply stored_class|].
    rewrite <- (stored_range op _ _ Rx), <- S. unfold elem, reduced. tauto. }
  destruct op; cbn [field_op stored].
  - destruct (add_any c false (fv x) o Vx Vo R) as (d & E & Vd & Ed). cbn [run] in E. unfold fe_add_of, with_m. rewrite Ex, E. cbn [bind].
    destruct (add_tail_any d Vd) as (V & Ev). eexists. split; [reflexivity|]. split; [reflexivity|]. split; [exact V|]. cbn [fv]. rewrite Ev, Ed. reflexivity.
  - destruct (sub_any c false (fv x) o Vx Vo R) as (d & E & Vd & Ed). cbn [run] in E. unfold fe_sub_of, with_m. rewrite Ex, E. cbn [bind].
    destruct (sub_tail_any d Vd) as (V & Ev). eexists. split; [reflexivity|]. split; [reflexivity|]. split; [exact V|]. cbn [fv]. rewrite Ev, Ed. reflexivity.
  - unfold fe_mul_of. rewrite (is_one_value c) by exact Vx. rewrite (one_claim (fv x) o Vx Vo). destruct (Z.eqb_spec (value (fv x)) 1) as [E1|N1].
    + destruct (to_big_claim (fv x) o Vx Vo R) as (b & E & Vb & Eb). unfold with_m. rewrite Ex, E. cbn [bind]. eexists. split; [reflexivity|]. auto.
    + destruct (Z.eqb_spec (operand_value (value (fv x)) o) 1) as [E2|N2].
      * exists x. split; [reflexivity|]. split; [exact Ex|]. split; [exact Vx|]. rewrite E2, Z.mul_1_r, Z.rem_small; [reflexivity|exact Rx].
      * destruct (mul_any c false (fv x) o Vx Vo R) as (d & E & Vd & Ed). cbn [run] in E. unfold with_m. rewrite Ex, E. cbn [bind].
        destruct (op_mod_val c p Hp d Vd) as (r & -> & Vr & Er). cbn [bind]. eexists. split; [reflexivity|]. split; [reflexivity|]. split; [exact Vr|]. cbn [fv]. rewrite Er, Ed. reflexivity.
Qed.
Lemma field_div_claim x y : elem c p x -> valid c y -> 0 <= value y -> room c (Nat.max (size y) (size p) + 1) ->
  (Z.gcd (value y) (value p) = 1 -> exists r, fe_div_of c x y = Ok r /\ elem c p r /\ (value (fv r) * value y) mod value p = value (fv x)) /\
  (Z.gcd (value y) (value p) <> 1 -> fe_div_of c x y = Abort).
Proof.
  intros Hx Vy Y R. pose proof Hx as (Ex & Vx & Rx). pose proof P1 as P1'. unfold fe_div_of, fe_div_big, with_m. rewrite (is_one_value c) by exact Vy. rewrite Ex.
  destruct (Z.eqb_spec (value y) 1) as [E1|N1].
  - rewrite E1. split; [|rewrite Z.gcd_1_l; congruence]. intros _. exists x. split; [reflexivity|]. split; [exact Hx|]. rewrite Z.mul_1_r. apply Z.mod_small. exact Rx.
  - unfold fp_div, op_modinv. destruct (Z.eq_dec (value y) 0) as [E0|N0].
    + destruct (modinv_zero_claim c (zero c) y p) as (-> & _); auto.
      { apply (zero_spec c). apply (valid_room1 c y Vy). }
      split; [rewrite E0, Z.gcd_0_l; lia|reflexivity].
    + destruct (modinv_claim c (zero c) y p) as (o & -> & G1 & G2); auto; try lia.
      { apply (zero_spec c). apply (valid_room1 c y Vy). }
      split.
      * intros G. destruct (G1 G) as (i & -> & Vi & Ri & Ei). cbn [bind]. destruct (mulmod_val c p Hp (fv x) i) as (r & -> & Rr & Er); [split; assumption|split; assumption|].
        cbn [bind]. eexists. split; [reflexivity|]. split; [split; [reflexivity|exact Rr]|]. cbn [fv]. rewrite Er. rewrite Zmult_mod_idemp_l.
        replace (value (fv x) * value i * value y) with (value (fv x) * (value y * value i)) by ring. rewrite <- Zmult_mod_idemp_r, Ei, Z.mul_1_r. apply Z.mod_small. exact Rx.
      * intros G. rewrite (G2 G). reflexivity.
Qed.
Lemma field_cmp_claim r x o : elem c p x -> operand_ok c o -> room c 2 -> fe_cmp c r x o = Ok (holds_rel r (seen (fv x) o) (operand_value (value (fv x)) o)).
Proof. intros (_ & Vx & _) Vo R. rewrite <- (proj1 (relations_claim c r (fv x) o Vx Vo R)). destruct r; reflexivity. Qed.
Lemma valid_of_claim o : operand_ok c o -> room c 2 -> exists b, fp_is_valid_of c o p = Ok b /\ (b = true <-> 0 <= operand_value (value p) o < value p).
Proof.
  intros Vo R. pose proof P1 as P1'.
  assert (E : rcmp_lt c o p = Ok (operand_value (value p) o <? value p)).
  { pose proof (proj2 (relations_claim c Lt p o Vp Vo R)) as E. cbn [rcmp holds_rel] in E. rewrite E. f_equal. f_equal. destruct o; try reflexivity. cbn [seen]. replace (value p =? 0) with false by (symmetry; apply Z.eqb_neq; lia). rewrite andb_false_r. reflexivity. }
  assert (M : match o with KInt k | KWord k | KI64 k | KU64 k => k >=? 0 | KBig b => compares1 b 0 >=? 0 | KSelf => compares1 p 0 >=? 0 end = (0 <=? operand_value (value p) o)).
  { destruct o as [k|k|k|k|b|]; cbn [operand_value]; try (rewrite Z.geb_leb; reflexivity).
    - pose proof (compares1_spec c b 0 Vo ltac:(unfold int32; lia)) as C. unfold cmp_result in C. rewrite Z.geb_leb. destruct (Z.leb_spec 0 (compares1 b 0)), (Z.leb_spec 0 (value b)); lia.
    - pose proof (compares1_spec c p 0 Vp ltac:(unfold int32; lia)) as C. unfold cmp_result in C. rewrite Z.geb_leb. destruct (Z.leb_spec 0 (compares1 p 0)), (Z.leb_spec 0 (value p)); lia. }
  unfold fp_is_valid_of. rewrite M. destruct (Z.leb_spec 0 (operand_value (value p) o)) as [G|G].
  - rewrite E. eexists. split; [reflexivity|]. rewrite Z.ltb_lt. lia.
  - eexists. split; [reflexivity|]. split; [discriminate|lia].
Qed.
Lemma neg_of_claim o : operand_ok c o -> room c (size p + operand_size p o + 1) ->
  exists r, fp_neg_of c o p = Ok r /\ valid c r /\ value r = (if operand_value (value p) o =? 0 then 0 else value p - operand_value (value p) o) /\
    value r mod value p = (- operand_value (value p) o) mod value p /\ (0 <= value r < value p <-> 0 <= operand_value (value p) o <= value p).
Proof.
  intros Vo R. pose proof P1 as P1'.
  enough (exists r, fp_neg_of c o p = Ok r /\ valid c r /\ value r = (if operand_value (value p) o =? 0 then 0 else value p - operand_value (value p) o)) as (r & E & V & S).
  { exists r. split; [exact E|]. split; [exact V|]. split; [exact S|]. rewrite S. destruct (Z.eqb_spec (operand_value (value p) o) 0) as [E0|N0].
    - rewrite E0. split; [reflexivity|lia].
    - split; [|lia]. replace (value p - operand_value (value p) o) with (- operand_value (value p) o + 1 * value p) by lia. apply Z_mod_plus_full. }
  unfold fp_neg_of. rewrite (zero_claim p o Vp Vo). destruct (Z.eqb_spec (operand_value (value p) o) 0) as [E0|N0].
  - destruct (to_big_claim p o Vp Vo R) as (b & E & V & Eb). exists b. rewrite Eb. auto.
  - destruct (sub_any c false p o Vp Vo R) as (d & E & Vd & Ed). exists d. auto.
Qed.
Lemma assign_claim x v : elem c p x -> valid c v ->
  fe_set x v = Ok (mkfe v (Some p)) /\ fe_assign x v true = (if (0 <=? value v) && (value v <? value p) then Ok (mkfe v (Some p)) else Abort) /\
  (elem c p (mkfe v (Some p)) <-> 0 <= value v < value p) /\ fe_value (mkfe v (Some p)) = v /\ fe_modulus x = Ok p.
Proof.
  intros (Ex & Vx & Rx) Vv. unfold fe_set, fe_assign, fe_modulus. rewrite Ex. cbn [negb orb check bind]. split; [reflexivity|]. split; [|split; [unfold elem, reduced; cbn [fm fv]; tauto|auto]].
  pose proof (is_valid_claim c p Hp v Vv) as A. destruct (fp_is_valid v p).
  - replace ((0 <=? value v) && (value v <? value p)) with true; [reflexivity|]. symmetry. apply andb_true_iff. rewrite Z.leb_le, Z.ltb_lt. apply A. reflexivity.
  - replace ((0 <=? value v) && (value v <? value p)) with false; [reflexivity|]. symmetry. apply not_true_iff_false. rewrite andb_true_iff, Z.leb_le, Z.ltb_lt. intros H. apply A in H. discriminate.
Qed.
Lemma base_claim x : elem c p x -> fe_is_negative x = false /\ base_is_zero x = (value (fv x) =? 0) /\ base_is_one x = (value (fv x) =? 0).
Proof.
  intros Hx. pose proof Hx as (Ex & Vx & Rx). destruct (fe_pred_claim c p Hp x x Hx Hx) as (_ & Z & _). split; [|split; exact Z].
  unfold fe_is_negative. pose proof (is_zero_value c (fv x) Vx) as E. rewrite E. destruct (Z.eqb_spec (value (fv x)) 0) as [E0|N0]; [reflexivity|]. rewrite (pos_sign (fv x) Vx) by lia. reflexivity.
Qed.
End FOP.
Lemma null_claim c x v chk : fm x = None -> fe_assign x v chk = Ok x /\ fe_set x v = Ok x /\ fe_modulus x = Abort /\
  (forall s op o, match op with FTimes => operand_is_one (fv x) o = false \/ is_one (fv x) = true | _ => True end -> field_op c s op x o = UB).
Proof.
  intros E. unfold fe_set, fe_assign, fe_modulus. rewrite E. split; [reflexivity|]. split; [reflexivity|]. split; [reflexivity|]. intros s op o H. destruct op; cbn [field_op]; unfold fe_add_of, fe_sub_of, fe_mul_of, with_m; rewrite E; try reflexivity.
  destruct (is_one (fv x)); [reflexivity|]. destruct H as [->|]; [reflexivity|discriminate].
Qed.
Lemma base_one_refute : exists p x y, modulus_ok fx_c p /\ elem fx_c p x /\ elem fx_c p y /\ value (fv x) = 1 /\ base_is_one x = false /\ value (fv y) = 0 /\ base_is_one y = true.
Proof. exists (fx 101), (fxe 1 101), (fxe 0 101). split; [apply fx_mod; lia|]. split; [apply fx_elem; lia|]. split; [apply fx_elem; lia|]. repeat split. Qed.
Lemma unreduced_refute : exists p x y r1 r2 r3 r4, modulus_ok fx_c p /\ elem fx_c p x /\ elem fx_c p y /\
  field_op fx_c ElementLeft FPlus x (KWord 500) = Ok r1 /\ value (fv r1) = 476 /\ field_op fx_c ElementLeft FMinus x (KI64 (-500)) = Ok r2 /\ value (fv r2) = 577 /\
  field_op fx_c ElementRight FTimes x (KInt (-3)) = Ok r3 /\ value (fv r3) = -29 /\ field_op fx_c Assignment FTimes y (KU64 500) = Ok r4 /\ value (fv r4) = 500.
Proof.
  exists (fx 101), (fxe 77 101), (fxe 1 101). do 4 eexists. split; [apply fx_mod; lia|]. split; [apply fx_elem; lia|]. split; [apply fx_elem; lia|].
  do 4 (split; [vm_compute; reflexivity|]; try (split; [vm_compute; reflexivity|])). vm_compute. reflexivity.
Qed.
(** the elements zero() and one() and the element made from a modulus alone *)
Lemma constants_claim c p : valid c p -> room c 1 -> valid c (fv (fe_zero c)) /\ value (fv (fe_zero c)) = 0 /\ fm (fe_zero c) = None /\ valid c (fv (fe_one c)) /\ value (fv (fe_one c)) = 1 /\ fm (fe_one c) = None /\
  value (fv (fe_of_modulus c p)) = 0 /\ fm (fe_of_modulus c p) = Some p.
Proof.
  intros V R. destruct (EcLaws.of_int_ok c 1 2 R ltac:(lia) ltac:(lia)) as (V1 & _ & E1). cbn [fe_zero fe_one fe_of_modulus fv fm].
  pose proof (NumProofs.zero_valid c p V) as V0. split; [exact V0|]. split; [reflexivity|]. split; [reflexivity|]. split; [exact V1|]. split; [exact E1|]. auto.
Qed.
