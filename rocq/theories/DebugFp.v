(** The field operations with assertions enabled: for operands no longer than the modulus no assertion
    fails and the result is that of the release build. *)
From Coq Require Import List ZArith Znumtheory Bool Lia.
From Verif Require Import Outcome LoopModel WordsModel WordsSpec WordsProofs BigintModel BigintSpec BigintProofs BigintClaims NumModel NumProofs FpModel FpSpec FpProofs FpClaims FpSqrt EcModel EcCurveModel EcdsaModel AssertModel AssertSpec AssertProofs AssertRefine AssertSim AssertExact AssertLoops AssertPow DebugEcModel.
Import ListNotations.
Open Scope Z_scope.

(** from "exact or stopped" and "release or stopped" *)
Lemma exact_eq c P v d r : exact_or_stop c P v d -> below d (Ok r) -> P -> d = Ok r.
Proof. intros (H & _) [E|E] HP; [destruct (H HP) as (x & E' & _); congruence|exact E]. Qed.
Lemma pos_neg c x : valid c x -> 0 < value x -> neg x = false.
Proof. intros V H. rewrite (neg_of_value c x V) by lia. lia. Qed.
Lemma neg_neg c x : valid c x -> value x < 0 -> neg x = true.
Proof. intros V H. rewrite (neg_of_value c x V) by lia. lia. Qed.

(** the two outcomes agree and a returned object is good *)
Definition same {A : Type} (G : A -> Prop) (d f : outcome A) : Prop := d = f /\ forall v, f = Ok v -> G v.
Lemma same_ok {A} (G : A -> Prop) v : G v -> same G (Ok v) (Ok v).
Proof. intros H. split; [reflexivity|]. intros w E. injection E as <-. exact H. Qed.
Lemma same_abort {A} (G : A -> Prop) : same G Abort Abort. Proof. split; [reflexivity|discriminate]. Qed.
Lemma same_bind {A B} (G : A -> Prop) (H : B -> Prop) d f k l : same G d f -> (forall v, G v -> same H (k v) (l v)) -> same H (bind d k) (bind f l).
Proof. intros (-> & K) Q. destruct f as [v| | |]; [apply Q, K; reflexivity|split; [reflexivity|discriminate]..]. Qed.
Lemma same_if {A} (G : A -> Prop) (b : bool) d f d' f' : same G d f -> same G d' f' -> same G (if b then d else d') (if b then f else f').
Proof. destruct b; auto. Qed.
Lemma same_any {A} (d f : outcome A) : d = f -> same (fun _ => True) d f. Proof. intros ->. split; auto. Qed.

Section FP.
Variable c : cap.
Variable p : bigint.
Hypothesis Hp : modulus_ok c p.
Let Vp : valid c p. Proof. apply Hp. Qed.
Let P1 : 1 < value p. Proof. apply Hp. Qed.
Definition fits (x : bigint) : Prop := valid c x /\ (size x <= size p)%nat.
Lemma red_fits x : reduced c p x -> fits x. Proof. intros H. split; [apply H|apply (red_size c p Hp x H)]. Qed.
Lemma p_fits : fits p. Proof. split; [exact Vp|lia]. Qed.
Lemma zs : storage_ok c (zero c). Proof. apply (zero_storage c p Vp). Qed.

Lemma d_op_add_fits a b : fits a -> fits b -> d_op_add c a b = Ok (op_add c a b).
Proof. intros (Va & Sa) (Vb & Sb). eapply exact_eq; [apply (d_add_ok c (zero c) a b zs Va Vb)|apply b_add|]. intros _. apply (room_max c p Hp); assumption. Qed.
Lemma d_op_sub_fits a b : fits a -> fits b -> d_op_sub c a b = Ok (op_sub c a b).
Proof. intros (Va & Sa) (Vb & Sb). eapply exact_eq; [apply (d_sub_ok c (zero c) a b zs Va Vb)|apply b_sub|]. intros _. apply (room_max c p Hp); assumption. Qed.
Lemma d_op_mul_fits a b : fits a -> fits b -> d_op_mul c a b = Ok (op_mul c a b) /\ valid c (op_mul c a b).
Proof.
  intros (Va & Sa) (Vb & Sb). split; [|apply (FpProofs.op_mul_val c p Hp a b Va Vb Sa Sb)].
  eapply exact_eq; [apply (d_op_mul_ok c a b Va Vb)|apply b_op_mul|]. apply (room_sum c p Hp); assumption.
Qed.
Lemma d_op_mod_eq x m : valid c x -> valid c m -> d_op_mod c x m = op_mod c x m.
Proof. intros V Vm. unfold d_op_mod, op_mod. rewrite (d_mod_r_eq c (zero c) x m (zero_storage c x V) V Vm). reflexivity. Qed.
Lemma d_fp_neg_eq a : fits a -> d_fp_neg c a p = Ok (fp_neg c a p).
Proof. intros H. unfold d_fp_neg, fp_neg. destruct (_ =? _); [reflexivity|]. apply d_op_sub_fits; [apply p_fits|exact H]. Qed.
Lemma d_add_tail_eq r : valid c r -> d_fp_add_tail c r p = Ok (fp_add_tail c r p).
Proof.
  intros V. unfold d_fp_add_tail, fp_add_tail. pose proof (compare_spec c r p V Vp) as C. unfold cmp_result in C. destruct (Z.geb_spec (compare r p) 0); [|reflexivity].
  eapply exact_eq; [apply (d_sub_ok c r r p (valid_storage _ _ V) V Vp)|apply b_sub|]. intros N. exfalso. apply N. rewrite (pos_neg c r V), (pos_neg c p Vp) by lia. reflexivity.
Qed.
Lemma d_sub_tail_eq r : valid c r -> d_fp_sub_tail c r p = Ok (fp_sub_tail c r p).
Proof.
  intros V. unfold d_fp_sub_tail, fp_sub_tail. pose proof (compares1_spec c r 0 V ltac:(unfold int32; lia)) as C. unfold cmp_result in C. destruct (Z.ltb_spec (compares1 r 0) 0); [|reflexivity].
  eapply exact_eq; [apply (d_add_ok c r r p (valid_storage _ _ V) V Vp)|apply b_add|]. intros N. rewrite (neg_neg c r V), (pos_neg c p Vp) in N by lia. discriminate N.
Qed.
Lemma d_fp_add_eq a b : fits a -> fits b -> d_fp_add c a b p = Ok (fp_add c a b p).
Proof. intros Ha Hb. unfold d_fp_add. rewrite (d_op_add_fits a b Ha Hb). cbn [bind]. apply d_add_tail_eq. apply (FpProofs.op_add_val c p Hp a b); first [apply Ha|apply Hb]. Qed.
Lemma d_fp_sub_eq a b : fits a -> fits b -> d_fp_sub c a b p = Ok (fp_sub c a b p).
Proof. intros Ha Hb. unfold d_fp_sub. rewrite (d_op_sub_fits a b Ha Hb). cbn [bind]. apply d_sub_tail_eq. apply (FpProofs.op_sub_val c p Hp a b); first [apply Ha|apply Hb]. Qed.
Lemma d_fp_mul_eq a b : fits a -> fits b -> d_fp_mul c a b p = fp_mul c a b p.
Proof. intros Ha Hb. unfold d_fp_mul, fp_mul. destruct (d_op_mul_fits a b Ha Hb) as (-> & V). cbn [bind]. apply d_op_mod_eq; [exact V|exact Vp]. Qed.
Lemma d_fp_mul_int_eq a k : fits a -> int32 k -> k <> - 2 ^ 31 -> d_fp_mul_int c a k p = fp_mul_int c a k p.
Proof.
  intros (Va & Sa) K N. pose proof (room_r c p Hp a Sa) as Ra. destruct (muls1_spec c (zero c) a k zs Va K Ra) as (V & _). unfold d_fp_mul_int, fp_mul_int.
  rewrite (exact_eq c _ _ _ _ (d_muls1_ok c (zero c) a k zs Va K) (b_muls1 c (zero c) a k)) by (split; assumption). cbn [bind]. apply d_op_mod_eq; [exact V|exact Vp].
Qed.
Lemma d_op_modinv_eq b : fits b -> 0 <= value b -> d_op_modinv c b p = op_modinv c b p.
Proof.
  intros (Vb & Sb) R. unfold d_op_modinv, op_modinv. f_equal. destruct (Z.eq_dec (value b) 0) as [E|E].
  - unfold d_modinv, modinv. rewrite !(is_zero_value c) by assumption. rewrite E. replace (value p =? 0) with false by lia. cbn [negb check bind Z.eqb].
    rewrite d_assign_int_ok by (try apply (valid_room1 c b Vb); lia). reflexivity.
  - apply d_modinv_eq; try assumption; try lia; [apply zs|apply (room_max c p Hp); lia].
Qed.
Lemma d_op_modexp_eq x y : fits x -> 0 <= value x -> valid c y -> d_op_modexp c x y p = op_modexp c x y p.
Proof.
  intros (Vx & Sx) R Vy. unfold d_op_modexp, op_modexp. f_equal. destruct (neg y) eqn:N; [unfold d_modexp, modexp; rewrite N; reflexivity|].
  destruct (b_modexp c (zero c) x y p) as [E|E]; [|exact E].
  destruct (d_modexp_runs c (zero c) x y p (NumProofs.zero_valid c p Vp) Vx Vy Vp R N ltac:(lia)) as [(_ & H)|(r & H)]; [|congruence].
  exfalso. apply H. apply room_le with (2 * size p)%nat; [apply Hp|lia].
Qed.
Lemma d_fp_div_eq a b : fits a -> reduced c p b -> d_fp_div c a b p = fp_div c a b p.
Proof.
  intros Ha Hb. unfold d_fp_div, fp_div. rewrite (d_op_modinv_eq b (red_fits b Hb)) by apply Hb.
  destruct (Z.eq_dec (Z.gcd (value b) (value p)) 1) as [E|E].
  - destruct (modinv_val c p Hp b Hb E) as (r & -> & Hr & _). cbn [bind]. apply d_fp_mul_eq; [exact Ha|apply red_fits, Hr].
  - rewrite (modinv_abort c p Hp b Hb E). reflexivity.
Qed.
End FP.
