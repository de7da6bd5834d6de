(** Proofs about fp.hpp and the field element class: addition, subtraction, multiplication, inversion, division. *)
From Coq Require Import List ZArith Znumtheory Bool Lia.
From Verif Require Import Outcome LoopModel LoopProofs WordsModel WordsSpec BigintModel BigintSpec BigintProofs BigintBytes BigintClaims NumModel NumProofs NumClaims FpModel FpSpec.
Import ListNotations.
Open Scope Z_scope.

Section MOD.
Variable c : cap.
Variable p : bigint.
Hypothesis Hp : modulus_ok c p.
Let Vp : valid c p. Proof. apply Hp. Qed.
Let P1 : 1 < value p. Proof. apply Hp. Qed.
Let S1 : (1 <= size p)%nat. Proof. destruct Vp as (_ & H & _). lia. Qed.

Lemma mkrep r v : valid c r -> 0 <= value r < value p -> value r = v mod value p -> represents c p r v.
Proof. intros V R E. split; [split; assumption|exact E]. Qed.
Lemma red_size x : reduced c p x -> (size x <= size p)%nat.
Proof. intros (V & R). apply (size_le c); [exact V|exact Vp|lia]. Qed.
Lemma room_1 : room c (size p + 1). Proof. apply room_le with (2 * size p)%nat; [apply Hp|lia]. Qed.
Lemma room_r x : (size x <= size p)%nat -> room c (size x + 1). Proof. intros H. apply room_le with (size p + 1)%nat; [apply room_1|lia]. Qed.
Lemma room_max x y : (size x <= size p)%nat -> (size y <= size p)%nat -> room c (Nat.max (size x) (size y) + 1).
Proof. intros H H'. apply room_le with (size p + 1)%nat; [apply room_1|lia]. Qed.
Lemma room_sum x y : (size x <= size p)%nat -> (size y <= size p)%nat -> room c (size x + size y).
Proof. intros H H'. apply room_le with (2 * size p)%nat; [apply Hp|lia]. Qed.
Lemma zst : storage_ok c (zero c). Proof. apply (zero_storage c p Vp). Qed.
Lemma op_add_val x y : valid c x -> valid c y -> (size x <= size p)%nat -> (size y <= size p)%nat -> valid c (op_add c x y) /\ value (op_add c x y) = value x + value y.
Proof. intros. apply add_spec; auto using room_max, zst. Qed.
Lemma op_sub_val x y : valid c x -> valid c y -> (size x <= size p)%nat -> (size y <= size p)%nat -> valid c (op_sub c x y) /\ value (op_sub c x y) = value x - value y.
Proof. intros. apply sub_spec; auto using room_max, zst. Qed.
Lemma op_mul_val x y : valid c x -> valid c y -> (size x <= size p)%nat -> (size y <= size p)%nat -> valid c (op_mul c x y) /\ value (op_mul c x y) = value x * value y.
Proof.
  intros. unfold op_mul. destruct (mul_spec c false false (zero c) x y) as (r & -> & V & E); auto using room_sum, zst; try discriminate.
Qed.
Lemma op_mod_val x : valid c x -> exists r, op_mod c x p = Ok r /\ valid c r /\ value r = Z.rem (value x) (value p).
Proof. intros H. unfold op_mod. destruct (mod_r_spec c (zero c) x p zst H Vp ltac:(lia)) as (r & -> & V & E). cbn [bind snd]. eauto. Qed.
Lemma op_mod_pos x : valid c x -> 0 <= value x -> exists r, op_mod c x p = Ok r /\ represents c p r (value x).
Proof.
  intros H G. destruct (op_mod_val x H) as (r & E & V & R). exists r. split; [exact E|]. rewrite Z.rem_mod_nonneg in R by lia.
  pose proof (Z.mod_pos_bound (value x) (value p) ltac:(lia)). apply mkrep; [exact V|lia|exact R].
Qed.
Lemma mulmod_val x y : reduced c p x -> reduced c p y -> exists r, op_mod c (op_mul c x y) p = Ok r /\ represents c p r (value x * value y).
Proof.
  intros Hx Hy. destruct (op_mul_val x y) as (V & E); try apply Hx; try apply Hy; auto using red_size.
  rewrite <- E. apply op_mod_pos; [exact V|]. rewrite E. destruct Hx as (_ & ?), Hy as (_ & ?). nia.
Qed.
Lemma sqr_mod_val x : reduced c p x -> exists r, sqr_mod c x p = Ok r /\ represents c p r (value x * value x).
Proof.
  intros Hx. unfold sqr_mod, sqr. destruct (mul_spec c false false (zero c) x x) as (r & -> & V & E); auto using room_sum, zst, red_size; try apply Hx; try discriminate.
  cbn [snd]. rewrite <- E. apply op_mod_pos; [exact V|]. rewrite E. destruct Hx as (_ & ?). nia.
Qed.
Lemma cs1 x k : valid c x -> int32 k -> cmp_result (compares1 x k) (value x) k. Proof. apply compares1_spec. Qed.

Lemma is_valid_claim x : valid c x -> (fp_is_valid x p = true <-> 0 <= value x < value p).
Proof.
  intros V. unfold fp_is_valid. pose proof (cs1 x 0 V ltac:(unfold int32; lia)) as A. pose proof (compare_spec c x p V Vp) as B0.
  unfold cmp_result in *. rewrite andb_true_iff. lia.
Qed.
Lemma neg_claim x : reduced c p x -> represents c p (fp_neg c x p) (- value x).
Proof.
  intros H. pose proof H as (V & R). unfold fp_neg. pose proof (cs1 x 0 V ltac:(unfold int32; lia)) as A. unfold cmp_result in A.
  destruct (Z.eqb_spec (compares1 x 0) 0) as [E|E].
  - assert (value x = 0) as E0 by lia. split; [exact H|]. rewrite E0. reflexivity.
  - destruct (op_sub_val p x Vp V) as (V' & E'); auto using red_size. apply mkrep; [exact V'|lia|]. rewrite E'.
    replace ((- value x) mod value p) with (value p - value x) by (apply (Zmod_unique _ _ (-1)); lia). reflexivity.
Qed.
Lemma add_tail_claim s : valid c s -> 0 <= value s < 2 * value p -> represents c p (fp_add_tail c s p) (value s).
Proof.
  intros V R. unfold fp_add_tail. pose proof (compare_spec c s p V Vp) as C. unfold cmp_result in C.
  destruct (Z.geb_spec (compare s p) 0).
  - assert (NS : neg s = false). { pose proof (magnitude_range c s V) as M. rewrite value_sgn in C, R. destruct (neg s); [cbn [sgn] in *; lia|reflexivity]. }
    assert (NP : neg p = false). { pose proof (magnitude_range c p Vp) as M. rewrite (value_sgn p) in P1. destruct (neg p); [cbn [sgn] in *; lia|reflexivity]. }
    destruct (sub_same_claim c s s p V V Vp ltac:(congruence)) as (V' & E'). apply mkrep; [exact V'|lia|]. rewrite E'.
    replace (value s mod value p) with (value s - value p) by (apply (Zmod_unique _ _ 1); lia). reflexivity.
  - split; [split; [exact V|lia]|]. rewrite Z.mod_small; lia.
Qed.
Lemma sub_tail_claim s : valid c s -> - value p <= value s < value p -> represents c p (fp_sub_tail c s p) (value s).
Proof.
  intros V R. unfold fp_sub_tail. pose proof (cs1 s 0 V ltac:(unfold int32; lia)) as C. unfold cmp_result in C.
  destruct (Z.ltb_spec (compares1 s 0) 0).
  - assert (NS : neg s = true). { pose proof (magnitude_range c s V) as M. rewrite value_sgn in C, R. destruct (neg s); [reflexivity|cbn [sgn] in *; lia]. }
    assert (NP : neg p = false). { pose proof (magnitude_range c p Vp) as M. rewrite (value_sgn p) in P1. destruct (neg p); [cbn [sgn] in *; lia|reflexivity]. }
    destruct (add_opposite_claim c s s p V V Vp ltac:(congruence)) as (V' & E'). apply mkrep; [exact V'|lia|]. rewrite E'.
    apply (Zmod_unique _ _ (-1)); lia.
  - split; [split; [exact V|lia]|]. rewrite Z.mod_small; lia.
Qed.
Lemma fp_add_claim x y : reduced c p x -> reduced c p y -> represents c p (fp_add c x y p) (value x + value y).
Proof.
  intros Hx Hy. destruct (op_add_val x y) as (V & E); try apply Hx; try apply Hy; auto using red_size. unfold fp_add. rewrite <- E.
  apply add_tail_claim; [exact V|]. rewrite E. destruct Hx as (_ & ?), Hy as (_ & ?). lia.
Qed.
Lemma fp_sub_claim x y : reduced c p x -> reduced c p y -> represents c p (fp_sub c x y p) (value x - value y).
Proof.
  intros Hx Hy. destruct (op_sub_val x y) as (V & E); try apply Hx; try apply Hy; auto using red_size. unfold fp_sub. rewrite <- E.
  apply sub_tail_claim; [exact V|]. rewrite E. destruct Hx as (_ & ?), Hy as (_ & ?). lia.
Qed.
Lemma fp_add_int_claim x k : reduced c p x -> - 2 ^ 31 <= k < 2 ^ 31 -> 0 <= k <= value p -> represents c p (fp_add_int c x k p) (value x + k).
Proof.
  intros Hx K R. pose proof Hx as (V & Rx). destruct (adds1_spec c false (zero c) x k zst V K (room_r x (red_size x Hx)) ltac:(discriminate)) as (V' & E).
  unfold fp_add_int. rewrite <- E. apply add_tail_claim; [exact V'|]. lia.
Qed.
Lemma fp_sub_int_claim x k : reduced c p x -> - 2 ^ 31 <= k < 2 ^ 31 -> 0 <= k <= value p -> represents c p (fp_sub_int c x k p) (value x - k).
Proof.
  intros Hx K R. pose proof Hx as (V & Rx). destruct (subs1_spec c false (zero c) x k zst V K (room_r x (red_size x Hx)) ltac:(discriminate)) as (V' & E).
  unfold fp_sub_int. rewrite <- E. apply sub_tail_claim; [exact V'|]. lia.
Qed.
Lemma fp_mul_int_claim x k : reduced c p x -> - 2 ^ 31 <= k < 2 ^ 31 -> 0 <= k -> exists r, fp_mul_int c x k p = Ok r /\ represents c p r (value x * k).
Proof.
  intros Hx K R. pose proof Hx as (V & Rx). destruct (muls1_spec c (zero c) x k zst V K (room_r x (red_size x Hx))) as (V' & E).
  unfold fp_mul_int. rewrite <- E. apply op_mod_pos; [exact V'|]. rewrite E. nia.
Qed.

(** *** field elements *)
Notation F := (elem c p).
Lemma denotes_of x v : represents c p x v -> denotes c p (mkfe x (Some p)) v.
Proof. intros (R & E). repeat split; try exact E; try apply R. Qed.
Lemma denotes_self x : F x -> denotes c p x (value (fv x)).
Proof. intros H. split; [exact H|]. symmetry. apply Z.mod_small. apply H. Qed.
Lemma fe_add_claim x y : F x -> F y -> returns c p (fe_add c x y) (value (fv x) + value (fv y)).
Proof. intros (Ex & Hx) (_ & Hy). unfold fe_add, fe_add_big, with_m. rewrite Ex. cbn [bind]. eexists. split; [reflexivity|]. apply denotes_of, fp_add_claim; assumption. Qed.
Lemma fe_sub_claim x y : F x -> F y -> returns c p (fe_sub c x y) (value (fv x) - value (fv y)).
Proof. intros (Ex & Hx) (_ & Hy). unfold fe_sub, fe_sub_big, with_m. rewrite Ex. cbn [bind]. eexists. split; [reflexivity|]. apply denotes_of, fp_sub_claim; assumption. Qed.
Lemma fe_neg_claim x : F x -> returns c p (fe_neg c x) (- value (fv x)).
Proof. intros (Ex & Hx). unfold fe_neg, with_m. rewrite Ex. cbn [bind]. eexists. split; [reflexivity|]. apply denotes_of, neg_claim; assumption. Qed.
Lemma mod_red x : reduced c p x -> value x = value x mod value p.
Proof. intros (_ & R). symmetry. apply Z.mod_small. exact R. Qed.
Lemma fe_mul_big_claim x y : F x -> reduced c p y -> returns c p (fe_mul_big c x y) (value (fv x) * value y).
Proof.
  intros (Ex & Hx) Hy. unfold fe_mul_big, with_m. rewrite !(is_one_value c) by (apply Hx || apply Hy). rewrite Ex. cbn [bind].
  destruct (Z.eqb_spec (value (fv x)) 1) as [E|E].
  - eexists. split; [reflexivity|]. apply denotes_of. split; [exact Hy|]. rewrite E, Z.mul_1_l. apply mod_red. exact Hy.
  - destruct (Z.eqb_spec (value y) 1) as [E'|E'].
    + exists x. split; [reflexivity|]. split; [split; assumption|]. rewrite E', Z.mul_1_r. apply mod_red. exact Hx.
    + unfold fp_mul. destruct (mulmod_val (fv x) y Hx Hy) as (r & -> & R). cbn [bind]. eexists. split; [reflexivity|]. apply denotes_of. exact R.
Qed.
Lemma fe_mul_claim x y : F x -> F y -> returns c p (fe_mul c x y) (value (fv x) * value (fv y)).
Proof. intros Hx (_ & Hy). apply fe_mul_big_claim; assumption. Qed.
Lemma fe_sqr_claim x : F x -> returns c p (fe_sqr c x) (value (fv x) * value (fv x)).
Proof.
  intros (Ex & Hx). unfold fe_sqr, with_m. rewrite !(is_one_value c) by apply Hx. rewrite Ex.
  destruct (Z.eqb_spec (value (fv x)) 1) as [E|E].
  - exists x. split; [reflexivity|]. split; [split; assumption|]. rewrite E at 2. rewrite Z.mul_1_l. apply mod_red. exact Hx.
  - unfold fp_sqr, fp_mul. destruct (mulmod_val (fv x) (fv x) Hx Hx) as (r & -> & R). cbn [bind]. eexists. split; [reflexivity|]. apply denotes_of. exact R.
Qed.
Lemma returns_mod o v w : returns c p o v -> v mod value p = w mod value p -> returns c p o w.
Proof. intros (r & E & D) H. exists r. split; [exact E|]. destruct D as (? & D). split; [assumption|]. congruence. Qed.
Lemma feval_claim env e : (forall n, F (env n)) -> returns c p (feval c env e) (zeval (fun n => value (fv (env n))) e).
Proof.
  intros He. pose proof P1 as P1'. induction e as [n|a IHa b IHb|a IHa b IHb|a IHa b IHb|a IHa|a IHa]; cbn [feval zeval].
  - exists (env n). split; [reflexivity|]. apply denotes_self, He.
  - destruct IHa as (x & -> & Hx & Ex), IHb as (y & -> & Hy & Ey). cbn [bind]. eapply returns_mod; [apply fe_add_claim; assumption|]. rewrite Ex, Ey. symmetry. apply Zplus_mod.
  - destruct IHa as (x & -> & Hx & Ex), IHb as (y & -> & Hy & Ey). cbn [bind]. eapply returns_mod; [apply fe_sub_claim; assumption|]. rewrite Ex, Ey. symmetry. apply Zminus_mod.
  - destruct IHa as (x & -> & Hx & Ex), IHb as (y & -> & Hy & Ey). cbn [bind]. eapply returns_mod; [apply fe_mul_claim; assumption|]. rewrite Ex, Ey. symmetry. apply Zmult_mod.
  - destruct IHa as (x & -> & Hx & Ex). cbn [bind]. eapply returns_mod; [apply fe_sqr_claim; assumption|]. rewrite Ex. symmetry. apply Zmult_mod.
  - destruct IHa as (x & -> & Hx & Ex). cbn [bind]. eapply returns_mod; [apply fe_neg_claim; assumption|]. rewrite Ex. rewrite <- !Z.sub_0_l. rewrite (Zminus_mod_idemp_r 0). reflexivity.
Qed.
(** mixed operations with a native integer or a big integer on the right *)
Lemma fe_add_int_claim x k : F x -> - 2 ^ 31 <= k < 2 ^ 31 -> 0 <= k <= value p -> returns c p (fe_add_int c x k) (value (fv x) + k).
Proof. intros (Ex & Hx) ? ?. unfold fe_add_int, with_m. rewrite Ex. cbn [bind]. eexists. split; [reflexivity|]. apply denotes_of, fp_add_int_claim; assumption. Qed.
Lemma fe_sub_int_claim x k : F x -> - 2 ^ 31 <= k < 2 ^ 31 -> 0 <= k <= value p -> returns c p (fe_sub_int c x k) (value (fv x) - k).
Proof. intros (Ex & Hx) ? ?. unfold fe_sub_int, with_m. rewrite Ex. cbn [bind]. eexists. split; [reflexivity|]. apply denotes_of, fp_sub_int_claim; assumption. Qed.
Lemma fe_mul_int_claim x k : F x -> - 2 ^ 31 <= k < 2 ^ 31 -> 0 <= k -> (value (fv x) = 1 -> k < value p) -> returns c p (fe_mul_int c x k) (value (fv x) * k).
Proof.
  intros (Ex & Hx) K0 K1 K2. unfold fe_mul_int, with_m. rewrite !(is_one_value c) by apply Hx. rewrite Ex. cbn [bind].
  destruct (Z.eqb_spec (value (fv x)) 1) as [E|E].
  - specialize (K2 E). destruct (of_int_value c k (valid_room1 c p Vp) ltac:(lia)) as ((V & _) & Ek). eexists. split; [reflexivity|]. apply denotes_of. rewrite E, Z.mul_1_l.
    apply mkrep; [exact V|lia|]. rewrite Ek. symmetry. apply Z.mod_small. lia.
  - destruct (Z.eqb_spec k 1) as [E'|E'].
    + exists x. split; [reflexivity|]. split; [split; assumption|]. rewrite E', Z.mul_1_r. apply mod_red. exact Hx.
    + destruct (fp_mul_int_claim (fv x) k Hx K0 K1) as (r & -> & R). cbn [bind]. eexists. split; [reflexivity|]. apply denotes_of. exact R.
Qed.
(** predicates *)
Lemma fe_pred_claim x y : F x -> F y ->
  fe_is_valid x = true /\ fe_is_zero x = (value (fv x) =? 0) /\ fe_is_one x = (value (fv x) =? 1) /\ fe_eqb x y = (value (fv x) =? value (fv y)).
Proof.
  intros (Ex & Hx) (_ & Hy). pose proof P1 as P1'. unfold fe_is_valid, fe_is_zero, fe_is_one, fe_eqb. rewrite Ex. rewrite !(is_one_value c), !(is_zero_value c) by (apply Hx || apply Vp).
  split; [apply is_valid_claim; apply Hx|]. pose proof (compare_claim c (fv x) (fv y) (proj1 Hx) (proj1 Hy)) as (C & _). rewrite C.
  split; [|split; reflexivity]. destruct (Z.eqb_spec (value (fv x)) 1), (Z.eqb_spec (value (fv x)) 0), (Z.eqb_spec (value p) 0), (Z.eqb_spec (value p) 1); cbn; lia.
Qed.
Lemma fe_make_claim v : valid c v ->
  (0 <= value v < value p -> exists x, fe_make v p true = Ok x /\ F x /\ value (fv x) = value v) /\
  (~ 0 <= value v < value p -> fe_make v p true = Abort).
Proof.
  intros V. pose proof (is_valid_claim v V) as I. unfold fe_make. split; intros H.
  - rewrite (proj2 I H). eexists. split; [reflexivity|]. split; [|reflexivity]. split; [reflexivity|]. split; [exact V|exact H].
  - destruct (fp_is_valid v p); [exfalso; tauto|reflexivity].
Qed.
(** inversion and division *)
Lemma modinv_val b : reduced c p b -> Z.gcd (value b) (value p) = 1 -> exists r, op_modinv c b p = Ok r /\ reduced c p r /\ (value b * value r) mod value p = 1.
Proof.
  intros Hb G. pose proof Hb as (V & R). pose proof P1 as P1'.
  assert (0 < value b). { destruct (Z.eq_dec (value b) 0) as [E|E]; [rewrite E in G; cbn in G; lia|lia]. }
  destruct (modinv_claim c (zero c) b p (zero_valid c p Vp) V Vp ltac:(lia) P1 (room_max b p (red_size b Hb) (le_n _))) as (o & E & H1 & _).
  destruct (H1 G) as (r & -> & Vr & Rr & Er). unfold op_modinv. rewrite E. exists r. split; [reflexivity|]. split; [split; [exact Vr|lia]|exact Er].
Qed.
Lemma modinv_abort b : reduced c p b -> Z.gcd (value b) (value p) <> 1 -> op_modinv c b p = Abort.
Proof.
  intros Hb G. pose proof Hb as (V & R). pose proof P1 as P1'.
  destruct (Z.eq_dec (value b) 0) as [E|E]; [apply (modinv_zero_claim c (zero c)); auto; apply (zero_valid c p Vp)|].
  destruct (modinv_claim c (zero c) b p (zero_valid c p Vp) V Vp ltac:(lia) P1 (room_max b p (red_size b Hb) (le_n _))) as (o & E' & _ & H2).
  rewrite (H2 G) in E'. unfold op_modinv. rewrite E'. reflexivity.
Qed.
Definition quotient (a b : Z) (o : outcome fe) : Prop := exists r, o = Ok r /\ F r /\ (value (fv r) * b) mod value p = a mod value p.
Lemma fe_inv_claim b : F b -> Z.gcd (value (fv b)) (value p) = 1 -> quotient 1 (value (fv b)) (fe_inv c b).
Proof.
  intros (Eb & Hb) G. unfold fe_inv, with_m. rewrite Eb. destruct (modinv_val (fv b) Hb G) as (r & -> & R & E). cbn [bind]. eexists. split; [reflexivity|].
  split; [split; [reflexivity|exact R]|]. cbn [fv]. rewrite Z.mul_comm, E. symmetry. apply Z.mod_small. pose proof P1; lia.
Qed.
Lemma fe_div_big_claim a b : F a -> reduced c p b -> Z.gcd (value b) (value p) = 1 -> quotient (value (fv a)) (value b) (fe_div_big c a b).
Proof.
  intros (Ea & Ha) Hb G. pose proof P1 as P1'. unfold fe_div_big, with_m. rewrite (is_one_value c) by apply Hb. destruct (Z.eqb_spec (value b) 1) as [E1|E1].
  - exists a. split; [reflexivity|]. split; [split; assumption|]. rewrite E1, Z.mul_1_r. reflexivity.
  - rewrite Ea. unfold fp_div. destruct (modinv_val b Hb G) as (i & -> & Ri & Ei). cbn [bind]. destruct (mulmod_val (fv a) i Ha Ri) as (r & -> & R & Er). cbn [bind].
    eexists. split; [reflexivity|]. split; [split; [reflexivity|exact R]|]. cbn [fv]. rewrite Er, Z.mul_mod_idemp_l by lia.
    replace (value (fv a) * value i * value b) with (value (fv a) * (value b * value i)) by ring. rewrite <- Z.mul_mod_idemp_r, Ei by lia. rewrite Z.mul_1_r. reflexivity.
Qed.
Lemma fe_div_claim a b : F a -> F b -> Z.gcd (value (fv b)) (value p) = 1 -> quotient (value (fv a)) (value (fv b)) (fe_div c a b).
Proof. intros Ha (_ & Hb). apply fe_div_big_claim; assumption. Qed.
Lemma fe_div_abort a b : F a -> F b -> Z.gcd (value (fv b)) (value p) <> 1 -> fe_inv c b = Abort /\ fe_div c a b = Abort.
Proof.
  intros (Ea & Ha) (Eb & Hb) G. unfold fe_inv, fe_div, fe_div_big, with_m, fp_div. rewrite Ea, Eb, (modinv_abort (fv b) Hb G). split; [reflexivity|].
  rewrite (is_one_value c) by apply Hb. destruct (Z.eqb_spec (value (fv b)) 1) as [E1|E1]; [|reflexivity]. exfalso. apply G. rewrite E1. apply Z.gcd_1_l.
Qed.
Lemma prime_gcd b : prime (value p) -> 0 < b < value p -> Z.gcd b (value p) = 1.
Proof. intros Q R. apply Zgcd_1_rel_prime. apply rel_prime_sym. apply prime_rel_prime; [exact Q|]. intros D. apply Z.divide_pos_le in D; lia. Qed.
Lemma normalize_claim a : valid c a -> (byte_length a <= byte_length p -> - value p <= value a < 2 * value p) ->
  (byte_length p < byte_length a -> 0 <= value a \/ ~ (value p | value a)) -> exists r, fp_normalize c a p = Ok r /\ represents c p r (value a).
Proof.
  intros V S L. pose proof P1 as P1'. unfold fp_normalize.
  pose proof (cs1 a 0 V ltac:(unfold int32; lia)) as C0. pose proof (cs1 a 1 V ltac:(unfold int32; lia)) as C1. pose proof (cs1 p 1 Vp ltac:(unfold int32; lia)) as Cp. pose proof (compare_spec c a p V Vp) as C. unfold cmp_result in *.
  assert (NP : neg p = false). { pose proof (magnitude_range c p Vp) as M. rewrite (value_sgn p) in P1'. destruct (neg p); [cbn [sgn] in *; lia|reflexivity]. }
  destruct ((compares1 a 0 =? 0) || ((compares1 a 1 =? 0) && negb (compares1 p 1 =? 0))) eqn:B0.
  { exists a. split; [reflexivity|]. assert (value a = 0 \/ value a = 1) by lia. apply mkrep; [exact V|lia|]. symmetry. apply Z.mod_small. lia. }
  assert (N0 : value a <> 0) by lia.
  destruct (Z.ltb_spec (compares1 a 0) 0) as [N|N].
  - assert (A : exists r, (if byte_length p <? byte_length a then let* r := mod_r c a a p in Ok (snd r) else Ok a) = Ok r /\ valid c r /\ - value p <= value r < 0 /\ value r mod value p = value a mod value p).
    { destruct (Z.ltb_spec (byte_length p) (byte_length a)) as [H|H].
      - destruct (mod_r_spec c a a p (valid_storage _ _ V) V Vp ltac:(lia)) as (r & -> & Vr & Er). cbn [bind snd]. exists r. split; [reflexivity|]. split; [exact Vr|].
        pose proof (Z.quot_rem (value a) (value p) ltac:(lia)) as Q. pose proof (Z.rem_bound_abs (value a) (value p) ltac:(lia)) as Bd. pose proof (Z.rem_sign_mul (value a) (value p) ltac:(lia)) as Sg.
        assert (Nz : Z.rem (value a) (value p) <> 0). { intros Z0. destruct (L H) as [?|D]; [lia|]. apply D. exists (Z.quot (value a) (value p)). lia. }
        split; [nia|]. rewrite Er. rewrite Q at 2. rewrite Z.add_comm, Z.mul_comm, Z_mod_plus_full. reflexivity.
      - exists a. split; [reflexivity|]. split; [exact V|]. split; [lia|reflexivity]. }
    destruct A as (r & -> & Vr & Rr & Er). cbn [bind]. eexists. split; [reflexivity|].
    assert (NS : neg r = true). { pose proof (magnitude_range c r Vr) as M. rewrite (value_sgn r) in Rr. destruct (neg r); [reflexivity|cbn [sgn] in *; lia]. }
    destruct (add_opposite_claim c r r p Vr Vr Vp ltac:(congruence)) as (V' & E'). apply mkrep; [exact V'|lia|]. rewrite <- Er, E'. apply (Zmod_unique _ _ (-1)); lia.
  - destruct (Z.geb_spec (compare a p) 0) as [G|G].
    + destruct (Z.ltb_spec (byte_length p) (byte_length a)) as [H|H].
      * destruct (mod_r_spec c a a p (valid_storage _ _ V) V Vp ltac:(lia)) as (r & -> & Vr & Er). cbn [bind snd]. exists r. split; [reflexivity|]. rewrite Z.rem_mod_nonneg in Er by lia.
        pose proof (Z.mod_pos_bound (value a) (value p) ltac:(lia)). apply mkrep; [exact Vr|lia|exact Er].
      * assert (NS : neg a = false). { pose proof (magnitude_range c a V) as M. rewrite (value_sgn a) in C. destruct (neg a); [cbn [sgn] in *; lia|reflexivity]. }
        destruct (sub_same_claim c a a p V V Vp ltac:(congruence)) as (V' & E'). eexists. split; [reflexivity|]. apply mkrep; [exact V'|lia|]. rewrite E'. apply (Zmod_unique _ _ 1); lia.
    + exists a. split; [reflexivity|]. apply mkrep; [exact V|lia|]. symmetry. apply Z.mod_small. lia.
Qed.
Lemma gcd_zero : Z.gcd 0 (value p) <> 1. Proof. cbn. pose proof P1. lia. Qed.
End MOD.
