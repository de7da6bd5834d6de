(** Property theorems C27-C30 (prime field elements: fp.hpp, fe.hpp). *)
From Coq Require Import List ZArith Znumtheory Bool Lia.
From Verif Require Import Outcome WordsModel WordsSpec BigintModel BigintSpec BigintProofs BigintClosure BigintClaims NumModel JacobiSpec FpModel FpSpec FpProofs FpSqrt FpClaims.
Import ListNotations.
Open Scope Z_scope.

(** C27: addition returns the reduced sum modulo p, for any modulus above 1. *)
Theorem C27_add : forall c p, modulus_ok c p -> forall x y,
  elem c p x -> elem c p y -> returns c p (fe_add c x y) (value (fv x) + value (fv y)).
Proof. exact fe_add_claim. Qed.
Print Assumptions C27_add.
(** C27: subtraction. *)
Theorem C27_sub : forall c p, modulus_ok c p -> forall x y,
  elem c p x -> elem c p y -> returns c p (fe_sub c x y) (value (fv x) - value (fv y)).
Proof. exact fe_sub_claim. Qed.
Print Assumptions C27_sub.
(** C27: multiplication. *)
Theorem C27_mul : forall c p, modulus_ok c p -> forall x y,
  elem c p x -> elem c p y -> returns c p (fe_mul c x y) (value (fv x) * value (fv y)).
Proof. exact fe_mul_claim. Qed.
Print Assumptions C27_mul.
(** C27: squaring. *)
Theorem C27_sqr : forall c p, modulus_ok c p -> forall x,
  elem c p x -> returns c p (fe_sqr c x) (value (fv x) * value (fv x)).
Proof. exact fe_sqr_claim. Qed.
Print Assumptions C27_sqr.
(** C27: negation. *)
Theorem C27_neg : forall c p, modulus_ok c p -> forall x,
  elem c p x -> returns c p (fe_neg c x) (- value (fv x)).
Proof. exact fe_neg_claim. Qed.
Print Assumptions C27_neg.
(** C27: any expression over these operations evaluates, without overflow or abort, to the reduced representative of its integer value. *)
Theorem C27_expressions : forall c p, modulus_ok c p -> forall env e,
  (forall n, elem c p (env n)) -> returns c p (feval c env e) (zeval (fun n => value (fv (env n))) e).
Proof. exact feval_claim. Qed.
Print Assumptions C27_expressions.
(** C27: the second operand may be an int between 0 and p. *)
Theorem C27_add_int : forall c p, modulus_ok c p -> forall x k,
  elem c p x -> - 2 ^ 31 <= k < 2 ^ 31 -> 0 <= k <= value p -> returns c p (fe_add_int c x k) (value (fv x) + k).
Proof. exact fe_add_int_claim. Qed.
Print Assumptions C27_add_int.
(** C27: likewise. *)
Theorem C27_sub_int : forall c p, modulus_ok c p -> forall x k,
  elem c p x -> - 2 ^ 31 <= k < 2 ^ 31 -> 0 <= k <= value p -> returns c p (fe_sub_int c x k) (value (fv x) - k).
Proof. exact fe_sub_int_claim. Qed.
Print Assumptions C27_sub_int.
(** C27: likewise, for any non-negative int except when the element is 1 (then the int is not reduced). *)
Theorem C27_mul_int : forall c p, modulus_ok c p -> forall x k,
  elem c p x -> - 2 ^ 31 <= k < 2 ^ 31 -> 0 <= k -> (value (fv x) = 1 -> k < value p) -> returns c p (fe_mul_int c x k) (value (fv x) * k).
Proof. exact fe_mul_int_claim. Qed.
Print Assumptions C27_mul_int.
(** C27: is_valid, is_zero, is_one and == agree with the denoted residues. *)
Theorem C27_predicates : forall c p, modulus_ok c p -> forall x y,
  elem c p x -> elem c p y ->
  fe_is_valid x = true /\ fe_is_zero x = (value (fv x) =? 0) /\ fe_is_one x = (value (fv x) =? 1) /\ fe_eqb x y = (value (fv x) =? value (fv y)).
Proof. exact fe_pred_claim. Qed.
Print Assumptions C27_predicates.
(** C27: the checking constructor accepts exactly the reduced values. *)
Theorem C27_constructor : forall c p, modulus_ok c p -> forall v,
  valid c v ->
  (0 <= value v < value p -> exists x, fe_make v p true = Ok x /\ elem c p x /\ value (fv x) = value v) /\
  (~ 0 <= value v < value p -> fe_make v p true = Abort).
Proof. exact fe_make_claim. Qed.
Print Assumptions C27_constructor.
(** C27: where fp_normalize reduces correctly. *)
Theorem C27_normalize : forall c p, modulus_ok c p -> forall a,
  valid c a -> (byte_length a <= byte_length p -> - value p <= value a < 2 * value p) ->
  (byte_length p < byte_length a -> 0 <= value a \/ ~ (value p | value a)) -> exists r, fp_normalize c a p = Ok r /\ represents c p r (value a).
Proof. exact normalize_claim. Qed.
Print Assumptions C27_normalize.
(** Outside that range it does not: 250 mod 101, -200 mod 101, -1010 mod 101. *)
Theorem C27_normalize_refuted : exists p a b d ra rb rd, modulus_ok fx_c p /\ produced fx_c a /\ produced fx_c b /\ produced fx_c d /\
  value a = 250 /\ fp_normalize fx_c a p = Ok ra /\ value p <= value ra /\ value b = -200 /\ fp_normalize fx_c b p = Ok rb /\ value rb < 0 /\
  value d = -1010 /\ fp_normalize fx_c d p = Ok rd /\ value rd = value p.
Proof. exact normalize_refute. Qed.
Print Assumptions C27_normalize_refuted.
(** C27: for a big integer operand that is not reduced the documented (this + x) % modulus and (this * x) % modulus fail. *)
Theorem C27_unreduced_operand_refuted : exists p f x r s, modulus_ok fx_c p /\ elem fx_c p f /\ valid fx_c x /\ 0 <= value x /\
  fe_add_big fx_c f x = Ok r /\ ~ reduced fx_c p (fv r) /\ fe_mul_big fx_c f x = Ok s /\ ~ reduced fx_c p (fv s).
Proof. exact unreduced_operand_refute. Qed.
Print Assumptions C27_unreduced_operand_refuted.
(** C27: zero() and one() cannot take part in arithmetic. *)
Theorem C27_null_modulus_ub : forall c x y,
  fm x = None -> fe_add c x y = UB /\ fe_sub c x y = UB /\ fe_neg c x = UB /\ fe_inv c x = UB.
Proof. exact null_modulus_ub. Qed.
Print Assumptions C27_null_modulus_ub.
Example C27_ex : modulus_ok fx_c (fx 101) /\ elem fx_c (fx 101) (fxe 77 101) /\
  match feval fx_c (fun n => fxe 77 101) (ESub (EMul (EVar 0) (ENeg (EVar 1))) (EAdd (ESqr (EVar 0)) (EVar 2))) with
  | Ok r => value (fv r) = (77 * - 77 - (77 * 77 + 77)) mod 101 | _ => False end.
Proof. split; [apply fx_mod; lia|]. split; [apply fx_elem; lia|]. vm_compute. reflexivity. Qed.
Example C27_normalize_ex : match fp_normalize fx_c (fx (-55)) (fx 101), fp_normalize fx_c (fx 1000) (fx 101), fp_normalize fx_c (fx 150) (fx 101) with
  | Ok a, Ok b, Ok d => value a = 46 /\ value b = 91 /\ value d = 49 | _, _, _ => False end.
Proof. vm_compute. repeat split. Qed.
(** C28: inversion of a non-zero element for a prime modulus. *)
Theorem C28_inv : forall c p b,
  modulus_ok c p -> prime (value p) -> elem c p b -> value (fv b) <> 0 ->
  exists r, fe_inv c b = Ok r /\ elem c p r /\ (value (fv r) * value (fv b)) mod value p = 1.
Proof. exact prime_inv_claim. Qed.
Print Assumptions C28_inv.
(** C28: division by a non-zero element for a prime modulus. *)
Theorem C28_div : forall c p a b,
  modulus_ok c p -> prime (value p) -> elem c p a -> elem c p b -> value (fv b) <> 0 ->
  exists r, fe_div c a b = Ok r /\ elem c p r /\ (value (fv r) * value (fv b)) mod value p = value (fv a).
Proof. exact prime_div_claim. Qed.
Print Assumptions C28_div.
(** C28: inverting or dividing by zero aborts. *)
Theorem C28_div_zero : forall c p a b,
  modulus_ok c p -> elem c p a -> elem c p b -> value (fv b) = 0 -> fe_inv c b = Abort /\ fe_div c a b = Abort.
Proof. exact zero_div_claim. Qed.
Print Assumptions C28_div_zero.
(** C28: for any modulus, a divisor with a common factor aborts. *)
Theorem C28_not_invertible : forall c p a b,
  modulus_ok c p -> elem c p a -> elem c p b -> Z.gcd (value (fv b)) (value p) <> 1 -> fe_inv c b = Abort /\ fe_div c a b = Abort.
Proof. exact not_invertible_claim. Qed.
Print Assumptions C28_not_invertible.
Example C28_ex : modulus_ok fx_c (fx 17) /\ prime (value (fx 17)) /\ elem fx_c (fx 17) (fxe 5 17) /\ value (fv (fxe 5 17)) <> 0 /\
  fe_inv fx_c (fxe 5 17) = Ok (fxe 7 17) /\ match fe_div fx_c (fxe 3 17) (fxe 5 17) with Ok r => value (fv r) = 4 | _ => False end /\
  fe_div fx_c (fxe 3 17) (fxe 0 17) = Abort /\ fe_inv fx_c (fxe 6 15) = Abort.
Proof.
  split; [apply fx_mod; lia|]. split; [exact prime_17|]. split; [apply fx_elem; lia|]. split; [discriminate|]. do 3 (split; [vm_compute; reflexivity|]). vm_compute. reflexivity.
Qed.
(** C29: for every prime modulus (2 included) sqrt returns a root of every square and 0 for every non-square. *)
Theorem C29_sqrt : forall c p x,
  modulus_ok c p -> prime (value p) -> elem c p x ->
  exists r, fe_sqrt c x = Ok r /\ elem c p r /\ (square_mod (value (fv x)) (value p) -> (value (fv r) * value (fv r)) mod value p = value (fv x)) /\
    (~ square_mod (value (fv x)) (value p) -> value (fv r) = 0).
Proof. exact fe_sqrt_claim. Qed.
Print Assumptions C29_sqrt.
(** C29: the only other root is the negated one. *)
Theorem C29_roots : forall p r s,
  prime p -> (r * r) mod p = (s * s) mod p -> s mod p = r mod p \/ s mod p = (- r) mod p.
Proof. exact roots_claim. Qed.
Print Assumptions C29_roots.
Example C29_ex : modulus_ok fx_c (fx 17) /\ prime (value (fx 17)) /\ elem fx_c (fx 17) (fxe 13 17) /\
  match fe_sqrt fx_c (fxe 13 17), fe_sqrt fx_c (fxe 3 17), fe_sqrt fx_c (fxe 2 7), fe_sqrt fx_c (fxe 2 41) with
  | Ok a, Ok b, Ok d, Ok e => value (fv a) * value (fv a) mod 17 = 13 /\ value (fv b) = 0 /\ value (fv d) * value (fv d) mod 7 = 2 /\ value (fv e) * value (fv e) mod 41 = 2
  | _, _, _, _ => False end.
Proof.
  split; [apply fx_mod; lia|]. split; [exact prime_17|]. split; [apply fx_elem; lia|]. vm_compute. repeat split.
Qed.
(** C30: scalar + element and scalar * element denote what they say. *)
Theorem C30_sum_product : forall c p k kb f,
  modulus_ok c p -> elem c p f -> - 2 ^ 31 <= k < 2 ^ 31 -> 0 <= k < value p -> reduced c p kb ->
  returns c p (int_plus_fe c k f) (k + value (fv f)) /\ returns c p (big_plus_fe c kb f) (value kb + value (fv f)) /\
  returns c p (int_times_fe c k f) (k * value (fv f)) /\ returns c p (big_times_fe c kb f) (value kb * value (fv f)).
Proof. exact scalar_left_sum_claim. Qed.
Print Assumptions C30_sum_product.
(** C30: scalar - element returns element - scalar, and scalar / element returns element / scalar. *)
Theorem C30_swapped : forall c p k kb f,
  modulus_ok c p -> elem c p f -> - 2 ^ 31 <= k < 2 ^ 31 -> 0 <= k < value p -> reduced c p kb ->
  returns c p (int_minus_fe c k f) (value (fv f) - k) /\ returns c p (big_minus_fe c kb f) (value (fv f) - value kb) /\
  (Z.gcd (value kb) (value p) = 1 -> exists r, big_div_fe c kb f = Ok r /\ elem c p r /\ (value (fv r) * value kb) mod value p = value (fv f)).
Proof. exact scalar_left_swapped_claim. Qed.
Print Assumptions C30_swapped.
(** C30: k - f is not k minus f. *)
Theorem C30_minus_refuted : exists p k f r, modulus_ok fx_c p /\ prime (value p) /\ elem fx_c p f /\ 0 <= k < value p /\
  int_minus_fe fx_c k f = Ok r /\ big_minus_fe fx_c (fx k) f = Ok r /\ value (fv r) <> (k - value (fv f)) mod value p.
Proof. exact minus_refute. Qed.
Print Assumptions C30_minus_refuted.
(** C30: k / f is not k divided by f (the operator with an int k does not compile at all). *)
Theorem C30_div_refuted : exists p k f r, modulus_ok fx_c p /\ prime (value p) /\ elem fx_c p f /\ reduced fx_c p k /\ value k <> 0 /\ value (fv f) <> 0 /\
  big_div_fe fx_c k f = Ok r /\ (value (fv r) * value (fv f)) mod value p <> value k.
Proof. exact div_refute. Qed.
Print Assumptions C30_div_refuted.
Example C30_ex : modulus_ok fx_c (fx 17) /\ elem fx_c (fx 17) (fxe 13 17) /\ reduced fx_c (fx 17) (fx 9) /\
  match int_plus_fe fx_c 9 (fxe 13 17), big_times_fe fx_c (fx 9) (fxe 13 17), int_minus_fe fx_c 9 (fxe 13 17) with
  | Ok a, Ok b, Ok d => value (fv a) = 5 /\ value (fv b) = 15 /\ value (fv d) = 4 | _, _, _ => False end.
Proof. split; [apply fx_mod; lia|]. split; [apply fx_elem; lia|]. split; [apply (fx_elem 9 17); lia|]. vm_compute. repeat split. Qed.
