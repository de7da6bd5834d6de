(** C71: scripts/ec.py, the reference implementation in Python, and its agreement with the library. *)
From Coq Require Import List ZArith Znumtheory Bool Lia.
From Verif Require Import Outcome UtilsModel UtilsSpec WordsModel WordsSpec BigintModel BigintSpec NumModel FpModel FpSpec EcGroup ZpField EcModel EcSpec EcFeSpec EcCurveModel EcCurveSpec EcdsaModel EcdsaSpec EcdsaClaims EcLaws EcdsaExamples ActionProperties NamedModel NamedSpec GroupSpec ScriptModel ScriptSpec ScriptPoints ScriptMul ScriptClaims ScriptNamed.
Import ListNotations.
Open Scope Z_scope.

(** C71: inverse_mod returns exactly when there is an inverse, and then the one in (0, p); it always comes to an end. *)
Theorem C71_inverse : forall k p, (1 < p /\ Z.gcd k p = 1 -> exists x, inverse_mod k p = Ret x /\ 0 < x < p /\ (k * x) mod p = 1) /\
  (~ (1 < p /\ Z.gcd k p = 1) -> exists e, inverse_mod k p = Raise e).
Proof. exact inverse_claim. Qed.
Print Assumptions C71_inverse.
(** C71: ec_is_on_curve decides the equation for any pair of integers, reduced or not. *)
Theorem C71_on_curve : forall cv (Pp : prime (py_p cv)) P, (py_on_curve P cv = Ret true <-> son cv Pp P) /\ (py_on_curve P cv = Ret false <-> ~ son cv Pp P).
Proof. exact on_claim. Qed.
Print Assumptions C71_on_curve.
(** C71: ec_neg gives the opposite of a point of the curve and refuses others. *)
Theorem C71_neg : forall cv (Pp : prime (py_p cv)) P,
  (son cv Pp P -> exists R, ec_neg P cv = Ret R /\ spt Pp R = popp (spt Pp P) /\ (tidy (py_p cv) P -> tidy (py_p cv) R)) /\ (~ son cv Pp P -> ec_neg P cv = Raise AssertionError).
Proof. exact neg_claim. Qed.
Print Assumptions C71_neg.
(** C71: ec_add gives the sum of two points of the curve with coordinates in [0, p), and raises exactly when a point of ordinate
    zero is doubled. *)
Theorem C71_add : forall cv (Pp : prime (py_p cv)) P Q, 2 < py_p cv -> tidy (py_p cv) P -> tidy (py_p cv) Q -> son cv Pp P -> son cv Pp Q ->
  (~ (exists x, P = Some (x, 0) /\ Q = Some (x, 0)) -> exists R, ec_add P Q cv = Ret R /\ tidy (py_p cv) R /\ spt Pp R = padd (sa cv Pp) (spt Pp P) (spt Pp Q)) /\
  ((exists x, P = Some (x, 0) /\ Q = Some (x, 0)) -> ec_add P Q cv = Raise ZeroDivisionError).
Proof. exact add_claim. Qed.
Print Assumptions C71_add.
(** C71: ec_add_steps does what ec_add does, for any arguments. *)
Theorem C71_add_steps : forall P Q cv, ec_add_steps P Q cv = ec_add P Q cv.
Proof. exact add_steps_claim. Qed.
Print Assumptions C71_add_steps.
(** C71: ec_mul gives the multiple, for any integer. *)
Theorem C71_mul : forall cv (Pp : prime (py_p cv)), sound cv Pp -> forall P k, tidy (py_p cv) P -> son cv Pp P ->
  exists R, ec_mul P k cv = Ret R /\ tidy (py_p cv) R /\ spt Pp R = zmul (sa cv Pp) k (spt Pp P).
Proof. exact mul_claim. Qed.
Print Assumptions C71_mul.
(** C71: ec_mul_add_fast gives a P + b Q for factors in [0, n). *)
Theorem C71_mul_add : forall cv (Pp : prime (py_p cv)), sound cv Pp -> forall a P b Q, tidy (py_p cv) P -> son cv Pp P -> tidy (py_p cv) Q -> son cv Pp Q -> 0 <= a < py_n cv -> 0 <= b < py_n cv ->
  exists R, ec_mul_add_fast a P b Q cv = Ret R /\ tidy (py_p cv) R /\ spt Pp R = padd (sa cv Pp) (zmul (sa cv Pp) a (spt Pp P)) (zmul (sa cv Pp) b (spt Pp Q)).
Proof. exact fast_claim. Qed.
Print Assumptions C71_mul_add.
(** C71: ecdsa_verify and ecdsa_verify_fast agree; they return True exactly when the equation of ECDSA holds, raise exactly when
    the sum is the identity, and return False otherwise. *)
Theorem C71_verify : forall cv (Pp : prime (py_p cv)), sound cv Pp -> forall q e r s, tidy (py_p cv) q -> son cv Pp q ->
  (py_verify q e r s cv = Ret true \/ py_verify q e r s cv = Ret false \/ py_verify q e r s cv = Raise TypeError) /\
  (py_verify q e r s cv = Ret true <-> passes cv Pp q e r s) /\ (py_verify q e r s cv = Raise TypeError <-> vanishes cv Pp q e r s) /\ py_verify_fast q e r s cv = py_verify q e r s cv.
Proof. exact verify_claim'. Qed.
Print Assumptions C71_verify.
(** C71: For a key that is not the identity that is acceptance by the standard. *)
Theorem C71_standard : forall cv (Pp : prime (py_p cv)), sound cv Pp -> forall q e r s, tidy (py_p cv) q -> son cv Pp q -> q <> None ->
  (py_verify q e r s cv = Ret true <-> accepts (@zval (py_p cv) : Zp _ Pp -> Z) (sa cv Pp) (spt Pp (py_g cv)) (py_n cv) (spt Pp q) e r s).
Proof. exact verify_standard. Qed.
Print Assumptions C71_standard.
(** C71: A key that is not on the curve is refused by an assertion, unless the range check comes first. *)
Theorem C71_off_curve : forall cv (Pp : prime (py_p cv)), sound cv Pp -> forall q e r s, ~ son cv Pp q -> 1 <= r < py_n cv -> 1 <= s < py_n cv ->
  py_verify q e r s cv = Raise AssertionError /\ py_verify_fast q e r s cv = Raise AssertionError.
Proof. exact off_curve_claim. Qed.
Print Assumptions C71_off_curve.
(** C71: The functions that print raise NameError unless q_x and q_y happen to be defined; otherwise they give the result of
    those that do not print, or raise TypeError. *)
Theorem C71_steps : forall (bound : bool) q e r s cv,
  py_verify_steps bound q e r s cv = (if bound then py_verify q e r s cv else Raise NameError) /\
  (if bound then py_verify_fast_steps bound q e r s cv = py_verify_fast q e r s cv \/ py_verify_fast_steps bound q e r s cv = Raise TypeError
   else py_verify_fast_steps bound q e r s cv = Raise NameError).
Proof. exact (fun b q e r s cv => conj (verify_steps_claim b q e r s cv) (verify_fast_steps_claim b q e r s cv)). Qed.
Print Assumptions C71_steps.
(** C71: The three curves of the script are those of the library. *)
Theorem C71_curves : listed secp256k1 = py_secp256k1 /\ listed secp256r1 = py_secp256r1 /\ listed brainpoolP256r1 = py_brainpoolP256r1.
Proof. exact listed_claim. Qed.
Print Assumptions C71_curves.
Theorem C71_objects : forall wasm m C, In m named_curves -> named_curve wasm m = Ok C -> held C = listed m.
Proof. exact held_claim. Qed.
Print Assumptions C71_objects.
(** C71: The constants of a usable curve object of the library (C50: the named ones) are a sound curve of the script. *)
Theorem C71_sound : forall c C (Pp : prime (value (cu_p C))), usable c C Pp -> sound (held C) Pp.
Proof. exact sound_claim. Qed.
Print Assumptions C71_sound.
(** C71: The script and the library accept the same signatures: when the library accepts, the script returns True; when the
    library rejects, the script returns False, or raises because the sum is the identity. *)
Theorem C71_agree : forall c C (Pp : prime (value (cu_p C))), usable c C Pp -> forall q msg r s, q <> None -> good2 c (cu_p C) q -> son (held C) Pp (coords q) -> all_bytes msg -> fits_order C msg -> valid c r -> valid c s ->
  exists v, ecdsa_verify c C q msg r s = Ok v /\
    let R := py_verify (coords q) (leftmost (bitlen (value (cu_n C))) msg) (value r) (value s) (held C) in
    (v = true -> R = Ret true) /\ (v = false -> R = Ret false \/ R = Raise TypeError /\ vanishes (held C) Pp (coords q) (leftmost (bitlen (value (cu_n C))) msg) (value r) (value s)).
Proof. exact agree_claim. Qed.
Print Assumptions C71_agree.

(** C71, refuted: that verification always answers True or False.  It raises TypeError when the sum is the identity: with the generator
    as key and the message integer - r modulo n, for every r and s in range. *)
Theorem C71_infinity_refuted : forall cv (Pp : prime (py_p cv)), sound cv Pp -> forall r s, 1 <= r < py_n cv -> 1 <= s < py_n cv ->
  py_verify (py_g cv) (- r) r s cv = Raise TypeError /\ py_verify_fast (py_g cv) (- r) r s cv = Raise TypeError.
Proof. exact infinity_claim. Qed.
Print Assumptions C71_infinity_refuted.
(** C71, refuted: that only a point other than the identity is taken for a public key.  Anyone can make signatures that verify under the key None. *)
Theorem C71_identity_key_refuted : forall cv (Pp : prime (py_p cv)), sound cv Pp -> forall x y e, py_g cv = Some (x, y) -> 1 <= x mod py_n cv -> 1 <= e < py_n cv ->
  py_verify None e (x mod py_n cv) e cv = Ret true /\ ~ accepts (@zval (py_p cv) : Zp _ Pp -> Z) (sa cv Pp) (spt Pp (py_g cv)) (py_n cv) (spt Pp None) e (x mod py_n cv) e.
Proof. exact identity_key_claim. Qed.
Print Assumptions C71_identity_key_refuted.
(** C71, refuted: that ec_add adds any two points ec_is_on_curve accepts.  Coordinates that are not reduced are accepted but compared as integers: with the
    same point written as (x, y) and (x, y + p) the sum is None instead of the double, with (x + p, y) an assertion fails. *)
Theorem C71_unreduced_refuted : forall cv (Pp : prime (py_p cv)), sound cv Pp -> forall x y, tidy (py_p cv) (Some (x, y)) -> son cv Pp (Some (x, y)) ->
  py_on_curve (Some (x, y + py_p cv)) cv = Ret true /\ py_on_curve (Some (x + py_p cv, y)) cv = Ret true /\
  spt Pp (Some (x, y + py_p cv)) = spt Pp (Some (x, y)) /\ spt Pp (Some (x + py_p cv, y)) = spt Pp (Some (x, y)) /\
  padd (sa cv Pp) (spt Pp (Some (x, y))) (spt Pp (Some (x, y))) <> Inf /\ ec_add (Some (x, y)) (Some (x, y + py_p cv)) cv = Ret None /\
  ec_add (Some (x, y)) (Some (x + py_p cv, y)) cv = Raise AssertionError.
Proof. exact unreduced_claim. Qed.
Print Assumptions C71_unreduced_refuted.
(** C71, refuted: that ec_mul_add_fast refuses factors outside [0, n).  Negative ones pass the check and lose their sign with
    the text of bin: -1 P + 1 Q comes out as P + Q; the version that prints meets the letter b of that text first, and raises. *)
Theorem C71_negative_refuted : forall cv (Pp : prime (py_p cv)), sound cv Pp -> forall x y Q, tidy (py_p cv) (Some (x, y)) -> son cv Pp (Some (x, y)) -> tidy (py_p cv) Q -> son cv Pp Q -> Some (x, y) <> Q ->
  exists R, ec_mul_add_fast (-1) (Some (x, y)) 1 Q cv = Ret R /\ spt Pp R = padd (sa cv Pp) (spt Pp (Some (x, y))) (spt Pp Q) /\
    spt Pp R <> padd (sa cv Pp) (zmul (sa cv Pp) (-1) (spt Pp (Some (x, y)))) (zmul (sa cv Pp) 1 (spt Pp Q)) /\
    ec_mul_add_fast_steps (-1) (Some (x, y)) 1 Q cv = Raise TypeError.
Proof. exact negative_claim. Qed.
Print Assumptions C71_negative_refuted.
(** C71, refuted: that ec_mul_add_fast_steps gives the result of ec_mul_add_fast.  For opposite points it raises TypeError,
    because it prints the coordinates of P + Q. *)
Theorem C71_steps_refuted : forall cv (Pp : prime (py_p cv)), sound cv Pp -> forall x y a b, tidy (py_p cv) (Some (x, y)) -> son cv Pp (Some (x, y)) -> 0 < a < py_n cv -> 0 < b < py_n cv ->
  exists Q R, ec_neg (Some (x, y)) cv = Ret Q /\ ec_mul_add_fast a (Some (x, y)) b Q cv = Ret R /\ spt Pp R = zmul (sa cv Pp) (a - b) (spt Pp (Some (x, y))) /\ ec_mul_add_fast_steps a (Some (x, y)) b Q cv = Raise TypeError.
Proof. exact opposite_claim. Qed.
Print Assumptions C71_steps_refuted.
(** C71, refuted: that ec_add and ec_mul work on every smooth curve.  A point of order two (there is none on the curves of the
    script) cannot be doubled, nor multiplied even by one: ZeroDivisionError. *)
Theorem C71_order_two_refuted : forall cv (Pp : prime (py_p cv)) x, 2 < py_p cv -> 1 < py_n cv -> tidy (py_p cv) (Some (x, 0)) -> son cv Pp (Some (x, 0)) ->
  padd (sa cv Pp) (spt Pp (Some (x, 0))) (spt Pp (Some (x, 0))) = Inf /\ ec_add (Some (x, 0)) (Some (x, 0)) cv = Raise ZeroDivisionError /\ ec_mul (Some (x, 0)) 1 cv = Raise ZeroDivisionError.
Proof. exact order_two_claim. Qed.
Print Assumptions C71_order_two_refuted.

(** y^2 = x^3 - 3x + 26 over GF(251), 223 points *)
Example C71_ex_arith : inverse_mod 17 251 = Ret 192 /\ inverse_mod (-17) 251 = Ret 59 /\ inverse_mod 502 251 = Raise AssertionError /\ inverse_mod 0 251 = Raise ZeroDivisionError /\ inverse_mod 3 (-7) = Raise AssertionError /\
  held E251 = mkpycurve 251 248 26 (Some (2, 167)) 223 1 /\ ec_add (Some (2, 167)) (Some (2, 84)) (held E251) = Ret None /\
  ec_mul (Some (2, 167)) 222 (held E251) = Ret (Some (2, 84)) /\ ec_mul (Some (2, 167)) (-1) (held E251) = Ret (Some (2, 84)) /\ ec_mul (Some (2, 167)) 446 (held E251) = Ret None.
Proof. vm_compute. repeat split. Qed.
Example C71_ex_sound : sound (held E251) prime_251 /\ tidy 251 (Some (60, 57)) /\ son (held E251) prime_251 (Some (60, 57)) /\ ~ son (held E251) prime_251 (Some (60, 58)) /\ Some (2, 167) <> Some (60, 57) /\ 1 <= 2 mod 223.
Proof.
  split; [exact (sound_claim ex_c E251 prime_251 E251_usable)|]. split; [cbn; lia|]. split; [apply (on_claim (held E251) prime_251); vm_compute; reflexivity|]. split; [apply (on_claim (held E251) prime_251); vm_compute; reflexivity|].
  split; [congruence|]. vm_compute. discriminate.
Qed.
Example C71_ex_verify : py_verify (Some (60, 57)) 200 18 190 (held E251) = py_verify_fast (Some (60, 57)) 200 18 190 (held E251) /\
  py_verify None 5 2 5 (held E251) = Ret true /\ py_verify (Some (2, 167)) (-7) 7 9 (held E251) = Raise TypeError /\ py_verify (Some (60, 58)) 200 18 190 (held E251) = Raise AssertionError /\
  ecdsa_verify ex_c E251 (q251 60 57) [200; 17] (of_int ex_c 18) (of_int ex_c 190) = Ok true /\ coords (q251 60 57) = Some (60, 57) /\ leftmost (bitlen 223) [200; 17] = 200 /\ py_verify (Some (60, 57)) 200 18 190 (held E251) = Ret true /\
  ec_mul_add_fast_steps 3 (Some (2, 167)) 4 (Some (2, 84)) (held E251) = Raise TypeError /\ ec_mul_add_fast 3 (Some (2, 167)) 4 (Some (2, 84)) (held E251) = Ret (Some (2, 84)).
Proof. vm_compute. repeat split. Qed.
(** a curve with a point of order two *)
Example C71_ex_two : let cv := mkpycurve 11 1 0 (Some (5, 3)) 3 4 in py_on_curve (Some (0, 0)) cv = Ret true /\ ec_mul (Some (0, 0)) 1 cv = Raise ZeroDivisionError.
Proof. vm_compute. repeat split. Qed.
