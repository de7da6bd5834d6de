(** C44, C47: the named curves and the verification of curve parameters. *)
From Coq Require Import Ascii String List ZArith Znumtheory Bool Lia.
From Verif Require Import Outcome WordsModel WordsSpec BigintModel BigintSpec BigintProofs BigintBits BigintClaims NumModel FpModel FpSpec FpProofs EcGroup ZpField EcModel EcSpec EcFeSpec EcCurveModel EcCurveSpec EcdsaModel EcdsaSpec EcdsaClaims EcdsaExamples NamedModel NamedSpec NamedProofs EcLaws EcQuotSpec CurveVerify.
Import ListNotations.
Open Scope Z_scope.

(** C44: the declaration of every named curve, for wasm or not, constructs an object holding the numbers its literals write. *)
Theorem C44_constructed : forall wasm m, In m named_curves -> exists C, named_curve wasm m = Ok C /\
  holds (named_cap wasm m) C (hexval (pm_p m)) (hexval (pm_a m)) (hexval (pm_b m)) (hexval (pm_gx m)) (hexval (pm_gy m)) (hexval (pm_n m)) (pm_h m).
Proof. exact named_holds. Qed.
Print Assumptions C44_constructed.
(** C44: these numbers are reduced, the curve is non-singular, the generator is on it, the group size is in Hasse's interval. *)
Theorem C44_consistent : forall m, In m named_curves ->
  consistent (hexval (pm_p m)) (hexval (pm_a m)) (hexval (pm_b m)) (hexval (pm_gx m)) (hexval (pm_gy m)) (hexval (pm_n m)) (pm_h m) /\
  bitlen (hexval (pm_p m)) = pm_bits m /\ hexval (pm_n m) < hexval (pm_p m) <= 2 * hexval (pm_n m) /\ hexval (pm_b m) <> 0.
Proof. exact named_consistent. Qed.
Print Assumptions C44_consistent.
(** C44: the theorems about ECDSA apply to the named curves whose moduli are prime. *)
Theorem C44_usable : forall wasm m C (Pp : prime (value (cu_p C))), In m named_curves -> named_curve wasm m = Ok C -> prime (hexval (pm_n m)) ->
  ecdsa_curve (named_cap wasm m) C Pp.
Proof. exact named_ecdsa. Qed.
Print Assumptions C44_usable.
(** C44: for any literal of an even number of digits that fits, the constructor of big integers makes the number it writes. *)
Theorem C44_literal : forall c s k v, (String.length s = 2 * k)%nat -> hexnum 0 s = Some v -> room c (Nat.max 1 ((k + 3) / 4)) ->
  exists r, of_hex_literal c s = Ok r /\ canonical c r /\ value r = v.
Proof. exact literal_claim. Qed.
Print Assumptions C44_literal.
Example C44_ex : In secp256k1 named_curves /\ In secp521r1 named_curves /\ hexval (pm_p secp256k1) = 2 ^ 256 - 2 ^ 32 - 977 /\ hexval (pm_p secp521r1) = 2 ^ 521 - 1 /\
  hexval (pm_p secp256r1) = 2 ^ 256 - 2 ^ 224 + 2 ^ 192 + 2 ^ 96 - 1 /\ hexval (pm_p secp384r1) = 2 ^ 384 - 2 ^ 128 - 2 ^ 96 + 2 ^ 32 - 1 /\
  named_cap false secp521r1 = Fixed 34 /\ named_cap true secp521r1 = Flex 17 /\ named_cap true secp384r1 = Fixed 24 /\ hexnum 0 "0aff"%string = Some 2815 /\ length named_curves = 8%nat.
Proof. split; [do 4 right; left; reflexivity|]. split; [do 7 right; left; reflexivity|]. vm_compute. repeat split; reflexivity. Qed.

(** C47: verify returns, and accepts exactly the parameters with p > 3, 0 <= a, b < p, a non-singular curve, a generator
    other than (0, 0) killed by n > 0 (with b = 0, taken to the identity or to (0, 0)), a cofactor in [1, p) and n h different from p - 1. *)
Theorem C47_verify : forall c C (Pp : prime (value (cu_p C))), modulus_ok c (cu_p C) -> cu_coeffs c C = coeffs_of c (cu_p C) (cu_a C) (cu_b C) ->
  valid c (cu_a C) -> valid c (cu_b C) -> good2 c (cu_p C) (cu_g C) -> valid c (cu_n C) -> room c (size (cu_n C) + 1) -> 0 <= cu_h C < 2 ^ 32 ->
  exists v, curve_verify c C = Ok v /\ (v = true <->
    3 < value (cu_p C) /\ 0 < value (cu_n C) /\ 0 <= value (cu_a C) < value (cu_p C) /\ 0 <= value (cu_b C) < value (cu_p C) /\ (4 * value (cu_a C) ^ 3 + 27 * value (cu_b C) ^ 2) mod value (cu_p C) <> 0 /\
    (aff_pt (cu_p C) Pp (cu_g C) <> Inf /\ on_curve (kval (cu_p C) Pp (cu_a C)) (kval (cu_p C) Pp (cu_b C)) (aff_pt (cu_p C) Pp (cu_g C)) /\
      (zmul (kval (cu_p C) Pp (cu_a C)) (value (cu_n C)) (aff_pt (cu_p C) Pp (cu_g C)) = Inf \/
       (value (cu_b C) = 0 /\ zmul (kval (cu_p C) Pp (cu_a C)) (value (cu_n C)) (aff_pt (cu_p C) Pp (cu_g C)) = origin))) /\
    1 <= cu_h C < value (cu_p C) /\ value (cu_n C) * cu_h C <> value (cu_p C) - 1).
Proof. exact curve_verify_std. Qed.
Print Assumptions C47_verify.
(** C47: a cofactor that Hasse's theorem excludes is accepted. *)
Theorem C47_accepts_refuted : exists c C (Pp : prime (value (cu_p C))), ecdsa_curve c C Pp /\ curve_verify c C = Ok true /\
  (value (cu_p C) + 1 - value (cu_n C) * cu_h C) ^ 2 > 4 * value (cu_p C).
Proof. exact verify_accepts_refute. Qed.
Print Assumptions C47_accepts_refuted.
(** C47: a sound curve with p - 1 points is rejected. *)
Theorem C47_rejects_refuted : exists c C (Pp : prime (value (cu_p C))), ecdsa_curve c C Pp /\ curve_verify c C = Ok false /\
  zmul (kval (cu_p C) Pp (cu_a C)) (value (cu_n C)) (aff_pt (cu_p C) Pp (cu_g C)) = Inf /\ aff_pt (cu_p C) Pp (cu_g C) <> Inf /\ 1 <= cu_h C < value (cu_p C) /\
  (value (cu_p C) + 1 - value (cu_n C) * cu_h C) ^ 2 <= 4 * value (cu_p C).
Proof. exact verify_rejects_refute. Qed.
Print Assumptions C47_rejects_refuted.
(** C47: a composite modulus is accepted: y^2 = x^3 + 6x + 28 modulo 35. *)
Theorem C47_composite_refuted : exists c C, modulus_ok c (cu_p C) /\ cu_coeffs c C = coeffs_of c (cu_p C) (cu_a C) (cu_b C) /\ ~ prime (value (cu_p C)) /\ Z.odd (value (cu_p C)) = true /\
  Z.gcd (4 * value (cu_a C) ^ 3 + 27 * value (cu_b C) ^ 2) (value (cu_p C)) = 1 /\ curve_verify c C = Ok true.
Proof. exact verify_composite_refute. Qed.
Print Assumptions C47_composite_refuted.
Example C47_ex : modulus_ok ex_c (cu_p E251) /\ cu_coeffs ex_c E251 = coeffs_of ex_c (cu_p E251) (cu_a E251) (cu_b E251) /\
  good2 ex_c (cu_p E251) (cu_g E251) /\ room ex_c (size (cu_n E251) + 1) /\ curve_verify ex_c E251 = Ok true /\
  map (fun C => curve_verify ex_c C) [small_curve 251 248 27 2 167 223 1; small_curve 251 248 26 2 167 222 1; small_curve 251 248 2 1 0 2 1; small_curve 251 251 26 2 167 223 1; small_curve 251 248 26 2 167 223 0] = repeat (Ok false) 5 /\
  (** over GF(5), GF(7) and GF(3) *)
  map (fun C => curve_verify ex_c C) [small_curve 5 1 1 0 1 9 1; small_curve 7 1 1 0 1 5 1; small_curve 7 1 1 0 1 6 1; small_curve 3 1 1 0 1 4 1] = [Ok true; Ok true; Ok false; Ok false].
Proof.
  pose proof E251_ok as ((C & E) & _ & G & _). split; [apply C|]. split; [reflexivity|]. split; [exact G|].
  split; [vm_compute; lia|]. vm_compute. repeat split; reflexivity.
Qed.
