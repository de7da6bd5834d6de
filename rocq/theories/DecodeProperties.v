(** C37, C38: decoding of every byte string, decompression of abscissas that need not be reduced. *)
From Coq Require Import List ZArith Znumtheory Bool Lia.
From Verif Require Import Outcome WordsModel WordsSpec UtilsSpec BigintModel BigintSpec BigintProofs BigintClaims NumModel FpModel FpSpec FpClaims EcGroup EcGroupProofs ZpField EcModel EcSpec EcScalar EcFeSpec EcCurveModel EcClaims EcLaws EcCurveSpec EcCurveClaims EcDecodeSpec EcWide EcdsaExamples.
Import ListNotations.
Open Scope Z_scope.

(** C37: what decode_point does with every byte string; n is the number of bytes of the prime. *)
Theorem C37_decode : forall c C (Pp : prime (value (cu_p C))), curve_base c C Pp -> forall n e,
  (0 < n)%nat -> 256 ^ (Z.of_nat n - 1) <= value (cu_p C) < 256 ^ Z.of_nat n -> all_bytes e -> decodes C n e (coords (decode_point c C e)).
Proof. exact decode_any_claim. Qed.
Print Assumptions C37_decode.
(** C37: and the reading of a string is unique. *)
Theorem C37_decode_unique : forall c C (Pp : prime (value (cu_p C))), curve_base c C Pp -> forall n e o o',
  decodes C n e o -> decodes C n e o' -> o = o'.
Proof. exact decodes_unique. Qed.
Print Assumptions C37_decode_unique.
(** C37: except from an uncompressed string, only points satisfying the curve equation come out, with the abscissa of the string. *)
Theorem C37_satisfies : forall c C (Pp : prime (value (cu_p C))) t d x y, curve_base c C Pp -> all_bytes (t :: d) -> t <> 4 ->
  decode_point c C (t :: d) = Ok (Some (x, y)) -> satisfies C (value (fv x)) (value (fv y)) /\ value (fv x) = be_value d.
Proof. exact decode_satisfies_claim. Qed.
Print Assumptions C37_satisfies.
(** an unreduced abscissa, 22 = 17 + 5 *)
Example C37_decode_ex : all_bytes [3; 22] /\ coords (decode_point ex_c ex_C [3; 22]) = Ok (Some (22, 1)) /\ decodes ex_C 1 [3; 22] (Ok (Some (22, 1))) /\ satisfies ex_C 22 1 /\
  coords (decode_point ex_c ex_C [2; 19]) = Ok None /\ decodes ex_C 1 [2; 19] (Ok None).
Proof.
  assert (A : forall a b, 0 <= a < 256 -> 0 <= b < 256 -> all_bytes [a; b]) by (intros; repeat constructor; unfold is_byte; lia).
  assert (D : forall a b, 0 <= a < 256 -> 0 <= b < 256 -> decodes ex_C 1 [a; b] (coords (decode_point ex_c ex_C [a; b]))).
  { intros a b Ha Hb. refine (C37_decode ex_c ex_C ex_prime ex_base 1 _ _ _ (A a b Ha Hb)); [lia|vm_compute; split; congruence]. }
  split; [apply A; lia|]. split; [vm_compute; reflexivity|]. split; [exact (D 3 22 ltac:(lia) ltac:(lia))|]. split; [vm_compute; reflexivity|].
  split; [vm_compute; reflexivity|exact (D 2 19 ltac:(lia) ltac:(lia))].
Qed.
(** C38: without verification, an abscissa no longer than the prime but not reduced gives the point of its residue class, again the unique one with the parity; the abscissa is left unreduced. *)
Theorem C38_unreduced : forall c C (Pp : prime (value (cu_p C))), curve_base c C Pp -> forall x odd,
  valid c x -> 0 <= value x -> (size x <= size (cu_p C))%nat ->
  exists R, decompress_point c C x odd false = Ok R /\
    (R = None <-> forall y, 0 <= y < value (cu_p C) -> satisfies C (value x) y -> y = 0) /\
    (forall u y, R = Some (u, y) -> u = mkfe x (Some (cu_p C)) /\ elem c (cu_p C) y /\ satisfies C (value x) (value (fv y)) /\ Z.odd (value (fv y)) = odd /\
       forall y', 0 <= y' < value (cu_p C) -> satisfies C (value x) y' -> Z.odd y' = odd -> y' = value (fv y)).
Proof. exact wide_decompress_claim. Qed.
Print Assumptions C38_unreduced.
Example C38_unreduced_ex : exists R y, decompress_point ex_c ex_C (of_int ex_c 22) true false = Ok R /\ R = Some (mkfe (of_int ex_c 22) (Some (cu_p ex_C)), y) /\ value (fv y) = 1.
Proof. do 2 eexists. split; [vm_compute; reflexivity|]. split; vm_compute; reflexivity. Qed.
