(** Property theorems C36-C38 (point encoding and decompression: ec.hpp). *)
From Coq Require Import List ZArith Znumtheory Bool Lia.
From Verif Require Import Outcome WordsModel WordsSpec UtilsSpec BigintModel BigintSpec BigintProofs BigintClaims NumModel FpModel FpSpec FpClaims EcGroup EcGroupProofs ZpField EcModel EcSpec EcScalar EcFeSpec EcCurveModel EcClaims EcLaws EcCurveSpec EcCodec EcCurveClaims EcdsaExamples.
Import ListNotations.
Open Scope Z_scope.

(** C36: the encoding is the SEC1 octet string: a zero byte for the identity, else the type byte and fixed-length big-endian coordinates. *)
Theorem C36_encoding : forall c C (Pp : prime (value (cu_p C))), curve_base c C Pp -> forall Q compress,
  good2 c (cu_p C) Q -> encode_point c C Q compress =
  match Q with
  | None => [0]
  | Some (x, y) => if (value (fv x) =? 0) && (value (fv y) =? 0) then [0]
                   else if compress then (if Z.odd (value (fv y)) then 3 else 2) :: octets (Z.to_nat (byte_length (cu_p C))) (value (fv x))
                   else 4 :: octets (Z.to_nat (byte_length (cu_p C))) (value (fv x)) ++ octets (Z.to_nat (byte_length (cu_p C))) (value (fv y))
  end.
Proof. exact encode_point_claim. Qed.
Print Assumptions C36_encoding.
(** C36: the lengths are fixed by the field; every entry is a byte. *)
Theorem C36_length : forall c C (Pp : prime (value (cu_p C))), curve_base c C Pp -> forall Q compress,
  good2 c (cu_p C) Q ->
  all_bytes (encode_point c C Q compress) /\
  length (encode_point c C Q compress) =
    (if aff_is_identity (fe_ops c (cu_p C)) Q then 1 else if compress then 1 + Z.to_nat (byte_length (cu_p C)) else 1 + 2 * Z.to_nat (byte_length (cu_p C)))%nat /\
  256 ^ (byte_length (cu_p C) - 1) <= (value (cu_p C)) < 256 ^ byte_length (cu_p C).
Proof. exact encode_length_claim. Qed.
Print Assumptions C36_length.
(** C36: decoding an encoding gives back an equal point; compressed encodings for points of the curve with a non-zero ordinate. *)
Theorem C36_roundtrip : forall c C (Pp : prime (value (cu_p C))), curve_base c C Pp -> forall Q compress,
  good2 c (cu_p C) Q ->
  (compress = true -> match Q with None => True | Some (x, y) => satisfies C (value (fv x)) (value (fv y)) /\ value (fv y) <> 0 end) ->
  exists R, decode_point c C (encode_point c C Q compress) = Ok R /\ good2 c (cu_p C) R /\ aff_eqb (fe_ops c (cu_p C)) R Q = true.
Proof. exact roundtrip_claim. Qed.
Print Assumptions C36_roundtrip.
(** C36, C38: a point with ordinate zero does not survive compression: it decompresses to the identity. *)
Theorem C36_ordinate_zero_refuted : exists c C (Pp : prime (value (cu_p C))) x y, curve_base c C Pp /\ elem c (cu_p C) x /\ elem c (cu_p C) y /\
  satisfies C (value (fv x)) (value (fv y)) /\ aff_is_identity (fe_ops c (cu_p C)) (Some (x, y)) = false /\
  decode_point c C (encode_point c C (Some (x, y)) true) = Ok None /\ decompress_point c C (fv x) (Z.odd (value (fv y))) true = Ok None.
Proof. exact compressed_y0_refute. Qed.
Print Assumptions C36_ordinate_zero_refuted.
Example C36_ex : curve_base ex_c ex_C ex_prime /\ good2 ex_c (cu_p ex_C) (ex_pt 5 1) /\ satisfies ex_C 5 1 /\
  encode_point ex_c ex_C (ex_pt 5 1) true = [3; 5] /\ encode_point ex_c ex_C (ex_pt 5 16) true = [2; 5] /\ encode_point ex_c ex_C (ex_pt 5 16) false = [4; 5; 16] /\ encode_point ex_c ex_C None false = [0] /\
  match decode_point ex_c ex_C [2; 5] with Ok R => aff_eqb (fe_ops ex_c (cu_p ex_C)) R (ex_pt 5 16) = true | _ => False end.
Proof. split; [exact ex_base|]. split; [split; apply ex_elem; lia|]. vm_compute. repeat split. Qed.
(** C37: the empty string, an unknown type byte and a wrong length abort; the type byte 0 gives the identity. *)
Theorem C37_malformed : forall c C, forall e,
  decode_point c C [] = Abort /\
  (forall t d, e = t :: d -> 0 <= t ->
    (t = 0 -> decode_point c C e = Ok None) /\
    (t = 1 \/ 4 < t -> decode_point c C e = Abort) /\
    (t = 2 \/ t = 3 -> length d <> (Z.to_nat (byte_length (cu_p C))) -> decode_point c C e = Abort) /\
    (t = 4 -> length d <> (2 * (Z.to_nat (byte_length (cu_p C))))%nat -> decode_point c C e = Abort)).
Proof. exact decode_types_claim. Qed.
Print Assumptions C37_malformed.
(** C37: a compressed string with a reduced abscissa gives a point of the curve with that abscissa and parity, or the identity when there is none. *)
Theorem C37_compressed : forall c C (Pp : prime (value (cu_p C))), curve_base c C Pp -> forall t d,
  t = 2 \/ t = 3 -> all_bytes d -> length d = (Z.to_nat (byte_length (cu_p C))) -> be_value d < (value (cu_p C)) ->
  exists R, decode_point c C (t :: d) = Ok R /\ good2 c (cu_p C) R /\
    match R with
    | None => forall y, 0 <= y < (value (cu_p C)) -> satisfies C (be_value d) y -> y = 0
    | Some (x, y) => value (fv x) = be_value d /\ satisfies C (be_value d) (value (fv y)) /\ value (fv y) <> 0 /\ Z.odd (value (fv y)) = Z.odd t
    end.
Proof. exact decode_compressed_claim. Qed.
Print Assumptions C37_compressed.
(** C37: so what it gives passes is_on_curve. *)
Theorem C37_compressed_on_curve : forall c C (Pp : prime (value (cu_p C))) t d R,
  curve_base c C Pp -> t = 2 \/ t = 3 -> all_bytes d -> be_value d < value (cu_p C) ->
  decode_point c C (t :: d) = Ok R -> good2 c (cu_p C) R /\ aff_is_on_curve (fe_ops c (cu_p C)) (cu_coeffs c C) R = Ok true.
Proof. exact decode_on_curve_claim. Qed.
Print Assumptions C37_compressed_on_curve.
(** C37: an uncompressed string aborts when a coordinate is not reduced, and otherwise gives the point with these coordinates, on the curve or not. *)
Theorem C37_uncompressed : forall c C (Pp : prime (value (cu_p C))), curve_base c C Pp -> forall d,
  all_bytes d -> length d = (2 * (Z.to_nat (byte_length (cu_p C))))%nat ->
  let x := be_value (firstn (Z.to_nat (byte_length (cu_p C))) d) in let y := be_value (skipn (Z.to_nat (byte_length (cu_p C))) d) in
  ((value (cu_p C)) <= x \/ (value (cu_p C)) <= y -> decode_point c C (4 :: d) = Abort) /\
  (x < (value (cu_p C)) -> y < (value (cu_p C)) -> exists u v, decode_point c C (4 :: d) = Ok (Some (u, v)) /\ elem c (cu_p C) u /\ elem c (cu_p C) v /\ value (fv u) = x /\ value (fv v) = y).
Proof. exact decode_uncompressed_claim. Qed.
Print Assumptions C37_uncompressed.
(** C37: an uncompressed string of coordinates off the curve is accepted. *)
Theorem C37_off_curve_refuted : exists c C (Pp : prime (value (cu_p C))) e R, curve_base c C Pp /\ all_bytes e /\ decode_point c C e = Ok R /\
  aff_is_identity (fe_ops c (cu_p C)) R = false /\ aff_is_on_curve (fe_ops c (cu_p C)) (cu_coeffs c C) R = Ok false.
Proof. exact off_curve_refute. Qed.
Print Assumptions C37_off_curve_refuted.
(** C37: a compressed string with an unreduced abscissa is accepted and gives an object different from the one of the reduced abscissa; bytes after the type byte 0 are ignored. *)
Theorem C37_unreduced_refuted : exists c C (Pp : prime (value (cu_p C))) e e' x y R', curve_base c C Pp /\ all_bytes e /\ all_bytes e' /\
  decode_point c C e = Ok (Some (x, y)) /\ value (cu_p C) <= value (fv x) /\ decode_point c C e' = Ok R' /\
  raw_pt (cu_p C) Pp (Some (x, y)) = raw_pt (cu_p C) Pp R' /\ aff_eqb (fe_ops c (cu_p C)) (Some (x, y)) R' = false /\
  decode_point c C (0 :: e) = Ok None.
Proof. exact unreduced_refute. Qed.
Print Assumptions C37_unreduced_refuted.
Example C37_ex : curve_base ex_c ex_C ex_prime /\ all_bytes [5] /\ length [5] = Z.to_nat (byte_length (cu_p ex_C)) /\ be_value [5] < value (cu_p ex_C) /\
  decode_point ex_c ex_C [3; 5] = Ok (ex_pt 5 1) /\ decode_point ex_c ex_C [3; 2] = Ok None /\ decode_point ex_c ex_C [4; 5; 17] = Abort /\ decode_point ex_c ex_C [5; 5] = Abort.
Proof. split; [exact ex_base|]. split; [repeat constructor; unfold is_byte; lia|]. vm_compute. repeat split. Qed.
(** C38: compute_y returns an ordinate of the abscissa with the requested parity, zero when there is none. *)
Theorem C38_compute_y : forall c C (Pp : prime (value (cu_p C))), curve_base c C Pp -> forall x odd,
  elem c (cu_p C) x ->
  exists y, compute_y c C x odd = Ok y /\ elem c (cu_p C) y /\
    (abscissa C (value (fv x)) -> satisfies C (value (fv x)) (value (fv y))) /\
    (~ abscissa C (value (fv x)) -> value (fv y) = 0) /\
    (value (fv y) <> 0 -> Z.odd (value (fv y)) = odd).
Proof. exact compute_y_claim. Qed.
Print Assumptions C38_compute_y.
(** C38: decompression returns the unique point with the abscissa and parity; it fails exactly when the abscissa has no point with a non-zero ordinate. *)
Theorem C38_decompress : forall c C (Pp : prime (value (cu_p C))) x odd v,
  curve_base c C Pp -> reduced c (cu_p C) x ->
  exists R, decompress_point c C x odd v = Ok R /\ good2 c (cu_p C) R /\
    (R = None <-> (forall y, 0 <= y < value (cu_p C) -> satisfies C (value x) y -> y = 0)) /\
    (forall u y, R = Some (u, y) -> value (fv u) = value x /\ satisfies C (value x) (value (fv y)) /\ Z.odd (value (fv y)) = odd /\
       on_curve (kval (cu_p C) Pp (cu_a C)) (kval (cu_p C) Pp (cu_b C)) (aff_pt (cu_p C) Pp R) /\
       forall y', 0 <= y' < value (cu_p C) -> satisfies C (value x) y' -> Z.odd y' = odd -> y' = value (fv y)).
Proof. exact decompress_claim. Qed.
Print Assumptions C38_decompress.
(** C38: on a curve without a point of ordinate zero (every curve of odd order) it fails exactly when x is not an abscissa. *)
Theorem C38_odd_order : forall c C (Pp : prime (value (cu_p C))) x odd v,
  curve_base c C Pp -> reduced c (cu_p C) x -> (forall x, ~ satisfies C x 0) ->
  exists R, decompress_point c C x odd v = Ok R /\ (R = None <-> ~ abscissa C (value x)).
Proof. exact decompress_odd_order_claim. Qed.
Print Assumptions C38_odd_order.
(** C38: with verification on, an abscissa that is not reduced aborts. *)
Theorem C38_checked : forall c C (Pp : prime (value (cu_p C))) x odd,
  curve_base c C Pp -> valid c x -> ~ (0 <= value x < value (cu_p C)) ->
  decompress_point c C x odd true = Abort.
Proof. exact decompress_check_claim. Qed.
Print Assumptions C38_checked.
(** C38: the abscissa of a point with ordinate zero is reported as a failure. *)
Theorem C38_ordinate_zero_refuted : exists c C (Pp : prime (value (cu_p C))) x y, curve_base c C Pp /\ elem c (cu_p C) x /\ elem c (cu_p C) y /\
  satisfies C (value (fv x)) (value (fv y)) /\ aff_is_identity (fe_ops c (cu_p C)) (Some (x, y)) = false /\
  decode_point c C (encode_point c C (Some (x, y)) true) = Ok None /\ decompress_point c C (fv x) (Z.odd (value (fv y))) true = Ok None.
Proof. exact compressed_y0_refute. Qed.
Print Assumptions C38_ordinate_zero_refuted.
Example C38_ex : curve_base ex_c ex_C ex_prime /\ reduced ex_c (cu_p ex_C) (of_int ex_c 5) /\ (forall y, 0 <= y < 17 -> satisfies ex_C 5 y -> y = 1 \/ y = 16) /\
  decompress_point ex_c ex_C (of_int ex_c 5) true false = Ok (ex_pt 5 1) /\ decompress_point ex_c ex_C (of_int ex_c 5) false false = Ok (ex_pt 5 16) /\
  decompress_point ex_c ex_C (of_int ex_c 4) true true = Ok None.
Proof.
  split; [exact ex_base|]. split; [destruct (of_int_ok ex_c 5 17 ltac:(cbn; lia) ltac:(lia) ltac:(lia)) as (V & R & _); split; assumption|]. split.
  - intros y Hy. assert (H : y = 0 \/ y = 1 \/ y = 2 \/ y = 3 \/ y = 4 \/ y = 5 \/ y = 6 \/ y = 7 \/ y = 8 \/ y = 9 \/ y = 10 \/ y = 11 \/ y = 12 \/ y = 13 \/ y = 14 \/ y = 15 \/ y = 16) by lia.
    repeat destruct H as [->|H]; try subst y; unfold satisfies; vm_compute; intros K; try discriminate; auto.
  - vm_compute. repeat split.
Qed.
