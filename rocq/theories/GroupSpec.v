(** What a curve object must satisfy for the theorems about points, ECDSA and the codec to apply. *)
From Coq Require Import List ZArith Znumtheory.
From Verif Require Import Outcome WordsModel BigintModel BigintSpec NumModel FpModel EcGroup ZpField EcModel EcSpec EcFeSpec EcCurveModel EcCurveSpec EcdsaModel EcdsaSpec NamedModel.
Open Scope Z_scope.

(** a curve ECDSA works on, with b <> 0, p <= 2 n, the constant p - n, a generator that is not the identity, no point of
    ordinate zero, and every point killed by n *)
Definition usable (c : cap) (C : curve) (Pp : prime (value (cu_p C))) : Prop :=
  ecdsa_curve c C Pp /\ value (cu_b C) <> 0 /\ 27 < value (cu_p C) <= 2 * value (cu_n C) /\ 2 < value (cu_n C) < value (cu_p C) /\ cu_p_minus_n C = op_sub c (cu_p C) (cu_n C) /\
  aff_pt (cu_p C) Pp (cu_g C) <> Inf /\ (forall x, ~ satisfies C x 0) /\
  forall X, on_curve (kval (cu_p C) Pp (cu_a C)) (kval (cu_p C) Pp (cu_b C)) X -> zmul (kval (cu_p C) Pp (cu_a C)) (value (cu_n C)) X = Inf.
(** digests whose leftmost bits are whole bytes: the order of secp521r1 is the only one that is not of whole bytes *)
Definition digest_fits (m : params) (msg : list Z) : Prop := pm_bits m <> 521 \/ (length msg <= 65)%nat.
