(** Hexadecimal scalars on the named curves. *)
From Coq Require Import ZArith Znumtheory List Bool Lia.
From Verif Require Import Outcome UtilsModel UtilsSpec WordsModel WordsSpec BigintModel BigintSpec BigintClaims NumModel FpModel EcGroup ZpField EcModel EcSpec EcFeSpec EcCurveModel EcClaims EcLaws NamedModel NamedSpec NamedGroup HexModel HexSpec HexClaims.
Import ListNotations.
Open Scope Z_scope.

Lemma named_hex_claim wasm m C : In m named_curves -> named_curve wasm m = Ok C -> forall Pp : prime (value (cu_p C)), forall s t v, written s t -> hex_number t v -> room (named_cap wasm m) (text_words (length t)) ->
  (0 < v < value (cu_n C) -> exists R, generate_hex (named_cap wasm m) C s = Ok R /\ generate_literal (named_cap wasm m) C t = Ok R /\
     aff_pt (cu_p C) Pp R = zmul (kval (cu_p C) Pp (cu_a C)) v (aff_pt (cu_p C) Pp (cu_g C)) /\ aff_is_identity (fe_ops (named_cap wasm m) (cu_p C)) R = false) /\
  (~ 0 < v < value (cu_n C) -> generate_hex (named_cap wasm m) C s = Abort /\ generate_literal (named_cap wasm m) C t = Abort).
Proof.
  intros IN NC Pp s t v W N R. destruct (generate_hex_claim (named_cap wasm m) C s t v W N R) as (x & (Vx & _) & <- & -> & _ & _ & -> & _).
  destruct (named_generate wasm m C IN NC Pp x Vx) as (H1 & H2). split.
  - intros H. destruct (H1 H) as (P & K & _ & E & I). exists P. auto.
  - intros H. split; exact (H2 H).
Qed.
