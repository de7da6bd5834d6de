(** Definedness of the point operations, collected. *)
From Coq Require Import List ZArith Znumtheory Bool Lia.
From Verif Require Import Outcome WordsModel BigintModel BigintSpec NumModel FpModel FpSpec EcGroup ZpField EcModel EcSpec EcFeSpec EcScalar EcSafe.
Import ListNotations.
Open Scope Z_scope.

Section DEF.
Variables (c : cap) (p a b : bigint) (Pp : prime (value p)) (fz0 fm3 : bool).
Hypotheses (Hp : modulus_ok c p) (p3 : 3 < value p) (Ha : reduced c p a) (Hb : reduced c p b).
Notation O := (fe_ops c p). Notation E := (mkcoeffs O a b fz0 fm3).
Lemma aff_defined P Q x y : good2 c p P -> good2 c p Q -> valid c x -> valid c y ->
  (exists R, aff_add O E P Q = Ok R /\ good2 c p R) /\ (exists R, aff_doubled O E P = Ok R /\ good2 c p R) /\ (exists R, aff_inverted O P = Ok R /\ good2 c p R) /\
  (exists v, aff_is_on_curve O E P = Ok v) /\ (exists R, aff_mul O E P x = Ok R /\ good2 c p R) /\
  (0 <= value x -> 0 <= value y -> room c (size x + 1) -> room c (size y + 1) -> exists R, aff_mul_add O E c x P y Q = Ok R /\ good2 c p R).
Proof.
  intros GP GQ Vx Vy. split; [apply aff_add_def; assumption|]. split; [apply aff_dbl_def; assumption|]. split; [apply (aff_inv_def c p Pp); assumption|]. split; [apply (aff_on_def c p Pp); assumption|]. split; [apply aff_mul_def; assumption|]. intros. apply aff_mul_add_def; assumption.
Qed.
Lemma proj_defined P Q x y : good3 c p P -> good3 c p Q -> valid c x -> valid c y ->
  (exists R, proj_add O E P Q = Ok R /\ good3 c p R) /\ (exists R, proj_doubled O E P = Ok R /\ good3 c p R) /\ (exists R, inverted3 O P = Ok R /\ good3 c p R) /\
  (exists v, proj_is_on_curve O E P = Ok v) /\ (exists R, proj_mul O E P x = Ok R /\ good3 c p R) /\
  (0 <= value x -> 0 <= value y -> room c (size x + 1) -> room c (size y + 1) -> exists R, proj_mul_add O E c x P y Q = Ok R /\ good3 c p R).
Proof.
  intros GP GQ Vx Vy. split; [apply proj_add_def; assumption|]. split; [apply proj_dbl_def; assumption|]. split; [apply (inv3_def c p Pp); assumption|]. split; [apply (proj_on_def c p Pp); assumption|]. split; [apply proj_mul_def; assumption|]. intros. apply proj_mul_add_def; assumption.
Qed.
Lemma jac_defined P Q x y : 8 < value p -> good3 c p P -> good3 c p Q -> valid c x -> valid c y ->
  (exists R, jac_add O E P Q = Ok R /\ good3 c p R) /\ (exists R, jac_doubled O E P = Ok R /\ good3 c p R) /\ (exists R, inverted3 O P = Ok R /\ good3 c p R) /\
  (exists v, jac_is_on_curve O E P = Ok v) /\ (room c (size x + 1) -> exists R, jac_mul O E c P x = Ok R /\ good3 c p R) /\
  (0 <= value x -> 0 <= value y -> room c (size x + 1) -> room c (size y + 1) -> exists R, jac_mul_add O E c x P y Q = Ok R /\ good3 c p R).
Proof.
  intros p8 GP GQ Vx Vy. split; [apply jac_add_def; assumption|]. split; [apply jac_dbl_def; assumption|]. split; [apply (inv3_def c p Pp); assumption|]. split; [apply (jac_on_def c p Pp); assumption|]. split; [intros; apply jac_mul_def; assumption|]. intros. apply jac_mul_add_def; assumption.
Qed.
End DEF.
