(** Property theorems C05 (SHA-384). *)
From Coq Require Import List ZArith Bool Lia.
From Verif Require Import Outcome UtilsModel UtilsSpec UtilsProofs RsaModel RsaSpec ShaModel ShaSpec ShaProofs.
Import ListNotations.
Open Scope Z_scope.

(** C05: for every message of less than 2^64 bytes, and whatever the stack memory of the last block held, the code returns the SHA-384 digest of FIPS 180-4, with the constants defined by roots of primes. *)
Theorem C05_sha384 : forall junk m,
  length junk = 128%nat -> all_bytes junk -> all_bytes m -> Z.of_nat (length m) < 2 ^ 64 ->
  exists K H0, round_constants K /\ initial_value H0 /\ sha384 junk m = Ok (SHA384 K H0 m).
Proof. exact sha384_total. Qed.
Print Assumptions C05_sha384.
(** C05: the tables of the code are those roots. *)
Theorem C05_constants : round_constants K_512 /\ initial_value sha384_initial /\ length primes = 80%nat.
Proof. exact sha384_constants. Qed.
Print Assumptions C05_constants.
Example C05_ex : sha384 (repeat 7 128) [97; 98; 99] =
  Ok [203; 0; 117; 63; 69; 163; 94; 139; 181; 160; 61; 105; 154; 198; 80; 7; 39; 44; 50; 171; 14; 222; 209; 99;
      26; 139; 96; 90; 67; 255; 91; 237; 128; 134; 7; 43; 161; 231; 204; 35; 88; 186; 236; 161; 52; 200; 37; 167].
Proof. vm_compute. reflexivity. Qed.
Example C05_hyp_ex : exists K H0, round_constants K /\ initial_value H0 /\ sha384 (repeat 7 128) (repeat 97 240) = Ok (SHA384 K H0 (repeat 97 240)).
Proof.
  assert (F : forall b n, is_byte b -> all_bytes (repeat b n)) by (intros b n Hb; apply Forall_forall; intros x Hx; apply repeat_spec in Hx; subst; exact Hb).
  apply C05_sha384; [reflexivity|apply F; unfold is_byte; lia|apply F; unfold is_byte; lia|reflexivity].
Qed.
