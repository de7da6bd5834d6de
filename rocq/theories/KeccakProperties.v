(** Property theorems C06 (SHA-3 and SHAKE). *)
From Coq Require Import List ZArith Bool Lia.
From Verif Require Import Outcome UtilsModel UtilsSpec UtilsProofs RsaModel RsaSpec ShaModel ShaSpec ShaProofs KeccakModel KeccakSpec KeccakProofs KeccakSponge.
Import ListNotations.
Open Scope Z_scope.

(** C06: for every message the code returns the SHA3-256 digest of FIPS 202, whatever the output array held before. *)
Theorem C06_sha3_256 : forall m,
  all_bytes m -> digest_of sha3_256 m 32 (SHA3 256 (bits_of m)).
Proof. exact sha3_256_ok. Qed.
Print Assumptions C06_sha3_256.
(** C06: the same for SHA3-384. *)
Theorem C06_sha3_384 : forall m,
  all_bytes m -> digest_of sha3_384 m 48 (SHA3 384 (bits_of m)).
Proof. exact sha3_384_ok. Qed.
Print Assumptions C06_sha3_384.
(** C06: the same for SHA3-512. *)
Theorem C06_sha3_512 : forall m,
  all_bytes m -> digest_of sha3_512 m 64 (SHA3 512 (bits_of m)).
Proof. exact sha3_512_ok. Qed.
Print Assumptions C06_sha3_512.
(** C06: SHAKE128 with any output length. *)
Theorem C06_shake128 : forall m n,
  all_bytes m -> digest_of shake128 m n (SHAKE 256 (8 * n) (bits_of m)).
Proof. exact shake128_ok. Qed.
Print Assumptions C06_shake128.
(** C06: SHAKE256 with any output length. *)
Theorem C06_shake256 : forall m n,
  all_bytes m -> digest_of shake256 m n (SHAKE 512 (8 * n) (bits_of m)).
Proof. exact shake256_ok. Qed.
Print Assumptions C06_shake256.
(** C06: the permutation of the code is Keccak-f[1600]. *)
Theorem C06_permutation : forall s,
  is_state s -> KeccakModel.F s = Ok (Keccak_f s).
Proof. exact F_ok. Qed.
Print Assumptions C06_permutation.
Example C06_sha3_256_ex : sha3_256 (repeat 7 32) [97; 98; 99] =
  Ok [58; 152; 93; 167; 79; 226; 37; 178; 4; 92; 23; 45; 107; 211; 144; 189; 133; 95; 8; 110; 62; 157; 82; 91; 70; 191; 226; 69; 17; 67; 21; 50].
Proof. vm_compute. reflexivity. Qed.
Example C06_sha3_384_ex : sha3_384 (repeat 7 48) (repeat 97 103) =
  Ok [175; 97; 251; 79; 209; 198; 175; 232; 8; 87; 252; 186; 136; 131; 24; 160; 161; 66; 102; 53; 180; 80; 159; 9; 112; 126; 55; 135; 99; 11; 219; 98; 22; 85; 255; 165; 79; 88; 132; 8; 140; 204; 0; 15; 129; 67; 100; 20].
Proof. vm_compute. reflexivity. Qed.
Example C06_sha3_512_ex : sha3_512 (repeat 7 64) (repeat 97 72) =
  Ok [168; 174; 114; 42; 120; 225; 12; 187; 196; 19; 136; 108; 2; 235; 91; 54; 154; 3; 246; 86; 0; 132; 175; 245; 102; 189; 89; 123; 183; 173; 140; 28; 205; 134; 232; 18; 150; 133; 35; 89; 191; 47; 173; 219; 81; 83; 192; 167; 68; 87; 34; 152; 120; 117; 231; 66; 135; 173; 172; 33; 173; 235; 233; 82].
Proof. vm_compute. reflexivity. Qed.
Example C06_shake128_ex : shake128 (repeat 7 20) [97; 98; 99] =
  Ok [88; 129; 9; 45; 216; 24; 191; 92; 248; 163; 221; 183; 147; 251; 203; 167; 64; 151; 213; 197].
Proof. vm_compute. reflexivity. Qed.
Example C06_shake256_ex : shake256 (repeat 7 20) (repeat 97 140) =
  Ok [239; 180; 74; 214; 250; 245; 233; 77; 72; 130; 156; 185; 108; 210; 227; 103; 20; 189; 21; 20].
Proof. vm_compute. reflexivity. Qed.
Lemma hyp_bytes : all_bytes [97; 98; 99].
Proof. repeat (apply Forall_cons; [unfold is_byte; lia|]). apply Forall_nil. Qed.
Example C06_hyp_ex : exists h, sha3_512 (repeat 7 64) [97; 98; 99] = Ok h /\ bits_of h = SHA3 512 (bits_of [97; 98; 99]).
Proof. destruct (C06_sha3_512 [97; 98; 99] hyp_bytes (repeat 7 64) eq_refl) as (h & E & _ & _ & X). exists h. split; assumption. Qed.
