(** Model of examples/helloack/src/helloack.cpp, lines 16-158: the actions of the example contract, from the byte
    strings of the transaction.  The hash functions of the host (sha1, sha256, sha512) are parameters. *)
From Coq Require Import List ZArith Bool.
From Verif Require Import Outcome UtilsModel WordsModel BigintModel NumModel FpModel EcModel EcCurveModel EcdsaModel RsaModel ShaModel NamedModel.
Import ListNotations.
Open Scope Z_scope.

(** 16-94: the eight ECDSA actions differ in the curve and the hash function.  The byte strings become integers of the
    curve's integer type (bigint.hpp:1187-1190), make_point is called without verification (ec.hpp:1649-1660).
    Simplification: the arguments of assert_ecdsa are converted in a fixed order; each conversion can only abort. *)
Definition check_ecdsa (c : cap) (C : curve) (hash : list Z -> outcome (list Z)) (qx qy msg r s : list Z) : outcome unit :=
  let* x := of_bytes c qx in
  let* y := of_bytes c qy in
  let* pub := make_point c C x y false in
  let* h := hash msg in
  let* r := of_bytes c r in
  let* s := of_bytes c s in
  assert_ecdsa c C pub h r s.

(** the hash functions of the actions *)
Inductive hash_kind := SHA1 | SHA256 | SHA384 | SHA512.
(** digest sizes: types.hpp hash160, hash256, hash384, hash512 *)
Definition hash_size (k : hash_kind) : nat := match k with SHA1 => 20 | SHA256 => 32 | SHA384 => 48 | SHA512 => 64 end.
(** 16-94: the curve and the hash function of each ECDSA action *)
Definition ecdsa_actions : list (params * hash_kind) :=
  [(brainpoolP256r1, SHA256); (brainpoolP320r1, SHA384); (brainpoolP384r1, SHA384); (brainpoolP512r1, SHA512);
   (secp256k1, SHA256); (secp256r1, SHA256); (secp384r1, SHA384); (secp521r1, SHA512)].

Section HOST.
(** the hash functions of the host, and the indeterminate contents of the local array of sha384 (sha.hpp:230) *)
Variables sha1 sha256 sha512 : list Z -> list Z.
Variable junk : list Z.
Definition run_hash (k : hash_kind) (msg : list Z) : outcome (list Z) :=
  match k with SHA1 => Ok (sha1 msg) | SHA256 => Ok (sha256 msg) | SHA384 => sha384 junk msg | SHA512 => Ok (sha512 msg) end.
Definition ecdsa_action (wasm : bool) (a : params * hash_kind) (qx qy msg r s : list Z) : outcome unit :=
  let* C := named_curve wasm (fst a) in
  check_ecdsa (named_cap wasm (fst a)) C (run_hash (snd a)) qx qy msg r s.

Variable mod_exp : list Z -> list Z -> list Z -> outcome (option (list Z)).
(** rsa.hpp:371-373, 401-403, 431-433, 461-463, 489-491, 517-519, 545-547, 573-575: check( verify_...() ) *)
Definition assert_true (v : outcome bool) : outcome unit := let* b := v in check b.
(** rsa.hpp:372, 402, 432, 462: the verification function assert_rsa_... calls *)
Definition verify_rsa (k : hash_kind) :=
  match k with SHA1 => verify_rsa_sha1 mod_exp | SHA256 => verify_rsa_sha256 mod_exp | SHA384 => verify_rsa_sha384 mod_exp | SHA512 => verify_rsa_sha512 mod_exp end.
(** 96-102, 112-118, 128-134, 144-150: PKCS#1 v1.5 *)
Definition rsa_action (k : hash_kind) (modulus exponent msg sig : list Z) : outcome unit :=
  let* md := run_hash k msg in
  assert_true (verify_rsa k modulus exponent md sig).
(** 104-110, 120-126, 136-142, 152-158: PSS; the same hash function is used for MGF1 (rsa.hpp:473-480 and siblings).
    [pss_check] takes a hash function that always answers; that the stand-in [] for the other outcomes of sha384 is
    never used is part of the theorem. *)
Definition answer (o : outcome (list Z)) : list Z := match o with Ok d => d | _ => [] end.
Definition pss_action (k : hash_kind) (modulus exponent : list Z) (salt_len : option Z) (msg sig : list Z) : outcome unit :=
  let* md := run_hash k msg in
  assert_true (rsassa_pss_mgf1_verify mod_exp (fun m => answer (run_hash k m)) (hash_size k) modulus exponent salt_len md sig).
End HOST.
