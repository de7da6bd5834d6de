(** What the actions of the example contract should do, over byte strings and integers. *)
From Coq Require Import List ZArith Znumtheory.
From Verif Require Import Outcome WordsSpec UtilsSpec BigintModel BigintSpec NumModel EcGroup ZpField EcModel EcSpec EcFeSpec EcCurveModel EcCurveSpec EcdsaSpec RsaSpec RsaClaims ShaSpec ContractModel.
Import ListNotations.
Open Scope Z_scope.

(** the words of the string fit the integer type *)
Definition storable (c : cap) (d : list Z) : Prop := room c ((length d + 3) / 4).
(** the pair of coordinates given by two byte strings *)
Definition key_point (C : curve) (Pp : prime (value (cu_p C))) (qx qy : list Z) : point (GFp (cu_p C) Pp) :=
  Aff (zmk _ Pp (be_value qx)) (zmk _ Pp (be_value qy)).
(** strings of the right size whose coordinates are reduced and whose signature ECDSA accepts for the digest [h] *)
Definition action_valid (c : cap) (C : curve) (Pp : prime (value (cu_p C))) (qx qy h r s : list Z) : Prop :=
  storable c qx /\ storable c qy /\ storable c r /\ storable c s /\
  be_value qx < value (cu_p C) /\ be_value qy < value (cu_p C) /\
  accepts (coord (cu_p C) Pp) (kval (cu_p C) Pp (cu_a C)) (aff_pt (cu_p C) Pp (cu_g C)) (value (cu_n C))
    (key_point C Pp qx qy) (leftmost (bitlen (value (cu_n C))) h) (be_value r) (be_value s).

(** the hash function named by an action: those of the host, or SHA-384 of FIPS 180-4 with constants K, H0 *)
Definition action_hash (sha1 sha256 sha512 : list Z -> list Z) (K H0 : list Z) (k : hash_kind) : list Z -> list Z :=
  match k with SHA1 => sha1 | SHA256 => sha256 | SHA384 => ShaSpec.SHA384 K H0 | SHA512 => sha512 end.
(** object identifiers of the hash functions in PKCS#1 *)
Definition action_oid (k : hash_kind) : list Z :=
  match k with SHA1 => oid_sha1 | SHA256 => oid_sha256 | SHA384 => oid_sha384 | SHA512 => oid_sha512 end.
(** the host's hash functions answer digests of their size *)
Definition host_ok (sha1 sha256 sha512 : list Z -> list Z) : Prop := hash_ok sha1 20 /\ hash_ok sha256 32 /\ hash_ok sha512 64.
(** the shortest of SHA-256, SHA-384, SHA-512 with at least [bits] bits, SHA-512 if there is none *)
Definition matching_hash (bits : Z) : hash_kind := if bits <=? 256 then SHA256 else if bits <=? 384 then SHA384 else SHA512.
