(** The signer's side of RFC 8017: key pairs, signature generation and the EMSA-PSS encoding. *)
From Coq Require Import List ZArith Znumtheory.
From Verif Require Import UtilsSpec RsaSpec.
Import ListNotations.
Open Scope Z_scope.

(** 3.1, 3.2: the modulus is a product of distinct primes and e * d = 1 modulo every r - 1 (hence modulo their lcm). *)
Definition rsa_key (n e d : Z) : Prop :=
  0 < e /\ 0 < d /\ exists rs, Forall prime rs /\ NoDup rs /\ n = fold_right Z.mul 1 rs /\ Forall (fun r => (r - 1 | e * d - 1)) rs.
(** 5.2.1 RSASP1 followed by I2OSP *)
Definition rsa_sign (n d : Z) (k : nat) (em : list Z) : list Z := I2OSP (OS2IP em ^ d mod n) k.
(** 8.2.1; defined for |T| + 11 <= k *)
Definition rsassa_pkcs1_sign (n d : Z) (k : nat) (T : list Z) : list Z := rsa_sign n d k (emsa_pkcs1 T k).
(** 9.1.1 EMSA-PSS-ENCODE; defined for hlen + |salt| + 2 <= emlen *)
Definition emsa_pss_encode (hash : list Z -> list Z) (hlen : nat) (mhash salt : list Z) (emlen : nat) (embits : Z) : list Z :=
  let H := hash (repeat 0 8 ++ mhash ++ salt) in
  let DB := repeat 0 (emlen - length salt - hlen - 2) ++ [1] ++ salt in
  clear_top (8 * Z.of_nat emlen - embits) (xor_bytes DB (MGF1 hash hlen H (emlen - hlen - 1))) ++ H ++ [188].
(** 8.1.1 with a given salt *)
Definition rsassa_pss_sign (hash : list Z -> list Z) (hlen : nat) (n d : Z) (k : nat) (mhash salt : list Z) : list Z :=
  rsa_sign n d k (emsa_pss_encode hash hlen mhash salt (Z.to_nat ((Z.log2 n + 7) / 8)) (Z.log2 n)).
