(** RFC 8017 8.1.2 with the bit length of the modulus replaced by the bit length of its byte string: what the PSS
    verification checks.  The two agree for moduli that fill their top byte. *)
From Coq Require Import List ZArith.
From Verif Require Import RsaSpec.
Open Scope Z_scope.

Definition pss_valid_bytes (hash : list Z -> list Z) (hlen slen : nat) (n e : Z) (k : nat) (mhash sig : list Z) : Prop :=
  length sig = k /\ OS2IP sig < n /\
  emsa_pss_consistent hash hlen slen mhash (I2OSP (OS2IP sig ^ e mod n) k) (8 * Z.of_nat k - 1).
