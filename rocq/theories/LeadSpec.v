(** What the software exponentiation makes of the leading bytes of the base when the modulus has leading zeros. *)
From Coq Require Import ZArith List.
From Verif Require Import RsaSpec EvenSpec.
Open Scope Z_scope.

(** the power modulo [n], or the truncated one of EvenSpec.v if [n] is even; [n] and [x] have [len] bytes *)
Definition raised (n x e : Z) (len : nat) : Z := if Z.even n then truncated_power (256 ^ Z.of_nat len) n x e else x ^ e mod n.
(** the block that is compared with the encoded message: only the leading bytes of the signature are raised *)
Definition half_raised (n e : Z) (hi lo : list Z) : list Z := I2OSP (raised n (OS2IP hi) e (length hi)) (length hi) ++ lo.
