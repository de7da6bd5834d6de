(** ECDSA over an abstract group of points (FIPS 186-5, section 6.4), independent of the code. *)
From Coq Require Import List ZArith Znumtheory Bool.
From Verif Require Import Outcome WordsModel WordsSpec UtilsSpec BigintModel BigintSpec NumModel FpModel FpSpec EcGroup ZpField EcModel EcSpec EcFeSpec EcCurveModel EcCurveSpec.
Import ListNotations.
Open Scope Z_scope.

(** a curve object usable for ECDSA: well-formed, generator on the curve, prime order stored in n *)
Definition ecdsa_curve (c : cap) (C : curve) (Pp : prime (value (cu_p C))) : Prop :=
  curve_base c C Pp /\ 8 < value (cu_p C) /\ good2 c (cu_p C) (cu_g C) /\
  on_curve (kval (cu_p C) Pp (cu_a C)) (kval (cu_p C) Pp (cu_b C)) (aff_pt (cu_p C) Pp (cu_g C)) /\
  modulus_ok c (cu_n C) /\ prime (value (cu_n C)).

Section ECDSA.
Variable F : fieldT.
(** the integer of a coordinate *)
Variable toZ : F -> Z.
Variable a : F.
Variable G : point F.
Variable n : Z.
(** acceptance of (r, s) by the key Q for the message integer e *)
Definition accepts (Q : point F) (e r s : Z) : Prop :=
  Q <> Inf /\ 1 <= r < n /\ 1 <= s < n /\
  exists w x y, (s * w) mod n = 1 /\ padd a (zmul a ((e * w) mod n) G) (zmul a ((r * w) mod n) Q) = Aff x y /\ toZ x mod n = r.
(** (r, s) is made by the private key d with the nonce k *)
Definition signature (d k e r s : Z) : Prop :=
  1 <= r < n /\ 1 <= s < n /\ (k * s) mod n = (e + r * d) mod n /\ exists x y, zmul a k G = Aff x y /\ toZ x mod n = r.
End ECDSA.
Arguments accepts {F}. Arguments signature {F}.
(** the integer of a coordinate of a curve over the integers modulo a prime *)
Definition coord (p : bigint) (Pp : prime (value p)) : GFp p Pp -> Z := @zval (value p).
(** the leftmost [bits] bits of a byte string, all of it when it is shorter *)
Definition leftmost (bits : Z) (msg : list Z) : Z :=
  let l := 8 * Z.of_nat (length msg) in be_value msg / 2 ^ (l - Z.min bits l).
(** number of bits of a positive number *)
Definition bitlen (n : Z) : Z := Z.log2 n + 1.
