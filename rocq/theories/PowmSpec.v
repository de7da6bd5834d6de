(** The power the software exponentiation takes, as arithmetic on the exponent. *)
From Coq Require Import ZArith.
Open Scope Z_scope.

(** the exponent an exponent of up to 64 bits is taken for: itself up to 33 bits, otherwise its top bit together with its lowest 32 bits *)
Definition effective (e : Z) : Z := if e <? 2 ^ 33 then e else 2 ^ Z.log2 e + e mod 2 ^ 32.
