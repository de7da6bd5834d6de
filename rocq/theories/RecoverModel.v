(** Model of examples/helloack/src/helloack.cpp, lines 240-350: the actions that recover a key and compare it. *)
From Coq Require Import List ZArith Bool.
From Verif Require Import Outcome BigintModel FpModel EcModel EcCurveModel EcdsaModel.
Import ListNotations.
Open Scope Z_scope.

(** 240-245 and the seven siblings: rkey = ecdsa_recover( curve, h, r, s, recid ); check( rkey == pub_point ).
    [v] is the last parameter of ecdsa_recover (ecdsa.hpp:139-141).  Simplification: the message of the check is left out. *)
Definition recover_check (c : cap) (C : curve) (msg : list Z) (r s : bigint) (recid : Z) (v : bool) (pub : option (fe * fe)) : outcome unit :=
  let* rkey := ecdsa_recover c C msg r s recid v in
  check (aff_eqb (fe_ops c (cu_p C)) rkey pub).
