(** The word-array product of equal lengths, [sqr_n]; [mul_n] is in WordsModel.v. *)
From Coq Require Import List ZArith.
From Verif Require Import WordsModel.
Import ListNotations.
Open Scope Z_scope.

(** bigint.hpp:284-289 [sqr_n] *)
Definition sqr_n (x : list Z) : list Z := mul_n x x.
