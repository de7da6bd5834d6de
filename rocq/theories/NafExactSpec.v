(** The recoding at full capacity: the digits up to the first -1 met while the part not yet recoded still fills the capacity. *)
From Coq Require Import List ZArith Bool.
From Verif Require Import BigintSpec.
Import ListNotations.
Open Scope Z_scope.

Fixpoint naf_cut (lim : Z) (l : list Z) : list Z :=
  match l with
  | [] => []
  | d :: t => d :: (if (d =? -1) && (lim <=? naf_value (d :: t)) then [] else naf_cut lim t)
  end.
