(** What the point objects of EcModel.v mean: points of the group of EcGroup.v. *)
From Coq Require Import List ZArith Bool.
From Verif Require Import Outcome WordsModel BigintModel NumModel FpModel EcGroup EcModel.
Open Scope Z_scope.

(** repeated addition *)
Fixpoint nmul {F : fieldT} (a : F) (n : nat) (P : point F) : point F :=
  match n with O => Inf | S n => padd a P (nmul a n P) end.
Definition zmul {F : fieldT} (a : F) (k : Z) (P : point F) : point F :=
  if k <? 0 then popp (nmul a (Z.to_nat (- k)) P) else nmul a (Z.to_nat k) P.

(** the point a coordinate tuple stands for: affine, homogeneous (X/Z, Y/Z), Jacobian (X/Z^2, Y/Z^3);
    the affine class reserves (0, 0) for the identity *)
Section ABS.
Variable F : fieldT.
Definition fb (x y : F) : bool := if feq_dec x y then true else false.
Definition abs_aff (P : option (F * F)) : point F :=
  match P with None => Inf | Some (x, y) => if fb x 0%f && fb y 0%f then Inf else Aff x y end.
Definition abs_proj (P : option (F * F * F)) : point F :=
  match P with None => Inf | Some (x, y, z) => if fb z 0%f then Inf else Aff (x / z)%f (y / z)%f end.
Definition abs_jac (P : option (F * F * F)) : point F :=
  match P with None => Inf | Some (x, y, z) => if fb z 0%f then Inf else Aff (x / (z * z))%f (y / (z * z * z))%f end.
(** small integers in the field *)
Fixpoint fpos (k : positive) : F :=
  match k with xH => 1%f | xO k => (2 * fpos k)%f | xI k => (1 + 2 * fpos k)%f end.
Definition fz (k : Z) : F := match k with Z0 => 0%f | Zpos k => fpos k | Zneg k => (- fpos k)%f end.
(** exact field arithmetic as an instance of the operations the point classes need *)
Definition exact_ops : fops :=
  mkfops F F (fun x y => Ok (x + y)%f) (fun x y => Ok (x - y)%f) (fun x y => Ok (x * y)%f)
    (fun x y => if feq_dec y 0%f then Abort else Ok (x / y)%f)
    (fun x => Ok (x * x)%f) (fun x => Ok (- x)%f) (fun x => if feq_dec x 0%f then Abort else Ok (1 / x)%f)
    (fun x k => Ok (x + k)%f) (fun k x => Ok (k * x)%f) (fun k x => Ok (fz k * x)%f)
    (fun x => fb x 0%f) (fun x => fb x 1%f) (fun x => fb x 0%f) fb fz.
End ABS.
Arguments abs_aff {F}. Arguments abs_proj {F}. Arguments abs_jac {F}. Arguments fb {F}.
