(** The group element a point object of the library stands for: its coordinates are field element objects,
    read as residues modulo the prime of the curve. *)
From Coq Require Import List ZArith Znumtheory Bool.
From Verif Require Import Outcome WordsModel BigintModel BigintSpec NumModel FpModel FpSpec EcGroup ZpField EcModel EcSpec.
Import ListNotations.
Open Scope Z_scope.

Section FE.
Variable c : cap.
Variable p : bigint.
Variable Pp : prime (value p).
Definition GFp : fieldT := Zp (value p) Pp.
Definition fval (x : fe) : GFp := zmk (value p) Pp (value (fv x)).
Definition kval (x : bigint) : GFp := zmk (value p) Pp (value x).
Definition aff_pt (P : option (fe * fe)) : point GFp := abs_aff (option_map (fun P => (fval (fst P), fval (snd P))) P).
Definition proj_pt (P : option (fe * fe * fe)) : point GFp :=
  abs_proj (option_map (fun P => (fval (fst (fst P)), fval (snd (fst P)), fval (snd P))) P).
Definition jac_pt (P : option (fe * fe * fe)) : point GFp :=
  abs_jac (option_map (fun P => (fval (fst (fst P)), fval (snd (fst P)), fval (snd P))) P).
(** the coordinates of an affine object taken literally, (0, 0) included *)
Definition raw_pt (P : option (fe * fe)) : point GFp :=
  match P with None => Inf | Some (x, y) => Aff (fval x) (fval y) end.
(** objects whose coordinates are reduced elements of the field of the curve *)
Definition good2 (P : option (fe * fe)) : Prop := match P with None => True | Some (x, y) => elem c p x /\ elem c p y end.
Definition good3 (P : option (fe * fe * fe)) : Prop :=
  match P with None => True | Some (x, y, z) => elem c p x /\ elem c p y /\ elem c p z end.
End FE.

(** a curve over a prime field of characteristic above 3 that the storage type can handle: the coefficients
    are reduced and the curve is not singular *)
Definition curve_ok (c : cap) (p : bigint) (Pp : prime (value p)) (a b : bigint) : Prop :=
  modulus_ok c p /\ 3 < value p /\ reduced c p a /\ reduced c p b /\ disc (kval p Pp a) (kval p Pp b) <> 0%f.
