(** The group of points of a short Weierstrass curve y^2 = x^3 + a x + b over a field: the textbook
    chord-and-tangent law.  Specification file: no code of the library is modelled here. *)
From Coq Require Import Field Ring Setoid Bool.

Record fieldT := mkfield {
  fT :> Type; f0 : fT; f1 : fT;
  fadd : fT -> fT -> fT; fmul : fT -> fT -> fT; fsub : fT -> fT -> fT; fopp : fT -> fT;
  fdiv : fT -> fT -> fT; finv : fT -> fT; feq_dec : forall x y : fT, {x = y} + {x <> y};
  f_theory : field_theory f0 f1 fadd fmul fsub fopp fdiv finv eq }.
Arguments f0 {_}. Arguments f1 {_}. Arguments fadd {_}. Arguments fmul {_}. Arguments fsub {_}.
Arguments fopp {_}. Arguments fdiv {_}. Arguments finv {_}. Arguments feq_dec {_}.
Declare Scope f_scope.
Delimit Scope f_scope with f.
Bind Scope f_scope with fT.
Notation "0" := f0 : f_scope. Notation "1" := f1 : f_scope.
Infix "+" := fadd : f_scope. Infix "*" := fmul : f_scope. Infix "-" := fsub : f_scope. Infix "/" := fdiv : f_scope.
Notation "- x" := (fopp x) : f_scope.
Notation "2" := (f1 + f1)%f : f_scope. Notation "3" := (f1 + (f1 + f1))%f : f_scope.
Open Scope f_scope.

(** A point: the point at infinity, or a pair of coordinates. *)
Inductive point (F : Type) := Inf | Aff (x y : F).
Arguments Inf {F}. Arguments Aff {F}.

Section LAW.
Variable F : fieldT.
Variables a b : F.
Definition on_curve (P : point F) : Prop :=
  match P with Inf => True | Aff x y => y * y = x * x * x + a * x + b end.
Definition popp (P : point F) : point F := match P with Inf => Inf | Aff x y => Aff x (- y) end.
(** the point collinear with (x1,y1) and (x2,_) on the line of slope l, reflected *)
Definition third (l x1 y1 x2 : F) : point F := let x := l * l - x1 - x2 in Aff x (l * (x1 - x) - y1).
Definition padd (P Q : point F) : point F :=
  match P, Q with
  | Inf, _ => Q
  | _, Inf => P
  | Aff x1 y1, Aff x2 y2 =>
      if feq_dec x1 x2 then
        if feq_dec y1 (- y2) then Inf
        else third ((3 * (x1 * x1) + a) / (2 * y1)) x1 y1 x1
      else third ((y2 - y1) / (x2 - x1)) x1 y1 x2
  end.
(** 4 a^3 + 27 b^2 *)
Definition disc : F := 2 * 2 * (a * a * a) + 3 * 3 * 3 * (b * b).
End LAW.
Arguments on_curve {F}. Arguments popp {F}. Arguments third {F}. Arguments padd {F}. Arguments disc {F}.
