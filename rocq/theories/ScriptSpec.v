(** What the points and curves of scripts/ec.py mean: points of the group of EcGroup.v over the integers modulo p. *)
From Coq Require Import List ZArith Znumtheory Bool String.
From Verif Require Import Outcome WordsModel BigintModel BigintSpec NumModel FpModel EcGroup EcSpec ZpField EcModel EcCurveModel EcdsaSpec NamedModel NamedSpec ScriptModel.
Open Scope Z_scope.

(** the point a pair of integers stands for *)
Definition spt {p : Z} (Pp : prime p) (P : pypoint) : point (Zp p Pp) :=
  match P with None => Inf | Some (x, y) => Aff (zmk p Pp x) (zmk p Pp y) end.
(** coordinates in [0, p) *)
Definition tidy (p : Z) (P : pypoint) : Prop := match P with None => True | Some (x, y) => 0 <= x < p /\ 0 <= y < p end.
(** the coefficients in the field *)
Definition sa (cv : pycurve) (Pp : prime (py_p cv)) : Zp _ Pp := zmk _ Pp (py_a cv).
Definition sb (cv : pycurve) (Pp : prime (py_p cv)) : Zp _ Pp := zmk _ Pp (py_b cv).
(** the equation of the curve holds *)
Definition son (cv : pycurve) (Pp : prime (py_p cv)) (P : pypoint) : Prop := on_curve (sa cv Pp) (sb cv Pp) (spt Pp P).
(** an odd field and a curve without singular point *)
Definition smooth (cv : pycurve) (Pp : prime (py_p cv)) : Prop := 2 < py_p cv /\ disc (sa cv Pp) (sb cv Pp) <> 0%f.
(** no point of order two *)
Definition no_two (cv : pycurve) (Pp : prime (py_p cv)) : Prop := forall x, ~ on_curve (sa cv Pp) (sb cv Pp) (Aff x 0%f).
(** a curve the script can work with: smooth, no point of order two, a generator with coordinates in [0, p) on the curve,
    a prime order n that kills every point *)
Definition sound (cv : pycurve) (Pp : prime (py_p cv)) : Prop :=
  smooth cv Pp /\ no_two cv Pp /\ tidy (py_p cv) (py_g cv) /\ son cv Pp (py_g cv) /\ prime (py_n cv) /\
  forall X, on_curve (sa cv Pp) (sb cv Pp) X -> zmul (sa cv Pp) (py_n cv) X = Inf.
(** the point the verification computes from the inverse w of s *)
Definition combined (cv : pycurve) (Pp : prime (py_p cv)) (Q : pypoint) (e r w : Z) : point (Zp _ Pp) :=
  padd (sa cv Pp) (zmul (sa cv Pp) ((e * w) mod py_n cv) (spt Pp (py_g cv))) (zmul (sa cv Pp) ((r * w) mod py_n cv) (spt Pp Q)).
(** acceptance by the equation alone: like [accepts] of EcdsaSpec.v without its condition that the key is not the identity *)
Definition passes (cv : pycurve) (Pp : prime (py_p cv)) (Q : pypoint) (e r s : Z) : Prop :=
  1 <= r < py_n cv /\ 1 <= s < py_n cv /\ exists w x y, (s * w) mod py_n cv = 1 /\ combined cv Pp Q e r w = Aff x y /\ zval x mod py_n cv = r.
(** the sum is the identity *)
Definition vanishes (cv : pycurve) (Pp : prime (py_p cv)) (Q : pypoint) (e r s : Z) : Prop :=
  1 <= r < py_n cv /\ 1 <= s < py_n cv /\ exists w, (s * w) mod py_n cv = 1 /\ combined cv Pp Q e r w = Inf.
(** the point of the script with the coordinates of a point object *)
Definition coords (q : option (fe * fe)) : pypoint := option_map (fun P => (value (fv (fst P)), value (fv (snd P)))) q.
(** the curve object of the script with the constants of a curve object of the library, and with those of a set of named parameters *)
Definition held (C : curve) : pycurve :=
  mkpycurve (value (cu_p C)) (value (cu_a C)) (value (cu_b C)) (coords (cu_g C)) (value (cu_n C)) (cu_h C).
Definition listed (m : params) : pycurve :=
  mkpycurve (hexval (pm_p m)) (hexval (pm_a m)) (hexval (pm_b m)) (Some (hexval (pm_gx m), hexval (pm_gy m))) (hexval (pm_n m)) (pm_h m).
