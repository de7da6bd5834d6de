(** Model of the point classes of ec.hpp.  The code is a template over the curve, whose field element type
    supplies the arithmetic; here the arithmetic is a record of operations [fops], instantiated below with
    the field elements of FpModel.v.  Operations return an [outcome] because the field operations can
    abort (division by zero) or dereference a null modulus.

    A point object holds a pointer to its curve and its coordinates.  [None] is the default-constructed
    point, whose curve pointer is null (ec.hpp:23-25, 384-388, 632-637, 987-992); [Some] holds the
    coordinates of a point whose pointer is set.  Simplification: all points of one computation belong to
    one curve, so the comparisons of curve pointers in the operators == only distinguish null from
    non-null, and the curve is a parameter. *)
From Coq Require Import List ZArith Bool.
From Verif Require Import Outcome LoopModel WordsModel BigintModel NumModel FpModel.
Import ListNotations.
Open Scope Z_scope.

(** fp.hpp:448-1094, the operations the point classes use.  [K] is the type of the curve coefficients
    (plain integers in the code). *)
Record fops := mkfops {
  T : Type; K : Type;
  o_add : T -> T -> outcome T; o_sub : T -> T -> outcome T; o_mul : T -> T -> outcome T; o_div : T -> T -> outcome T;
  o_sqr : T -> outcome T; o_neg : T -> outcome T; o_inv : T -> outcome T;
  o_addk : T -> K -> outcome T;   (* element + integer constant of the curve *)
  o_mulk : K -> T -> outcome T;   (* integer constant of the curve * element *)
  o_muli : Z -> T -> outcome T;   (* int * element *)
  o_is_zero : T -> bool; o_is_one : T -> bool; o_eq0 : T -> bool; o_eqb : T -> T -> bool;
  o_lit : Z -> T                  (* element from a small integer and the prime of the curve *)
}.

(** the instantiation used by the library (fp.hpp:448-1095 [fp_element], FpModel.v) *)
Definition fe_ops (c : cap) (p : bigint) : fops :=
  mkfops fe bigint (fe_add c) (fe_sub c) (fe_mul c) (fe_div c) (fe_sqr c) (fe_neg c) (fe_inv c)
    (fe_add_big c) (big_times_fe c) (int_times_fe c)
    fe_is_zero fe_is_one (fun x => compares1 (fv x) 0 =? 0) fe_eqb
    (fun k => mkfe (of_int c k) (Some p)).

Section EC.
Variable O : fops.
Notation T := (T O).
(** ec.hpp:1522-1531: the coefficients and the cached flags *)
Record coeffs := mkcoeffs { cv_a : K O; cv_b : K O; cv_a_is_zero : bool; cv_a_is_minus_3 : bool }.
Variable E : coeffs.

Notation "x + y" := (o_add O x y). Notation "x - y" := (o_sub O x y). Notation "x * y" := (o_mul O x y).
Notation sqr := (o_sqr O).

(** * ec.hpp:368-599 [ec_point_fp] *)
Definition aff := option (T * T).
(** 394-397 *)
Definition aff_is_identity (P : aff) : bool :=
  match P with None => true | Some (x, y) => o_is_zero O x && o_is_zero O y end.
(** 405-411 *)
Definition aff_is_on_curve (P : aff) : outcome bool :=
  if aff_is_identity P then Ok true
  else match P with
  | None => Abort
  | Some (x, y) =>
      let* y2 := sqr y in
      let* x2 := sqr x in let* t := o_addk O x2 (cv_a E) in let* t := t * x in let* t := o_addk O t (cv_b E) in
      let* d := y2 - t in
      Ok (o_eq0 O d)
  end.
(** 448-454 *)
Definition aff_inverted (P : aff) : outcome aff :=
  if aff_is_identity P then Ok P
  else match P with
  | None => Abort
  | Some (x, y) => let* y := o_neg O y in Ok (Some (x, y))
  end.
(** 497-510 *)
Definition aff_doubled (P : aff) : outcome aff :=
  match P with
  | None => Ok None
  | Some (x, y) =>
      if aff_is_identity P || o_is_zero O y then Ok None
      else
        let* x2 := sqr x in let* n := o_muli O 3 x2 in let* n := o_addk O n (cv_a E) in
        let* d := o_muli O 2 y in
        let* s := o_div O n d in
        let* s2 := sqr s in let* dx := o_muli O 2 x in
        let* x2 := s2 - dx in
        let* t := x - x2 in let* t := s * t in
        let* y2 := t - y in
        Ok (Some (x2, y2))
  end.
(** 463-489 *)
Definition aff_add (P A : aff) : outcome aff :=
  if aff_is_identity P then Ok A
  else if aff_is_identity A then Ok P
  else match P, A with
  | Some (x, y), Some (ax, ay) =>
      let* s := ax - x in
      if o_is_zero O s then
        if o_eqb O y ay then aff_doubled P else Ok None
      else
        let* d := ay - y in
        let* s := o_div O d s in
        let* s2 := sqr s in let* t := s2 - x in
        let* x3 := t - ax in
        let* t := x - x3 in let* t := s * t in
        let* y3 := t - y in
        Ok (Some (x3, y3))
  | _, _ => Abort
  end.
(** 519-522 *)
Definition aff_sub (P A : aff) : outcome aff := let* N := aff_inverted A in aff_add P N.
(** 566-572; the coordinates of a default-constructed point are zero *)
Definition aff_eqb (P Q : aff) : bool :=
  match P, Q with
  | None, None => true
  | Some (x, y), Some (x', y') => o_eqb O x x' && o_eqb O y y'
  | Some (x, y), None | None, Some (x, y) => o_eq0 O x && o_eq0 O y
  end.

(** * ec.hpp:614-953 [ec_point_fp_proj], 969-1394 [ec_point_fp_jacobi]: the parts they share *)
Definition pt3 := option (T * T * T).
(** 713-716, 1070-1073 *)
Definition is_identity3 (P : pt3) : bool := match P with None => true | Some (_, _, z) => o_is_zero O z end.
(** 646-655, 1001-1010: the constructors from an affine point *)
Definition of_affine (P : aff) : pt3 :=
  if aff_is_identity P then None
  else match P with None => None | Some (x, y) => Some (x, y, o_lit O 1) end.
(** 768-774, 1128-1134 *)
Definition inverted3 (P : pt3) : outcome pt3 :=
  if is_identity3 P then Ok P
  else match P with
  | None => Abort
  | Some (x, y, z) => let* y := o_neg O y in Ok (Some (x, y, z))
  end.

(** ** homogeneous coordinates *)
(** 664-673 [normalize]; line 670 assigns the integer 1 to the element, which keeps its modulus *)
Definition proj_normalize (P : pt3) : outcome pt3 :=
  match P with
  | None => Ok P
  | Some (x, y, z) =>
      if negb (is_identity3 P) && negb (o_is_one O z) then
        let* zi := o_inv O z in
        let* x := x * zi in let* y := y * zi in
        Ok (Some (x, y, o_lit O 1))
      else Ok P
  end.
(** 694-707 *)
Definition proj_to_affine (P : pt3) : outcome aff :=
  if is_identity3 P then Ok None
  else match P with
  | None => Abort
  | Some (x, y, z) =>
      if o_is_one O z then Ok (Some (x, y))
      else
        let* zi := o_inv O z in
        let* x := x * zi in let* y := y * zi in
        Ok (Some (x, y))
  end.
(** 724-731 *)
Definition proj_is_on_curve (P : pt3) : outcome bool :=
  if is_identity3 P then Ok true
  else match P with
  | None => Abort
  | Some (x, y, z) =>
      let* z2 := sqr z in
      let* y2 := sqr y in let* l := y2 * z in
      let* x2 := sqr x in let* az := o_mulk O (cv_a E) z2 in let* t := x2 + az in let* t := t * x in
      let* bz := o_mulk O (cv_b E) z in let* bz := bz * z2 in
      let* r := t + bz in
      let* d := l - r in
      Ok (o_eq0 O d)
  end.
(** 828-858 *)
Definition proj_doubled (P : pt3) : outcome pt3 :=
  match P with
  | None => Ok None
  | Some (x, y, z) =>
      if is_identity3 P || o_eq0 O y then Ok None
      else
        let* x2 := sqr x in
        let* t := if cv_a_is_zero E then o_muli O 3 x2
                  else if cv_a_is_minus_3 E then let* z2 := sqr z in let* d := x2 - z2 in o_muli O 3 d
                  else let* t := o_muli O 3 x2 in let* z2 := sqr z in let* az := o_mulk O (cv_a E) z2 in t + az in
        let* dy := o_muli O 2 y in
        let* u := dy * z in
        let* v := u * x in let* v := v * dy in
        let* t2 := sqr t in let* v2 := o_muli O 2 v in
        let* w := t2 - v2 in
        let* rx := u * w in
        let* u2 := sqr u in
        let* vw := v - w in let* l := t * vw in
        let* y2 := sqr y in let* r := u2 * y2 in let* r := o_muli O 2 r in
        let* ry := l - r in
        let* rz := u2 * u in
        Ok (Some (rx, ry, rz))
  end.
(** 783-820 *)
Definition proj_add (P Q : pt3) : outcome pt3 :=
  if is_identity3 P then Ok Q
  else if is_identity3 Q then Ok P
  else match P, Q with
  | Some (px, py, pz), Some (qx, qy, qz) =>
      let* t0 := py * qz in
      let* t1 := qy * pz in
      let* u0 := px * qz in
      let* u1 := qx * pz in
      if o_eqb O u0 u1 then
        if o_eqb O t0 t1 then proj_doubled P else Ok None
      else
        let* t := t0 - t1 in
        let* u := u0 - u1 in
        let* u2 := sqr u in
        let* u3 := u * u2 in
        let* v := pz * qz in
        let* t2 := sqr t in let* l := t2 * v in let* s := u0 + u1 in let* r := u2 * s in
        let* w := l - r in
        let* rx := u * w in
        let* a := u0 * u2 in let* a := a - w in let* a := t * a in let* b := t0 * u3 in
        let* ry := a - b in
        let* rz := u3 * v in
        Ok (Some (rx, ry, rz))
  | _, _ => Abort
  end.
(** 867-870 *)
Definition proj_sub (P A : pt3) : outcome pt3 := let* N := inverted3 A in proj_add P N.
(** 917-925 *)
Definition proj_eqb (P Q : pt3) : outcome bool :=
  if is_identity3 P || is_identity3 Q then Ok (is_identity3 P && is_identity3 Q)
  else match P, Q with
  | Some (ax, ay, az), Some (bx, by_, bz) =>
      let* l := ax * bz in let* r := bx * az in
      if o_eqb O l r then
        let* l := ay * bz in let* r := by_ * az in Ok (o_eqb O l r)
      else Ok false
  | _, _ => Abort
  end.

(** ** Jacobian coordinates *)
(** 1019-1029 *)
Definition jac_normalize (P : pt3) : outcome pt3 :=
  match P with
  | None => Ok P
  | Some (x, y, z) =>
      if negb (is_identity3 P) && negb (o_is_one O z) then
        let* zi := o_inv O z in
        let* zi2 := zi * zi in
        let* x := x * zi2 in
        let* zi3 := zi2 * zi in let* y := y * zi3 in
        Ok (Some (x, y, o_lit O 1))
      else Ok P
  end.
(** 1050-1064 *)
Definition jac_to_affine (P : pt3) : outcome aff :=
  if is_identity3 P then Ok None
  else match P with
  | None => Abort
  | Some (x, y, z) =>
      if o_is_one O z then Ok (Some (x, y))
      else
        let* zi := o_inv O z in
        let* zi2 := sqr zi in
        let* x := x * zi2 in
        let* y := y * zi2 in let* y := y * zi in
        Ok (Some (x, y))
  end.
(** 1082-1091 *)
Definition jac_is_on_curve (P : pt3) : outcome bool :=
  if is_identity3 P then Ok true
  else match P with
  | None => Abort
  | Some (x, y, z) =>
      let* z2 := sqr z in
      let* z4 := sqr z2 in
      let* z6 := z2 * z4 in
      let* y2 := sqr y in
      let* x2 := sqr x in let* az := o_mulk O (cv_a E) z4 in let* t := x2 + az in let* t := t * x in
      let* bz := o_mulk O (cv_b E) z6 in
      let* r := t + bz in
      Ok (o_eqb O y2 r)
  end.
(** 1177-1212 *)
Definition jac_doubled (P : pt3) : outcome pt3 :=
  if is_identity3 P then Ok P
  else match P with
  | None => Abort
  | Some (x, y, z) =>
      if o_eq0 O y then Ok None
      else
        let z_is_one := o_is_one O z in
        let* m := if cv_a_is_zero E then let* x2 := sqr x in o_muli O 3 x2
                  else if cv_a_is_minus_3 E then
                    let* z2 := if z_is_one then Ok z else sqr z in
                    let* d := x - z2 in let* d := o_muli O 3 d in let* s := x + z2 in d * s
                  else
                    let* z4 := if z_is_one then Ok z else let* z2 := sqr z in sqr z2 in
                    let* x2 := sqr x in let* t := o_muli O 3 x2 in let* az := o_mulk O (cv_a E) z4 in t + az in
        let* y2 := sqr y in
        let* s := o_muli O 4 x in let* s := s * y2 in
        let* m2 := sqr m in let* s2 := o_muli O 2 s in
        let* x3 := m2 - s2 in
        let* d := s - x3 in let* l := m * d in let* y4 := sqr y2 in let* y8 := o_muli O 8 y4 in
        let* y3 := l - y8 in
        let* z3 := o_muli O 2 y in let* z3 := z3 * z in
        Ok (Some (x3, y3, z3))
  end.
(** 1338-1367 [addex]; only the z coordinates of the points and, when they coincide, P itself are used *)
Definition jac_addex (P : pt3) (pz qz u1 u2 s1 s2 : T) : outcome pt3 :=
  let* h := u2 - u1 in
  let* r := s2 - s1 in
  if o_is_zero O h then
    if o_is_zero O r then jac_doubled P else Ok None
  else
    let* h2 := sqr h in
    let* h3 := h2 * h in
    let* v := u1 * h2 in
    let* r2 := sqr r in let* t := r2 - h3 in let* v2 := o_muli O 2 v in
    let* x3 := t - v2 in
    let* d := v - x3 in let* l := r * d in let* sh := s1 * h3 in
    let* y3 := l - sh in
    let* z3 := if negb (o_is_one O pz) then h * pz else Ok h in
    let* z3 := if negb (o_is_one O qz) then z3 * qz else Ok z3 in
    Ok (Some (x3, y3, z3)).
(** 1371-1393 [add_z_1], [add_z2_1], [add_ne] *)
Definition jac_add_z_1 (P Q : T * T * T) : outcome pt3 :=
  let '(px, py, pz) := P in let '(qx, qy, qz) := Q in
  jac_addex (Some P) pz qz px qx py qy.
Definition jac_add_z2_1 (P Q : T * T * T) : outcome pt3 :=
  let '(px, py, pz) := P in let '(qx, qy, qz) := Q in
  let* pz2 := sqr pz in
  let* u2 := qx * pz2 in
  let* s2 := qy * pz2 in let* s2 := s2 * pz in
  jac_addex (Some P) pz qz px u2 py s2.
Definition jac_add_ne (P Q : T * T * T) : outcome pt3 :=
  let '(px, py, pz) := P in let '(qx, qy, qz) := Q in
  let* pz2 := sqr pz in
  let* qz2 := sqr qz in
  let* u1 := px * qz2 in
  let* u2 := qx * pz2 in
  let* s1 := py * qz2 in let* s1 := s1 * qz in
  let* s2 := qy * pz2 in let* s2 := s2 * pz in
  jac_addex (Some P) pz qz u1 u2 s1 s2.
(** 1143-1169 *)
Definition jac_add (P Q : pt3) : outcome pt3 :=
  if is_identity3 P then Ok Q
  else if is_identity3 Q then Ok P
  else match P, Q with
  | Some p, Some q =>
      let z1_is_one := o_is_one O (snd p) in
      let z2_is_one := o_is_one O (snd q) in
      if z1_is_one && z2_is_one then jac_add_z_1 p q
      else if z1_is_one then jac_add_z2_1 q p
      else if z2_is_one then jac_add_z2_1 p q
      else jac_add_ne p q
  | _, _ => Abort
  end.
(** 1221-1224 *)
Definition jac_sub (P A : pt3) : outcome pt3 := let* N := inverted3 A in jac_add P N.
(** 1281-1297, for two different objects *)
Definition jac_eqb (P Q : pt3) : outcome bool :=
  if is_identity3 P || is_identity3 Q then Ok (is_identity3 P && is_identity3 Q)
  else match P, Q with
  | Some (ax, ay, az), Some (bx, by_, bz) =>
      let* az2 := sqr az in
      let* bz2 := sqr bz in
      let* l := ax * bz2 in let* r := bx * az2 in
      if o_eqb O l r then
        let* l := ay * bz2 in let* l := l * bz in let* r := by_ * az2 in let* r := r * az in Ok (o_eqb O l r)
      else Ok false
  | _, _ => Abort
  end.

(** * Scalar multiplication *)
(** 548-554, 896-902: double-and-add from the least significant bit; state (s, r, tmp) *)
Definition ladder_step {P : Type} (add : P -> P -> outcome P) (dbl : P -> outcome P)
    (st : bigint * P * P) : loopres (bigint * P * P) (outcome P) :=
  let '(s, r, tmp) := st in
  if compares1 s 0 =? 0 then Done (Ok r)
  else
    match (let* r := if is_odd s then add r tmp else Ok r in let* tmp := dbl tmp in Ok (r, tmp)) with
    | Ok (r, tmp) => Next (shr s s 1, r, tmp)
    | Abort => Done Abort | UB => Done UB | NoFuel => Done NoFuel
    end.
(** 531-556, 879-904, 1233-1268: the case analysis shared by the three [mul]; [loop] is the part after it.
    Line 542 (890, 1244) calls [mul] again with the opposite scalar, which is then positive. *)
Definition mul_cases {P : Type} (identity : P) (is_id : P -> bool) (inv : P -> outcome P)
    (loop : P -> bigint -> outcome P) (p : P) (s : bigint) : outcome P :=
  if is_one s || is_id p then Ok p
  else if is_zero s then Ok identity
  else if compares1 s 0 <? 0 then
    let* n := inv p in
    let s := op_neg s in
    if is_one s || is_id n then Ok n
    else if is_zero s then Ok identity
    else loop n s
  else loop p s.
(** 531-556 *)
Definition aff_loop (p : aff) (s : bigint) : outcome aff :=
  run_loop (32 * size s + 1) (ladder_step aff_add aff_doubled) (s, None, p).
Definition aff_mul (p : aff) (s : bigint) : outcome aff := mul_cases None aff_is_identity aff_inverted aff_loop p s.
(** 879-904 *)
Definition proj_loop (p : pt3) (s : bigint) : outcome pt3 :=
  run_loop (32 * size s + 1) (ladder_step proj_add proj_doubled) (s, None, p).
Definition proj_mul (p : pt3) (s : bigint) : outcome pt3 := mul_cases None is_identity3 inverted3 proj_loop p s.
(** 1258-1266: one digit of the signed-digit expansion *)
Fixpoint naf_loop {P : Type} (add : P -> P -> outcome P) (dbl : P -> outcome P) (p pneg : P) (l : list Z) (r : P) : outcome P :=
  match l with
  | [] => Ok r
  | d :: l =>
      let* r := dbl r in
      let* r := if 0 <? d then add r p else if d <? 0 then add r pneg else Ok r in
      naf_loop add dbl p pneg l r
  end.
(** 1255-1267; the accumulator starts as (0, 0, 1), which is not the identity, and is doubled first *)
Definition jac_loop (c : cap) (p : pt3) (s : bigint) : outcome pt3 :=
  let* pneg := inverted3 p in
  let* l := to_rnaf c s in
  naf_loop jac_add jac_doubled p pneg l (Some (o_lit O 0, o_lit O 0, o_lit O 1)).
Definition jac_mul (c : cap) (p : pt3) (s : bigint) : outcome pt3 := mul_cases None is_identity3 inverted3 (jac_loop c) p s.

(** 425-440, 745-760, 1105-1120 [is_valid] *)
Definition is_valid_with {P : Type} (is_id : P -> bool) (on : P -> outcome bool) (mul : P -> bigint -> outcome P)
    (n : bigint) (p : P) : outcome bool :=
  if is_id p then Ok false
  else
    let* b := on p in
    if negb b then Ok false
    else let* q := mul p n in Ok (is_id q).
Definition aff_is_valid := is_valid_with aff_is_identity aff_is_on_curve aff_mul.
Definition proj_is_valid := is_valid_with is_identity3 proj_is_on_curve proj_mul.
Definition jac_is_valid (c : cap) := is_valid_with is_identity3 jac_is_on_curve (jac_mul c).

(** 1962-2019 [ec_mul_add_fast] for any of the point classes *)
Definition pad_front (l : list Z) (n : nat) : list Z := repeat 0%Z (n - length l) ++ l.
Fixpoint shamir_loop {P : Type} (add : P -> P -> outcome P) (dbl : P -> outcome P)
    (p q pneg qneg pnegqneg pqneg pqneg_inv pnegqneg_inv : P) (la lb : list Z) (r : P) : outcome P :=
  match la, lb with
  | a :: la, b :: lb =>
      let* r := dbl r in
      let* r :=
        if a =? 0 then
          if b =? 0 then Ok r else if b <? 0 then add r qneg else add r q
        else if a <? 0 then
          if b =? 0 then add r pneg else if b <? 0 then add r pnegqneg else add r pqneg_inv
        else
          if b =? 0 then add r p else if b <? 0 then add r pqneg else add r pnegqneg_inv in
      shamir_loop add dbl p q pneg qneg pnegqneg pqneg pqneg_inv pnegqneg_inv la lb r
  | _, _ => Ok r
  end.
Definition mul_add_fast {P : Type} (identity : P) (inv : P -> outcome P) (add : P -> P -> outcome P) (dbl : P -> outcome P)
    (c : cap) (a : bigint) (p : P) (b : bigint) (q : P) : outcome P :=
  let* la := to_rnaf c a in
  let* lb := to_rnaf c b in
  let n := Nat.max (length la) (length lb) in
  let* pneg := inv p in
  let* qneg := inv q in
  let* pnegqneg := add pneg qneg in
  let* pqneg := add p qneg in
  let* pqneg_inv := inv pqneg in
  let* pnegqneg_inv := inv pnegqneg in
  shamir_loop add dbl p q pneg qneg pnegqneg pqneg pqneg_inv pnegqneg_inv (pad_front la n) (pad_front lb n) identity.
Definition aff_mul_add := mul_add_fast None aff_inverted aff_add aff_doubled.
Definition proj_mul_add := mul_add_fast None inverted3 proj_add proj_doubled.
Definition jac_mul_add := mul_add_fast None inverted3 jac_add jac_doubled.
End EC.
