(** Model of the pointers held by points in homogeneous and Jacobian coordinates and of ECDSA on objects:
    EcModel.v and EcdsaModel.v again with [*pm_] and [curve()] read from the memory of PointerModel.v.
    Forming the reference [curve()] to pass it on does not read the curve. *)
From Coq Require Import List ZArith Bool.
From Verif Require Import Outcome LoopModel WordsModel BigintModel NumModel FpModel EcModel EcCurveModel EcdsaModel PointerModel.
Import ListNotations.
Open Scope Z_scope.

(** ec.hpp:339, 621-623, 976-978: the members of a point with three coordinates *)
Record tobj := mkto { tc : option nat; tx : fobj; ty : fobj; tz : fobj }.

Section OPS.
Variable c : cap.
Variable h : heap.
(** integer * element (fp.hpp:1010-1030); element - integer *)
Definition fo_mulk (a : bigint) (x : fobj) : outcome fobj := fo_mul_big c h x a.
Definition fo_sub_big (x : fobj) (y : bigint) : outcome fobj := with_p h x (fun p => Ok (fp_sub c (ov x) y p)).
Definition fo_eqb (x y : fobj) : bool := compare (ov x) (ov y) =? 0.
Definition fo_eq0 (x : fobj) : bool := compares1 (ov x) 0 =? 0.
Definition fo_is_one (x : fobj) : bool := is_one (ov x).

(** ** what the two classes share *)
(** ec.hpp:628-633, 983-988: the default-constructed point; its coordinates have no modulus *)
Definition to_default : tobj := mkto None (mkfo (zero c) None) (mkfo (of_int c 1) None) (mkfo (zero c) None).
(** ec.hpp:38-42 [curve] *)
Definition tcurve (P : tobj) : outcome cobj :=
  match tc P with None => Abort | Some i => match at_addr (h_curves h) i with None => UB | Some k => Ok k end end.
(** 713-716, 1070-1073 *)
Definition to_is_identity (P : tobj) : outcome bool :=
  match tc P with None => Ok true | Some _ => fo_is_zero h (tz P) end.
(** 646-655, 1001-1010: the constructors from an affine point; z refers to the member p of the curve *)
Definition to_of_affine (P : pobj) : outcome tobj :=
  let* b := po_is_identity h P in
  if b then Ok to_default
  else match oc P with
  | None => Abort
  | Some i => Ok (mkto (Some i) (ox P) (oy P) (mkfo (of_int c 1) (Some (PCurve i))))
  end.
(** [make_point(x, y, z)]: 949-952, 1321-1324 *)
Definition same_tcurve (P : tobj) (x y z : fobj) : outcome tobj :=
  let* _ := check (match tc P with None => false | Some _ => true end) in Ok (mkto (tc P) x y z).
(** ec.hpp:594-598: the constructor of an affine point from [curve()] (38-42) *)
Definition to_affine_curve (P : tobj) (x y : fobj) : outcome pobj :=
  let* _ := check (match tc P with None => false | Some _ => true end) in Ok (mkpo (tc P) x y).
(** 768-774, 1128-1134 *)
Definition to_inverted (P : tobj) : outcome tobj :=
  let* b := to_is_identity P in
  if b then Ok P else let* y := fo_neg c h (ty P) in same_tcurve P (tx P) y (tz P).
(** 531-556, 879-904, 1233-1268: the case analysis of [mul] *)
Definition to_mul_cases (loop : tobj -> bigint -> outcome tobj) (P : tobj) (s : bigint) : outcome tobj :=
  let* b := if is_one s then Ok true else to_is_identity P in
  if b then Ok P
  else if is_zero s then Ok to_default
  else if compares1 s 0 <? 0 then
    let* N := to_inverted P in
    let s := op_neg s in
    let* b := if is_one s then Ok true else to_is_identity N in
    if b then Ok N
    else if is_zero s then Ok to_default
    else loop N s
  else loop P s.
(** 745-760, 1105-1120 [is_valid] *)
Definition to_is_valid (on : tobj -> outcome bool) (mul : tobj -> bigint -> outcome tobj) (P : tobj) : outcome bool :=
  let* b := to_is_identity P in
  if b then Ok false
  else
    let* o := on P in
    if negb o then Ok false
    else let* k := tcurve P in let* R := mul P (k_n k) in to_is_identity R.

(** ** homogeneous coordinates *)
(** 664-673; [z = 1] keeps the pointer of z *)
Definition ho_normalize (P : tobj) : outcome tobj :=
  let* b := to_is_identity P in
  if negb b && negb (fo_is_one (tz P)) then
    let* zi := fo_inv c h (tz P) in
    let* x := fo_mul c h (tx P) zi in let* y := fo_mul c h (ty P) zi in
    let* z := fo_assign h (tz P) (of_int c 1) false in
    Ok (mkto (tc P) x y z)
  else Ok P.
(** 694-707 *)
Definition ho_to_affine (P : tobj) : outcome pobj :=
  let* b := to_is_identity P in
  if b then Ok (po_default c)
  else if fo_is_one (tz P) then to_affine_curve P (tx P) (ty P)
  else
    let* zi := fo_inv c h (tz P) in
    let* x := fo_mul c h (tx P) zi in let* y := fo_mul c h (ty P) zi in
    to_affine_curve P x y.
(** 724-731 *)
Definition ho_is_on_curve (P : tobj) : outcome bool :=
  let* b := to_is_identity P in
  if b then Ok true
  else
    let* z2 := fo_sqr c h (tz P) in
    let* y2 := fo_sqr c h (ty P) in let* l := fo_mul c h y2 (tz P) in
    let* k := tcurve P in
    let* x2 := fo_sqr c h (tx P) in let* az := fo_mulk (k_a k) z2 in let* t := fo_add c h x2 az in let* t := fo_mul c h t (tx P) in
    let* bz := fo_mulk (k_b k) (tz P) in let* bz := fo_mul c h bz z2 in
    let* r := fo_add c h t bz in
    let* d := fo_sub c h l r in
    Ok (fo_eq0 d).
(** 828-858 *)
Definition ho_doubled (P : tobj) : outcome tobj :=
  let* b := to_is_identity P in
  if b || fo_eq0 (ty P) then Ok to_default
  else
    let* x2 := fo_sqr c h (tx P) in
    let* k := tcurve P in
    let* t := if k_z k then fo_mul_int c h 3 x2
              else if k_m3 k then let* z2 := fo_sqr c h (tz P) in let* d := fo_sub c h x2 z2 in fo_mul_int c h 3 d
              else let* t := fo_mul_int c h 3 x2 in let* z2 := fo_sqr c h (tz P) in let* az := fo_mulk (k_a k) z2 in fo_add c h t az in
    let* dy := fo_mul_int c h 2 (ty P) in
    let* u := fo_mul c h dy (tz P) in
    let* v := fo_mul c h u (tx P) in let* v := fo_mul c h v dy in
    let* t2 := fo_sqr c h t in let* v2 := fo_mul_int c h 2 v in
    let* w := fo_sub c h t2 v2 in
    let* rx := fo_mul c h u w in
    let* u2 := fo_sqr c h u in
    let* vw := fo_sub c h v w in let* l := fo_mul c h t vw in
    let* y2 := fo_sqr c h (ty P) in let* r := fo_mul c h u2 y2 in let* r := fo_mul_int c h 2 r in
    let* ry := fo_sub c h l r in
    let* rz := fo_mul c h u2 u in
    same_tcurve P rx ry rz.
(** 783-820 *)
Definition ho_add (P Q : tobj) : outcome tobj :=
  let* b := to_is_identity P in
  if b then Ok Q
  else
    let* b := to_is_identity Q in
    if b then Ok P
    else
      let* t0 := fo_mul c h (ty P) (tz Q) in
      let* t1 := fo_mul c h (ty Q) (tz P) in
      let* u0 := fo_mul c h (tx P) (tz Q) in
      let* u1 := fo_mul c h (tx Q) (tz P) in
      if fo_eqb u0 u1 then
        if fo_eqb t0 t1 then ho_doubled P else Ok to_default
      else
        let* t := fo_sub c h t0 t1 in
        let* u := fo_sub c h u0 u1 in
        let* u2 := fo_sqr c h u in
        let* u3 := fo_mul c h u u2 in
        let* v := fo_mul c h (tz P) (tz Q) in
        let* t2 := fo_sqr c h t in let* l := fo_mul c h t2 v in let* s := fo_add c h u0 u1 in let* r := fo_mul c h u2 s in
        let* w := fo_sub c h l r in
        let* rx := fo_mul c h u w in
        let* a := fo_mul c h u0 u2 in let* a := fo_sub c h a w in let* a := fo_mul c h t a in let* b := fo_mul c h t0 u3 in
        let* ry := fo_sub c h a b in
        let* rz := fo_mul c h u3 v in
        same_tcurve P rx ry rz.
(** 867-870 *)
Definition ho_sub (P A : tobj) : outcome tobj := let* N := to_inverted A in ho_add P N.
(** 917-925; the addresses are compared first *)
Definition ho_eqb (P Q : tobj) : outcome bool :=
  let* bp := to_is_identity P in
  let* b := if bp then Ok true else to_is_identity Q in
  if b then (if bp then to_is_identity Q else Ok false)
  else if same_address (tc P) (tc Q) then
    let* l := fo_mul c h (tx P) (tz Q) in let* r := fo_mul c h (tx Q) (tz P) in
    if fo_eqb l r then
      let* l := fo_mul c h (ty P) (tz Q) in let* r := fo_mul c h (ty Q) (tz P) in Ok (fo_eqb l r)
    else Ok false
  else Ok false.
(** 879-904 *)
Definition ho_loop (P : tobj) (s : bigint) : outcome tobj :=
  run_loop (32 * size s + 1) (ladder_step ho_add ho_doubled) (s, to_default, P).
Definition ho_mul : tobj -> bigint -> outcome tobj := to_mul_cases ho_loop.
Definition ho_is_valid : tobj -> outcome bool := to_is_valid ho_is_on_curve ho_mul.

(** ** Jacobian coordinates *)
(** 1019-1029 *)
Definition jo_normalize (P : tobj) : outcome tobj :=
  let* b := to_is_identity P in
  if negb b && negb (fo_is_one (tz P)) then
    let* zi := fo_inv c h (tz P) in
    let* zi2 := fo_mul c h zi zi in
    let* x := fo_mul c h (tx P) zi2 in
    let* zi3 := fo_mul c h zi2 zi in let* y := fo_mul c h (ty P) zi3 in
    let* z := fo_assign h (tz P) (of_int c 1) false in
    Ok (mkto (tc P) x y z)
  else Ok P.
(** 1050-1064 *)
Definition jo_to_affine (P : tobj) : outcome pobj :=
  let* b := to_is_identity P in
  if b then Ok (po_default c)
  else if fo_is_one (tz P) then to_affine_curve P (tx P) (ty P)
  else
    let* zi := fo_inv c h (tz P) in
    let* zi2 := fo_sqr c h zi in
    let* x := fo_mul c h (tx P) zi2 in
    let* y := fo_mul c h (ty P) zi2 in let* y := fo_mul c h y zi in
    to_affine_curve P x y.
(** 1082-1091 *)
Definition jo_is_on_curve (P : tobj) : outcome bool :=
  let* b := to_is_identity P in
  if b then Ok true
  else
    let* z2 := fo_sqr c h (tz P) in
    let* z4 := fo_sqr c h z2 in
    let* z6 := fo_mul c h z2 z4 in
    let* y2 := fo_sqr c h (ty P) in
    let* k := tcurve P in
    let* x2 := fo_sqr c h (tx P) in let* az := fo_mulk (k_a k) z4 in let* t := fo_add c h x2 az in let* t := fo_mul c h t (tx P) in
    let* bz := fo_mulk (k_b k) z6 in
    let* r := fo_add c h t bz in
    Ok (fo_eqb y2 r).
(** 1177-1212 *)
Definition jo_doubled (P : tobj) : outcome tobj :=
  let* b := to_is_identity P in
  if b then Ok P
  else if fo_eq0 (ty P) then Ok to_default
  else
    let* k := tcurve P in
    let* m := if k_z k then let* x2 := fo_sqr c h (tx P) in fo_mul_int c h 3 x2
              else if k_m3 k then
                let* z2 := if fo_is_one (tz P) then Ok (tz P) else fo_sqr c h (tz P) in
                let* d := fo_sub c h (tx P) z2 in let* d := fo_mul_int c h 3 d in let* s := fo_add c h (tx P) z2 in fo_mul c h d s
              else
                let* z4 := if fo_is_one (tz P) then Ok (tz P) else let* z2 := fo_sqr c h (tz P) in fo_sqr c h z2 in
                let* x2 := fo_sqr c h (tx P) in let* t := fo_mul_int c h 3 x2 in let* az := fo_mulk (k_a k) z4 in fo_add c h t az in
    let* y2 := fo_sqr c h (ty P) in
    let* s := fo_mul_int c h 4 (tx P) in let* s := fo_mul c h s y2 in
    let* m2 := fo_sqr c h m in let* s2 := fo_mul_int c h 2 s in
    let* x3 := fo_sub c h m2 s2 in
    let* d := fo_sub c h s x3 in let* l := fo_mul c h m d in let* y4 := fo_sqr c h y2 in let* y8 := fo_mul_int c h 8 y4 in
    let* y3 := fo_sub c h l y8 in
    let* z3 := fo_mul_int c h 2 (ty P) in let* z3 := fo_mul c h z3 (tz P) in
    same_tcurve P x3 y3 z3.
(** 1338-1367 [addex]: the result refers to the curve of its first argument *)
Definition jo_addex (P Q : tobj) (u1 u2 s1 s2 : fobj) : outcome tobj :=
  let* d := fo_sub c h u2 u1 in
  let* r := fo_sub c h s2 s1 in
  let* b := fo_is_zero h d in
  if b then
    let* b := fo_is_zero h r in
    if b then jo_doubled P else Ok to_default
  else
    let* d2 := fo_sqr c h d in
    let* d3 := fo_mul c h d2 d in
    let* v := fo_mul c h u1 d2 in
    let* r2 := fo_sqr c h r in let* t := fo_sub c h r2 d3 in let* v2 := fo_mul_int c h 2 v in
    let* x3 := fo_sub c h t v2 in
    let* e := fo_sub c h v x3 in let* l := fo_mul c h r e in let* sh := fo_mul c h s1 d3 in
    let* y3 := fo_sub c h l sh in
    let* z3 := if negb (fo_is_one (tz P)) then fo_mul c h d (tz P) else Ok d in
    let* z3 := if negb (fo_is_one (tz Q)) then fo_mul c h z3 (tz Q) else Ok z3 in
    same_tcurve P x3 y3 z3.
(** 1371-1393 *)
Definition jo_add_z_1 (P Q : tobj) : outcome tobj := jo_addex P Q (tx P) (tx Q) (ty P) (ty Q).
Definition jo_add_z2_1 (P Q : tobj) : outcome tobj :=
  let* pz2 := fo_sqr c h (tz P) in
  let* u2 := fo_mul c h (tx Q) pz2 in
  let* s2 := fo_mul c h (ty Q) pz2 in let* s2 := fo_mul c h s2 (tz P) in
  jo_addex P Q (tx P) u2 (ty P) s2.
Definition jo_add_ne (P Q : tobj) : outcome tobj :=
  let* pz2 := fo_sqr c h (tz P) in
  let* qz2 := fo_sqr c h (tz Q) in
  let* u1 := fo_mul c h (tx P) qz2 in
  let* u2 := fo_mul c h (tx Q) pz2 in
  let* s1 := fo_mul c h (ty P) qz2 in let* s1 := fo_mul c h s1 (tz Q) in
  let* s2 := fo_mul c h (ty Q) pz2 in let* s2 := fo_mul c h s2 (tz P) in
  jo_addex P Q u1 u2 s1 s2.
(** 1143-1169; line 1164 swaps the arguments *)
Definition jo_add (P Q : tobj) : outcome tobj :=
  let* b := to_is_identity P in
  if b then Ok Q
  else
    let* b := to_is_identity Q in
    if b then Ok P
    else if fo_is_one (tz P) && fo_is_one (tz Q) then jo_add_z_1 P Q
    else if fo_is_one (tz P) then jo_add_z2_1 Q P
    else if fo_is_one (tz Q) then jo_add_z2_1 P Q
    else jo_add_ne P Q.
(** 1221-1224 *)
Definition jo_sub (P A : tobj) : outcome tobj := let* N := to_inverted A in jo_add P N.
(** 1281-1297, for two different objects *)
Definition jo_eqb (P Q : tobj) : outcome bool :=
  let* bp := to_is_identity P in
  let* b := if bp then Ok true else to_is_identity Q in
  if b then (if bp then to_is_identity Q else Ok false)
  else
    let* az2 := fo_sqr c h (tz P) in
    let* bz2 := fo_sqr c h (tz Q) in
    if same_address (tc P) (tc Q) then
      let* l := fo_mul c h (tx P) bz2 in let* r := fo_mul c h (tx Q) az2 in
      if fo_eqb l r then
        let* l := fo_mul c h (ty P) bz2 in let* l := fo_mul c h l (tz Q) in
        let* r := fo_mul c h (ty Q) az2 in let* r := fo_mul c h r (tz P) in Ok (fo_eqb l r)
      else Ok false
    else Ok false.
(** 1255-1267; [make_point(0, 0, 1)] (1326-1334) makes elements of the member p of the curve *)
Definition jo_loop (P : tobj) (s : bigint) : outcome tobj :=
  let* N := to_inverted P in
  let* l := to_rnaf c s in
  match tc P with
  | None => Abort
  | Some i =>
      let lit := fun k => mkfo (of_int c k) (Some (PCurve i)) in
      naf_loop jo_add jo_doubled P N l (mkto (Some i) (lit 0) (lit 0) (lit 1))
  end.
Definition jo_mul : tobj -> bigint -> outcome tobj := to_mul_cases jo_loop.
Definition jo_is_valid : tobj -> outcome bool := to_is_valid jo_is_on_curve jo_mul.
(** 1962-2019 *)
Definition ho_mul_add : bigint -> tobj -> bigint -> tobj -> outcome tobj := mul_add_fast to_default to_inverted ho_add ho_doubled c.
Definition jo_mul_add : bigint -> tobj -> bigint -> tobj -> outcome tobj := mul_add_fast to_default to_inverted jo_add jo_doubled c.

(** 1562-1571 [generate_point] for the two classes, by the curve object at address [i] *)
Definition to_generate (mul : tobj -> bigint -> outcome tobj) (i : nat) (x : bigint) : outcome tobj :=
  match at_addr (h_curves h) i with
  | None => UB
  | Some k =>
      let* _ := check ((compares1 x 0 >? 0) && (compare x (k_n k) <? 0)) in
      let* G := to_of_affine (k_g k) in mul G x
  end.
Definition ho_generate : nat -> bigint -> outcome tobj := to_generate ho_mul.
Definition jo_generate : nat -> bigint -> outcome tobj := to_generate jo_mul.

(** ** ecdsa.hpp *)
(** 25-57; the curve is the one the key refers to *)
Definition po_ecdsa_verify (q : pobj) (msg : list Z) (r s : bigint) : outcome bool :=
  let* b := po_is_identity h q in
  if b then Ok false
  else
    let* k := curve_of h q in let n := k_n k in
    if out_of_range n r s then Ok false
    else
      let* e := digest_int c n msg in
      let* w := op_modinv c s n in
      let* u1 := op_mod c (op_mul c e w) n in
      let* u2 := op_mod c (op_mul c r w) n in
      let* G := to_of_affine (k_g k) in
      let* Q := to_of_affine q in
      let* R := jo_mul_add u1 G u2 Q in
      let* R := jo_to_affine R in
      let* b := po_is_identity h R in
      if b then Ok false
      else
        let* x := if negb (compare (ov (ox R)) n <? 0) then fo_sub_big (ox R) n else Ok (ox R) in
        Ok (compare (ov x) r =? 0).
(** ec.hpp:1698-1705, 1728-1736, 1747-1751: decompression by the curve object at address [i] *)
Definition po_decompress (i : nat) (x : bigint) (yodd : bool) : outcome pobj :=
  match at_addr (h_curves h) i with
  | None => UB
  | Some k =>
      let x := mkfo x (Some (PCurve i)) in
      let* t := fo_sqr c h x in
      let* t := fo_add_big c h t (k_a k) in
      let* t := fo_mul c h t x in
      let* t := fo_add_big c h t (k_b k) in
      let* y := fo_sqrt c h t in
      let* y := if negb (Bool.eqb yodd (test_bit (ov y) 0)) then fo_neg c h y else Ok y in
      let* b := fo_is_zero h y in
      if b then Ok (po_default c) else Ok (mkpo (Some i) x y)
  end.
(** 139-188 *)
Definition po_ecdsa_recover (i : nat) (msg : list Z) (r s : bigint) (recid : Z) (verify : bool) : outcome pobj :=
  match at_addr (h_curves h) i with
  | None => UB
  | Some k =>
      let n := k_n k in
      if out_of_range n r s || negb (Z.land recid 3 =? recid) then Ok (po_default c)
      else
        let yodd := negb (Z.land recid 1 =? 0) in
        let second_key := negb (Z.shiftr recid 1 =? 0) in
        if second_key && negb (compare r (k_pmn k) <? 0) then Ok (po_default c)
        else
          let* e := digest_int c n msg in
          let* R := if second_key then po_decompress i (op_add c r n) yodd else po_decompress i r yodd in
          let* b := po_is_identity h R in
          if b then Ok R
          else
            let* ok := if verify then let* nR := po_mul c h R n in po_is_identity h nR else Ok true in
            if negb ok then Ok (po_default c)
            else
              let* w := op_modinv c r n in
              let* ew := op_mod c (op_mul c (op_sub c n e) w) n in
              let* sw := op_mod c (op_mul c s w) n in
              let* G := to_of_affine (k_g k) in
              let* Rj := to_of_affine R in
              let* Q := jo_mul_add ew G sw Rj in
              jo_to_affine Q
  end.
End OPS.
