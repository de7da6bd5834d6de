(** Model of fp.hpp, fe.hpp, ec.hpp and ecdsa.hpp in a build with assertions enabled (NDEBUG not defined).
    These files contain no assertion of their own; every operation on big integers is the asserting one of
    AssertModel.v, so a failed assertion is [Abort].  The control flow is that of FpModel.v, EcModel.v,
    EcCurveModel.v and EcdsaModel.v; the point formulas of EcModel.v are reused with the field operations
    below.  Simplifications: comparisons with literals and objects made from the literals 0 to 3 are those
    of the release model, as they pass their assertions (line 1582 of bigint.hpp, a buffer of one word);
    reading bytes, comparing and negating contain no assertion that depends on the operands. *)
From Coq Require Import List ZArith Bool.
From Verif Require Import Outcome LoopModel WordsModel BigintModel NumModel FpModel EcModel EcCurveModel EcdsaModel AssertModel.
Import ListNotations.
Open Scope Z_scope.

(** bigint.hpp:1126-1129: the constructor from an int *)
Definition d_of_int (c : cap) (x : Z) : outcome bigint := d_assign_int c (fresh c) x.
(** bigint.hpp:2567: the operator % *)
Definition d_op_mod (c : cap) (a b : bigint) : outcome bigint := let* r := d_mod_r c (zero c) a b in Ok (snd r).
(** bigint.hpp:2165-2171, 2299-2305: [modexp] and [modinv] with a result object; failure of either is a failed check *)
Definition d_op_modexp (c : cap) (x y m : bigint) : outcome bigint :=
  let* o := d_modexp c (zero c) x y m in match o with Some z => Ok z | None => Abort end.
Definition d_op_modinv (c : cap) (x m : bigint) : outcome bigint :=
  let* o := d_modinv c (zero c) x m in match o with Some z => Ok z | None => Abort end.
(** bigint.hpp:1485-1490 [to_rnaf] *)
Definition d_to_rnaf (c : cap) (x : bigint) : outcome (list Z) := let* n := d_to_naf c x in Ok (rev n).

(** fp.hpp:21-28 *)
Definition d_fp_neg (c : cap) (a p : bigint) : outcome bigint := if compares1 a 0 =? 0 then Ok a else d_op_sub c p a.
(** fp.hpp:64-82 *)
Definition d_fp_add_tail (c : cap) (res p : bigint) : outcome bigint := if compare res p >=? 0 then d_sub c res res p else Ok res.
Definition d_fp_add (c : cap) (a b p : bigint) : outcome bigint := let* r := d_op_add c a b in d_fp_add_tail c r p.
Definition d_fp_sub_tail (c : cap) (res p : bigint) : outcome bigint := if compares1 res 0 <? 0 then d_add c res res p else Ok res.
Definition d_fp_sub (c : cap) (a b p : bigint) : outcome bigint := let* r := d_op_sub c a b in d_fp_sub_tail c r p.
(** fp.hpp:84-94, 388-391 *)
Definition d_fp_mul (c : cap) (a b p : bigint) : outcome bigint := let* r := d_op_mul c a b in d_op_mod c r p.
Definition d_fp_mul_int (c : cap) (a : bigint) (b : Z) (p : bigint) : outcome bigint :=
  let* r := d_muls1 c (zero c) a b in d_op_mod c r p.
Definition d_fp_sqr (c : cap) (a p : bigint) : outcome bigint := d_fp_mul c a a p.
Definition d_fp_div (c : cap) (a b p : bigint) : outcome bigint := let* i := d_op_modinv c b p in d_fp_mul c a i p.

(** fp.hpp:96-157 [fp_sqrt] with its loops, as in FpModel.v *)
Definition d_sqr_mod (c : cap) (x p : bigint) : outcome bigint :=
  let* r := d_sqr c false (zero c) x in d_op_mod c (snd r) p.
(** fp.hpp:121-124 *)
Definition d_find_z_step (c : cap) (p : bigint) (z : bigint) : loopres bigint (outcome bigint) :=
  step_of (
    let* j := d_jacobi c z p in
    if j =? -1 then Ok (Done (Ok z)) else let* z := d_adds1 c true z z 1 in Ok (Next z)).
(** fp.hpp:133-143 *)
Fixpoint d_find_m (c : cap) (p : bigint) (k : nat) (m : nat) (z : bigint) : outcome (option nat) :=
  match k with
  | O => NoFuel
  | S k' =>
      let* z := d_sqr_mod c z p in
      match k' with
      | O => Ok None
      | S _ => if compares1 z 1 =? 0 then Ok (Some (S m)) else d_find_m c p k' (S m) z
      end
  end.
(** fp.hpp:145-148 *)
Fixpoint d_sqr_times (c : cap) (p : bigint) (k : nat) (b : bigint) : outcome bigint :=
  match k with
  | O => Ok b
  | S k => let* b := d_sqr_mod c b p in d_sqr_times c p k b
  end.
(** fp.hpp:130-154 *)
Fixpoint d_tonelli (fuel : nat) (c : cap) (p cc r t : bigint) (s : nat) : outcome bigint :=
  if compares1 t 1 =? 0 then Ok r
  else
    match fuel with
    | O => NoFuel
    | S fuel =>
        let* om := d_find_m c p s 0 t in
        match om with
        | None => Ok (of_int c 0)
        | Some m =>
            let* b := d_sqr_times c p (s - m - 1) cc in
            let* cc := d_sqr_mod c b p in
            let* r := d_fp_mul c r b p in
            let* t := d_fp_mul c t cc p in
            d_tonelli fuel c p cc r t m
        end
    end.
(** fp.hpp:96-157 *)
Definition d_fp_sqrt (c : cap) (n p : bigint) : outcome bigint :=
  let* j := d_jacobi c n p in
  if negb (j =? 1) then Ok (of_int c 0)
  else
    let* p4 := d_mods1 c (zero c) p 4 in
    if compares1 p4 3 =? 0 then
      let* p1 := d_adds1 c false (zero c) p 1 in
      let* e := d_divs1 c (zero c) p1 4 in
      d_op_modexp c n e p
    else
      let* q := d_subs1 c false (zero c) p 1 in
      let* qs := run_loop (32 * size q + 1) (d_ctz_step c) (q, 0) in
      let '(q, s) := qs in
      let* z := run_loop (32 * size p + 1) (d_find_z_step c p) (of_int c 2) in
      let* cc := d_op_modexp c z q p in
      let* q1 := d_subs1 c false (zero c) q 1 in
      let* e := d_divs1 c (zero c) q1 2 in
      let* r := d_op_modexp c n e p in
      let* r2 := d_sqr_mod c r p in
      let* t := d_fp_mul c r2 n p in
      let* r := d_fp_mul c n r p in
      d_tonelli (Z.to_nat s) c p cc r t (Z.to_nat s).

(** fp.hpp:448-1094: the methods of the field elements *)
Definition d_fe_add_big (c : cap) (x : fe) (y : bigint) : outcome fe := with_m x (fun p => d_fp_add c (fv x) y p).
Definition d_fe_add (c : cap) (x y : fe) : outcome fe := d_fe_add_big c x (fv y).
Definition d_fe_sub_big (c : cap) (x : fe) (y : bigint) : outcome fe := with_m x (fun p => d_fp_sub c (fv x) y p).
Definition d_fe_sub (c : cap) (x y : fe) : outcome fe := d_fe_sub_big c x (fv y).
Definition d_fe_mul_big (c : cap) (x : fe) (y : bigint) : outcome fe :=
  if is_one (fv x) then with_m x (fun _ => Ok y)
  else if is_one y then Ok x
  else with_m x (fun p => d_fp_mul c (fv x) y p).
Definition d_fe_mul (c : cap) (x y : fe) : outcome fe := d_fe_mul_big c x (fv y).
Definition d_fe_mul_int (c : cap) (x : fe) (y : Z) : outcome fe :=
  if is_one (fv x) then with_m x (fun _ => d_of_int c y)
  else if y =? 1 then Ok x
  else with_m x (fun p => d_fp_mul_int c (fv x) y p).
Definition d_fe_sqr (c : cap) (x : fe) : outcome fe := if is_one (fv x) then Ok x else with_m x (fun p => d_fp_sqr c (fv x) p).
Definition d_fe_sqrt (c : cap) (x : fe) : outcome fe := if is_one (fv x) then Ok x else with_m x (fun p => d_fp_sqrt c (fv x) p).
Definition d_fe_inv (c : cap) (x : fe) : outcome fe := with_m x (fun p => d_op_modinv c (fv x) p).
Definition d_fe_div_big (c : cap) (x : fe) (y : bigint) : outcome fe := if is_one y then Ok x else with_m x (fun p => d_fp_div c (fv x) y p).
Definition d_fe_div (c : cap) (x y : fe) : outcome fe := d_fe_div_big c x (fv y).
Definition d_fe_neg (c : cap) (x : fe) : outcome fe := with_m x (fun p => d_fp_neg c (fv x) p).

(** the operations of the point classes (fp.hpp:448-1095 [fp_element] with assertions; EcModel.v [fe_ops]) *)
Definition d_fe_ops (c : cap) (p : bigint) : fops :=
  mkfops fe bigint (d_fe_add c) (d_fe_sub c) (d_fe_mul c) (d_fe_div c) (d_fe_sqr c) (d_fe_neg c) (d_fe_inv c)
    (d_fe_add_big c) (fun k x => d_fe_mul_big c x k) (fun k x => d_fe_mul_int c x k)
    fe_is_zero fe_is_one (fun x => compares1 (fv x) 0 =? 0) fe_eqb
    (fun k => mkfe (of_int c k) (Some p)).

(** ec.hpp:531-556, 879-904: one pass of double-and-add; line 553 (901) shifts the scalar *)
Definition d_ladder_step (c : cap) {P : Type} (add : P -> P -> outcome P) (dbl : P -> outcome P)
    (st : bigint * P * P) : loopres (bigint * P * P) (outcome P) :=
  let '(s, r, tmp) := st in
  if compares1 s 0 =? 0 then Done (Ok r)
  else step_of (
    let* r := if is_odd s then add r tmp else Ok r in
    let* tmp := dbl tmp in
    let* s := d_shr c s s 1 in
    Ok (Next (s, r, tmp))).

Section EC.
Variable c : cap.
Variable p : bigint.
Notation O := (d_fe_ops c p).
Variable E : coeffs O.
(** ec.hpp:531-556 *)
Definition d_aff_loop (P : aff O) (s : bigint) : outcome (aff O) :=
  run_loop (32 * size s + 1) (d_ladder_step c (aff_add O E) (aff_doubled O E)) (s, None, P).
Definition d_aff_mul (P : aff O) (s : bigint) : outcome (aff O) := mul_cases None (aff_is_identity O) (aff_inverted O) d_aff_loop P s.
(** ec.hpp:879-904 *)
Definition d_proj_loop (P : pt3 O) (s : bigint) : outcome (pt3 O) :=
  run_loop (32 * size s + 1) (d_ladder_step c (proj_add O E) (proj_doubled O E)) (s, None, P).
Definition d_proj_mul (P : pt3 O) (s : bigint) : outcome (pt3 O) := mul_cases None (is_identity3 O) (inverted3 O) d_proj_loop P s.
(** ec.hpp:1233-1268 *)
Definition d_jac_loop (P : pt3 O) (s : bigint) : outcome (pt3 O) :=
  let* pneg := inverted3 O P in
  let* l := d_to_rnaf c s in
  naf_loop (jac_add O E) (jac_doubled O E) P pneg l (Some (o_lit O 0, o_lit O 0, o_lit O 1)).
Definition d_jac_mul (P : pt3 O) (s : bigint) : outcome (pt3 O) := mul_cases None (is_identity3 O) (inverted3 O) d_jac_loop P s.
(** ec.hpp:425-440, 745-760, 1105-1120 *)
Definition d_aff_is_valid := is_valid_with (aff_is_identity O) (aff_is_on_curve O E) d_aff_mul.
Definition d_proj_is_valid := is_valid_with (is_identity3 O) (proj_is_on_curve O E) d_proj_mul.
Definition d_jac_is_valid := is_valid_with (is_identity3 O) (jac_is_on_curve O E) d_jac_mul.
(** ec.hpp:1962-2019 [ec_mul_add_fast] *)
Definition d_mul_add_fast {P : Type} (identity : P) (inv : P -> outcome P) (add : P -> P -> outcome P) (dbl : P -> outcome P)
    (a : bigint) (u : P) (b : bigint) (v : P) : outcome P :=
  let* la := d_to_rnaf c a in
  let* lb := d_to_rnaf c b in
  let n := Nat.max (length la) (length lb) in
  let* uneg := inv u in
  let* vneg := inv v in
  let* unegvneg := add uneg vneg in
  let* uvneg := add u vneg in
  let* uvneg_inv := inv uvneg in
  let* unegvneg_inv := inv unegvneg in
  shamir_loop add dbl u v uneg vneg unegvneg uvneg uvneg_inv unegvneg_inv (pad_front la n) (pad_front lb n) identity.
Definition d_aff_mul_add := d_mul_add_fast None (aff_inverted O) (aff_add O E) (aff_doubled O E).
Definition d_proj_mul_add := d_mul_add_fast None (inverted3 O) (proj_add O E) (proj_doubled O E).
Definition d_jac_mul_add := d_mul_add_fast None (inverted3 O) (jac_add O E) (jac_doubled O E).
End EC.

(** ec.hpp:1522-1552: the coefficients of a curve object *)
Definition d_cu_coeffs (c : cap) (C : curve) : coeffs (d_fe_ops c (cu_p C)) :=
  mkcoeffs (d_fe_ops c (cu_p C)) (cu_a C) (cu_b C) (cu_a_is_zero C) (cu_a_is_minus_3 C).
(** ec.hpp:1542-1552: the constructor *)
Definition d_curve_make (c : cap) (p a b gx gy n : bigint) (h : Z) : outcome curve :=
  let* _ := check (is_valid_integer p gx) in
  let* _ := check (is_valid_integer p gy) in
  let* x := make_field_element p gx true in
  let* y := make_field_element p gy true in
  let* p3 := d_subs1 c false (zero c) p 3 in
  let* pn := d_op_sub c p n in
  Ok (mkcurve p a b (Some (x, y)) n h (compare a p3 =? 0) (is_zero a) pn).
(** ec.hpp:1562-1571 *)
Definition d_generate_point (c : cap) (C : curve) (x : bigint) : outcome (option (fe * fe)) :=
  let* _ := check ((compares1 x 0 >? 0) && (compare x (cu_n C) <? 0)) in
  d_aff_mul c (cu_p C) (d_cu_coeffs c C) (cu_g C) x.
Definition d_generate_point_proj (c : cap) (C : curve) (x : bigint) : outcome (option (fe * fe * fe)) :=
  let* _ := check ((compares1 x 0 >? 0) && (compare x (cu_n C) <? 0)) in
  d_proj_mul c (cu_p C) (d_cu_coeffs c C) (of_affine (d_fe_ops c (cu_p C)) (cu_g C)) x.
Definition d_generate_point_jac (c : cap) (C : curve) (x : bigint) : outcome (option (fe * fe * fe)) :=
  let* _ := check ((compares1 x 0 >? 0) && (compare x (cu_n C) <? 0)) in
  d_jac_mul c (cu_p C) (d_cu_coeffs c C) (of_affine (d_fe_ops c (cu_p C)) (cu_g C)) x.
(** ec.hpp:1928-1941, 1678-1689 *)
Definition d_make_point_fe (c : cap) (C : curve) (x y : fe) (verify : bool) : outcome (option (fe * fe)) :=
  let P := Some (x, y) in
  let* _ := if verify then let* v := d_aff_is_valid c (cu_p C) (d_cu_coeffs c C) (cu_n C) P in check v else Ok tt in
  Ok P.
Definition d_make_point (c : cap) (C : curve) (x y : bigint) (verify : bool) : outcome (option (fe * fe)) :=
  let* _ := check (is_valid_integer (cu_p C) x) in
  let* _ := check (is_valid_integer (cu_p C) y) in
  let* x := make_field_element (cu_p C) x false in
  let* y := make_field_element (cu_p C) y false in
  d_make_point_fe c C x y verify.
(** ec.hpp:1698-1751 *)
Definition d_compute_y (c : cap) (C : curve) (x : fe) (odd : bool) : outcome fe :=
  let* t := d_fe_sqr c x in
  let* t := d_fe_add_big c t (cu_a C) in
  let* t := d_fe_mul c t x in
  let* t := d_fe_add_big c t (cu_b C) in
  let* y := d_fe_sqrt c t in
  if negb (Bool.eqb odd (test_bit (fv y) 0)) then d_fe_neg c y else Ok y.
Definition d_decompress_fe (c : cap) (C : curve) (x : fe) (yodd : bool) : outcome (option (fe * fe)) :=
  let* y := d_compute_y c C x yodd in
  if fe_is_zero y then Ok None else d_make_point_fe c C x y false.
Definition d_decompress_point (c : cap) (C : curve) (x : bigint) (yodd verify : bool) : outcome (option (fe * fe)) :=
  let* x := make_field_element (cu_p C) x verify in
  d_decompress_fe c C x yodd.
(** ec.hpp:1775-1839; the length of an encoded coordinate is computed from p - 1 (fp.hpp:535-541) *)
Definition d_fe_to_bytes (c : cap) (x : fe) : outcome (list Z) :=
  match fm x with
  | Some p => if fe_is_valid x then let* p1 := d_subs1 c false (zero c) p 1 in Ok (fe_to_bytes_len x (byte_length p1)) else Ok []
  | None => Ok []
  end.
Definition d_encode_point (c : cap) (C : curve) (P : option (fe * fe)) (compress : bool) : outcome (list Z) :=
  if aff_is_identity (d_fe_ops c (cu_p C)) P then Ok [0]
  else match P with
  | None => Ok [0]
  | Some (x, y) =>
      let* bx := d_fe_to_bytes c x in
      if compress then Ok ((2 + (if test_bit (fv y) 0 then 1 else 0)) :: bx)
      else let* by_ := d_fe_to_bytes c y in Ok (4 :: bx ++ by_)
  end.
Definition d_decode_point (c : cap) (C : curve) (e : list Z) : outcome (option (fe * fe)) :=
  match e with
  | [] => Abort
  | type :: data =>
      let* _ := check ((type <=? 4) && negb (type =? 1)) in
      let plen := Z.to_nat (byte_length (cu_p C)) in
      if (type =? 2) || (type =? 3) then
        let* _ := check (Nat.eqb (length e) (plen + 1)) in
        let* x := of_bytes c (firstn plen data) in
        d_decompress_point c C x (Z.odd type) false
      else if type =? 4 then
        let* _ := check (Nat.eqb (length e) (2 * plen + 1)) in
        let* x := of_bytes c (firstn plen data) in
        let* y := of_bytes c (firstn plen (skipn plen data)) in
        d_make_point c C x y false
      else Ok None
  end.
(** ec.hpp:1848-1899 *)
Definition d_curve_verify (c : cap) (C : curve) : outcome bool :=
  let p := cu_p C in
  if negb (compares1 p 3 >? 0) || negb (compares1 (cu_n C) 0 >? 0) then Ok false
  else if is_negative (cu_a C) || negb (compare (cu_a C) p <? 0) then Ok false
  else if is_negative (cu_b C) || negb (compare (cu_b C) p <? 0) then Ok false
  else
    let* afe := make_field_element p (cu_a C) false in
    let* bfe := make_field_element p (cu_b C) false in
    let* t := d_fe_sqr c afe in let* t := d_fe_mul_int c t 4 in let* t := d_fe_mul c t afe in
    let* u := d_fe_sqr c bfe in let* u := d_fe_mul_int c u 27 in
    let* y2 := d_fe_add c t u in
    let* d := d_fe_mul_int c y2 (-16) in
    if compares1 (fv d) 0 =? 0 then Ok false
    else
      let* v := d_aff_is_valid c p (d_cu_coeffs c C) (cu_n C) (cu_g C) in
      if negb v then Ok false
      else if (cu_h C <? 1) || negb (compareu1 p (cu_h C) >? 0) then Ok false
      else
        let* nh := d_mulu1 c (zero c) (cu_n C) (cu_h C) in
        let* p1 := d_subs1 c false (zero c) p 1 in
        if compare nh p1 =? 0 then Ok false else Ok true.

(** ecdsa.hpp:37-40, 156-159 *)
Definition d_digest_int (c : cap) (n : bigint) (msg : list Z) : outcome bigint :=
  let* e := of_bytes c (firstn (Nat.min (Z.to_nat (byte_length n)) (length msg)) msg) in
  if compare e n >? 0 then d_sub c e e n else Ok e.
(** ecdsa.hpp:25-57 *)
Definition d_ecdsa_verify (c : cap) (C : curve) (q : option (fe * fe)) (msg : list Z) (r s : bigint) : outcome bool :=
  let O := d_fe_ops c (cu_p C) in let n := cu_n C in
  if aff_is_identity O q then Ok false
  else if out_of_range n r s then Ok false
  else
    let* e := d_digest_int c n msg in
    let* w := d_op_modinv c s n in
    let* u1 := d_fp_mul c e w n in
    let* u2 := d_fp_mul c r w n in
    let* R := d_jac_mul_add c (cu_p C) (d_cu_coeffs c C) u1 (of_affine O (cu_g C)) u2 (of_affine O q) in
    let* R := jac_to_affine O R in
    if aff_is_identity O R then Ok false
    else match R with
    | None => Ok false
    | Some (x, y) =>
        let* x := if negb (compare (fv x) n <? 0) then d_fe_sub_big c x n else Ok x in
        Ok (compare (fv x) r =? 0)
    end.
(** ecdsa.hpp:93-98 *)
Definition d_assert_ecdsa (c : cap) (C : curve) (q : option (fe * fe)) (msg : list Z) (r s : bigint) : outcome unit :=
  let* v := d_ecdsa_verify c C q msg r s in check v.
(** ecdsa.hpp:139-188 *)
Definition d_ecdsa_recover (c : cap) (C : curve) (msg : list Z) (r s : bigint) (recid : Z) (verify : bool) : outcome (option (fe * fe)) :=
  let O := d_fe_ops c (cu_p C) in let n := cu_n C in
  if out_of_range n r s || negb (Z.land recid 3 =? recid) then Ok None
  else
    let yodd := negb (Z.land recid 1 =? 0) in
    let second_key := negb (Z.shiftr recid 1 =? 0) in
    if second_key && negb (compare r (cu_p_minus_n C) <? 0) then Ok None
    else
      let* e := d_digest_int c n msg in
      let* R := if second_key then let* rn := d_op_add c r n in d_decompress_point c C rn yodd false
                else d_decompress_point c C r yodd false in
      if aff_is_identity O R then Ok R
      else
        let* ok := if verify then let* nR := d_aff_mul c (cu_p C) (d_cu_coeffs c C) R n in Ok (aff_is_identity O nR) else Ok true in
        if negb ok then Ok None
        else
          let* w := d_op_modinv c r n in
          let* ne := d_op_sub c n e in
          let* ew := d_fp_mul c ne w n in
          let* sw := d_fp_mul c s w n in
          let* Q := d_jac_mul_add c (cu_p C) (d_cu_coeffs c C) ew (of_affine O (cu_g C)) sw (of_affine O R) in
          jac_to_affine O Q.
