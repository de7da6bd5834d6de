(** Model of ec_curve_fp (ec.hpp:1505-1942): the curve object, making points, decompression, the SEC1
    encoding, and [verify].  Points are the affine objects of EcModel.v over the field elements of
    FpModel.v; [decompress_point], [make_point] and [decode_point] with another point type as template
    argument pass the affine result through the constructor modelled by [of_affine]. *)
From Coq Require Import List ZArith Bool.
From Verif Require Import Outcome LoopModel WordsModel BigintModel NumModel FpModel EcModel.
Import ListNotations.
Open Scope Z_scope.

(** 1522-1532: the members *)
Record curve := mkcurve {
  cu_p : bigint; cu_a : bigint; cu_b : bigint; cu_g : option (fe * fe); cu_n : bigint; cu_h : Z;
  cu_a_is_minus_3 : bool; cu_a_is_zero : bool; cu_p_minus_n : bigint }.
(** 1542-1552: the cached constants *)
Definition coeffs_of (c : cap) (p a b : bigint) : coeffs (fe_ops c p) :=
  mkcoeffs (fe_ops c p) a b (is_zero a) (compare a (subs1 c false (zero c) p 3) =? 0).
(** 1529-1530, 1549-1550: the coefficients of a curve object with the cached comparisons, as the point classes see them (837, 840, 1193, 1196) *)
Definition cu_coeffs (c : cap) (C : curve) : coeffs (fe_ops c (cu_p C)) :=
  mkcoeffs (fe_ops c (cu_p C)) (cu_a C) (cu_b C) (cu_a_is_zero C) (cu_a_is_minus_3 C).

(** 1902-1905 [is_valid_integer], 1907-1910 [check_integer] *)
Definition is_valid_integer (p x : bigint) : bool := negb (is_negative x) && (compare x p <? 0).
(** 1912-1926 [make_field_element] *)
Definition make_field_element (p x : bigint) (verify : bool) : outcome fe :=
  let* _ := if verify then check (is_valid_integer p x) else Ok tt in
  Ok (mkfe x (Some p)).
(** 1928-1941: [make_point] from field elements *)
Definition make_point_fe (c : cap) (C : curve) (x y : fe) (verify : bool) : outcome (option (fe * fe)) :=
  let P := Some (x, y) in
  let* _ := if verify then let* v := aff_is_valid (fe_ops c (cu_p C)) (cu_coeffs c C) (cu_n C) P in check v else Ok tt in
  Ok P.
(** 1678-1689 [make_point] from integers; the overload at 1649-1660 checks the same again in [make_field_element] *)
Definition make_point (c : cap) (C : curve) (x y : bigint) (verify : bool) : outcome (option (fe * fe)) :=
  let* _ := check (is_valid_integer (cu_p C) x) in
  let* _ := check (is_valid_integer (cu_p C) y) in
  let* x := make_field_element (cu_p C) x false in
  let* y := make_field_element (cu_p C) y false in
  make_point_fe c C x y verify.
(** 1542-1552: the constructor; the generator is made before n is set, without verification *)
Definition curve_make (c : cap) (p a b gx gy n : bigint) (h : Z) : outcome curve :=
  let* _ := check (is_valid_integer p gx) in
  let* _ := check (is_valid_integer p gy) in
  let* x := make_field_element p gx true in
  let* y := make_field_element p gy true in
  Ok (mkcurve p a b (Some (x, y)) n h (compare a (subs1 c false (zero c) p 3) =? 0) (is_zero a) (op_sub c p n)).
(** 1562-1571 [generate_point], for the affine point class *)
Definition generate_point (c : cap) (C : curve) (x : bigint) : outcome (option (fe * fe)) :=
  let* _ := check ((compares1 x 0 >? 0) && (compare x (cu_n C) <? 0)) in
  aff_mul (fe_ops c (cu_p C)) (cu_coeffs c C) (cu_g C) x.
(** 1562-1571 again, the branch [PointT( g ) * x], for the other two point classes *)
Definition generate_point_proj (c : cap) (C : curve) (x : bigint) : outcome (option (fe * fe * fe)) :=
  let* _ := check ((compares1 x 0 >? 0) && (compare x (cu_n C) <? 0)) in
  proj_mul (fe_ops c (cu_p C)) (cu_coeffs c C) (of_affine (fe_ops c (cu_p C)) (cu_g C)) x.
Definition generate_point_jac (c : cap) (C : curve) (x : bigint) : outcome (option (fe * fe * fe)) :=
  let* _ := check ((compares1 x 0 >? 0) && (compare x (cu_n C) <? 0)) in
  jac_mul (fe_ops c (cu_p C)) (cu_coeffs c C) c (of_affine (fe_ops c (cu_p C)) (cu_g C)) x.

(** 1698-1705 [compute_y] *)
Definition compute_y (c : cap) (C : curve) (x : fe) (odd : bool) : outcome fe :=
  let* t := fe_sqr c x in
  let* t := fe_add_big c t (cu_a C) in
  let* t := fe_mul c t x in
  let* t := fe_add_big c t (cu_b C) in
  let* y := fe_sqrt c t in
  if negb (Bool.eqb odd (test_bit (fv y) 0)) then fe_neg c y else Ok y.
(** 1728-1736 [decompress_point] from a field element, 1747-1751 from an integer *)
Definition decompress_fe (c : cap) (C : curve) (x : fe) (yodd : bool) : outcome (option (fe * fe)) :=
  let* y := compute_y c C x yodd in
  if fe_is_zero y then Ok None else make_point_fe c C x y false.
Definition decompress_point (c : cap) (C : curve) (x : bigint) (yodd verify : bool) : outcome (option (fe * fe)) :=
  let* x := make_field_element (cu_p C) x verify in
  decompress_fe c C x yodd.

(** fp.hpp:535-541 [max_byte_length], 663-673 [to_bytes]; fe.hpp:112-116 [to_bytes] without a length *)
Definition fe_max_byte_length (c : cap) (x : fe) : Z :=
  if fe_is_valid x then match fm x with None => 0 | Some p => byte_length (subs1 c false (zero c) p 1) end else 0.
Definition fe_to_bytes_len (x : fe) (len : Z) : list Z :=
  if fe_is_valid x then
    let ev := to_bytes (fv x) in
    if len >? Z.of_nat (length ev) then repeat 0 (Z.to_nat (len - Z.of_nat (length ev))) ++ ev else ev
  else [].
Definition fe_to_bytes (c : cap) (x : fe) : list Z := fe_to_bytes_len x (fe_max_byte_length c x).
(** 1775-1791 [encode_point] *)
Definition encode_point (c : cap) (C : curve) (P : option (fe * fe)) (compress : bool) : list Z :=
  if aff_is_identity (fe_ops c (cu_p C)) P then [0]
  else match P with
  | None => [0]
  | Some (x, y) =>
      if compress then (2 + (if test_bit (fv y) 0 then 1 else 0)) :: fe_to_bytes c x
      else 4 :: fe_to_bytes c x ++ fe_to_bytes c y
  end.
(** 1812-1839 [decode_point] *)
Definition decode_point (c : cap) (C : curve) (e : list Z) : outcome (option (fe * fe)) :=
  match e with
  | [] => Abort
  | type :: data =>
      let* _ := check ((type <=? 4) && negb (type =? 1)) in
      let plen := Z.to_nat (byte_length (cu_p C)) in
      if (type =? 2) || (type =? 3) then
        let* _ := check (Nat.eqb (length e) (plen + 1)) in
        let* x := of_bytes c (firstn plen data) in
        decompress_point c C x (Z.odd type) false
      else if type =? 4 then
        let* _ := check (Nat.eqb (length e) (2 * plen + 1)) in
        let* x := of_bytes c (firstn plen data) in
        let* y := of_bytes c (firstn plen (skipn plen data)) in
        make_point c C x y false
      else Ok None
  end.

(** 1848-1899 [verify] *)
Definition curve_verify (c : cap) (C : curve) : outcome bool :=
  let p := cu_p C in
  if negb (compares1 p 3 >? 0) || negb (compares1 (cu_n C) 0 >? 0) then Ok false
  else if is_negative (cu_a C) || negb (compare (cu_a C) p <? 0) then Ok false
  else if is_negative (cu_b C) || negb (compare (cu_b C) p <? 0) then Ok false
  else
    let* afe := make_field_element p (cu_a C) false in
    let* bfe := make_field_element p (cu_b C) false in
    let* t := fe_sqr c afe in let* t := int_times_fe c 4 t in let* t := fe_mul c t afe in
    let* u := fe_sqr c bfe in let* u := int_times_fe c 27 u in
    let* y2 := fe_add c t u in
    let* d := int_times_fe c (-16) y2 in
    if compares1 (fv d) 0 =? 0 then Ok false
    else
      let* v := aff_is_valid (fe_ops c p) (cu_coeffs c C) (cu_n C) (cu_g C) in
      if negb v then Ok false
      else if (cu_h C <? 1) || negb (compareu1 p (cu_h C) >? 0) then Ok false
      else if compare (mulu1 c (zero c) (cu_n C) (cu_h C)) (subs1 c false (zero c) p 1) =? 0 then Ok false
      else Ok true.
