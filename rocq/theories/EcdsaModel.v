(** Model of ecdsa.hpp.  The integer type of r, s and the digest is the one of the curve (the default
    template argument).  The overloads taking a hash_t (72-79, 210-219) pass the bytes of the digest on. *)
From Coq Require Import List ZArith Bool.
From Verif Require Import Outcome LoopModel WordsModel BigintModel NumModel FpModel EcModel EcCurveModel.
Import ListNotations.
Open Scope Z_scope.

(** 33, 144: r < 1 || r >= n || s < 1 || s >= n *)
Definition out_of_range (n r s : bigint) : bool :=
  (compares1 r 1 <? 0) || negb (compare r n <? 0) || (compares1 s 1 <? 0) || negb (compare s n <? 0).
(** 37-40, 156-159: the integer of the message *)
Definition digest_int (c : cap) (n : bigint) (msg : list Z) : outcome bigint :=
  let* e := of_bytes c (firstn (Nat.min (Z.to_nat (byte_length n)) (length msg)) msg) in
  Ok (if compare e n >? 0 then sub c e e n else e).
(** 25-57 *)
Definition ecdsa_verify (c : cap) (C : curve) (q : option (fe * fe)) (msg : list Z) (r s : bigint) : outcome bool :=
  let O := fe_ops c (cu_p C) in let E := cu_coeffs c C in let n := cu_n C in
  if aff_is_identity O q then Ok false
  else if out_of_range n r s then Ok false
  else
    let* e := digest_int c n msg in
    let* w := op_modinv c s n in
    let* u1 := op_mod c (op_mul c e w) n in
    let* u2 := op_mod c (op_mul c r w) n in
    let* R := jac_mul_add O E c u1 (of_affine O (cu_g C)) u2 (of_affine O q) in
    let* R := jac_to_affine O R in
    if aff_is_identity O R then Ok false
    else match R with
    | None => Ok false
    | Some (x, y) =>
        let* x := if negb (compare (fv x) n <? 0) then fe_sub_big c x n else Ok x in
        Ok (compare (fv x) r =? 0)
    end.
(** 93-98 *)
Definition assert_ecdsa (c : cap) (C : curve) (q : option (fe * fe)) (msg : list Z) (r s : bigint) : outcome unit :=
  let* v := ecdsa_verify c C q msg r s in check v.
(** 139-188; [recid] is a size_t *)
Definition ecdsa_recover (c : cap) (C : curve) (msg : list Z) (r s : bigint) (recid : Z) (verify : bool) : outcome (option (fe * fe)) :=
  let O := fe_ops c (cu_p C) in let E := cu_coeffs c C in let n := cu_n C in
  if out_of_range n r s || negb (Z.land recid 3 =? recid) then Ok None
  else
    let yodd := negb (Z.land recid 1 =? 0) in
    let second_key := negb (Z.shiftr recid 1 =? 0) in
    if second_key && negb (compare r (cu_p_minus_n C) <? 0) then Ok None
    else
      let* e := digest_int c n msg in
      let* R := if second_key then decompress_point c C (op_add c r n) yodd false else decompress_point c C r yodd false in
      if aff_is_identity O R then Ok R
      else
        let* ok := if verify then let* nR := aff_mul O E R n in Ok (aff_is_identity O nR) else Ok true in
        if negb ok then Ok None
        else
          let* w := op_modinv c r n in
          let* ew := op_mod c (op_mul c (op_sub c n e) w) n in
          let* sw := op_mod c (op_mul c s w) n in
          let* Q := jac_mul_add O E c ew (of_affine O (cu_g C)) sw (of_affine O R) in
          jac_to_affine O Q.
