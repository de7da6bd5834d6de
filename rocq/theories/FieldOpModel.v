(** fp.hpp:170-230, 448-1094 and fe.hpp:60-750: the members and operators of a prime field element for every type of
    second operand (int, word_t, int64_t, uint64_t, a bigint, a field element), on top of the operators of bigint in
    OperatorModel.  A field element as second operand enters with its value only (fp.hpp:689-692 and so on), so it is
    [KBig]; x op x is [KBig (fv x)] too, since the result is a fresh object.  All bigints have one buffer type, as in FpModel. *)
From Coq Require Import ZArith List Bool.
From Verif Require Import Outcome WordsModel BigintModel NumModel FpModel OperatorModel.
Import ListNotations.
Open Scope Z_scope.

(** fp.hpp:186-190 [fp_is_valid] of a machine integer: a >= 0 is a machine comparison, a < p the operator with the bigint on the right *)
Definition fp_is_valid_of (c : cap) (o : operand) (p : bigint) : outcome bool :=
  let m := match o with KInt k | KWord k | KI64 k | KU64 k => k >=? 0 | KBig b => compares1 b 0 >=? 0 | KSelf => compares1 p 0 >=? 0 end in
  if m then rcmp_lt c o p else Ok false.
(** bigint.hpp:1125-1156: the implicit conversion of an operand to a bigint *)
Definition to_big (c : cap) (x : bigint) (o : operand) : outcome bigint :=
  match o with
  | KInt k => Ok (of_int c k)
  | KWord k => Ok (of_word c k)
  | _ => big_of c x o
  end.
(** the test x == 1 of fp.hpp:792 (machine comparison) and 774 ([is_one]); o == 0 of fp.hpp:24 *)
Definition operand_is_one (x : bigint) (o : operand) : bool :=
  match o with KInt k | KWord k | KI64 k | KU64 k => k =? 1 | KBig b => is_one b | KSelf => is_one x end.
Definition operand_is_zero (x : bigint) (o : operand) : bool :=
  match o with KInt k | KWord k | KI64 k | KU64 k => k =? 0 | KBig b => compares1 b 0 =? 0 | KSelf => compares1 x 0 =? 0 end.
(** fp.hpp:206-230 with 21-28 [fp_neg]; the result has the type of the modulus *)
Definition fp_neg_of (c : cap) (o : operand) (p : bigint) : outcome bigint :=
  if operand_is_zero p o then to_big c p o else bin_sub c p o.

(** fp.hpp:688-716 [add]; fe.hpp:296-351 the operators; 64-72 [fp_add] *)
Definition fe_add_of (c : cap) (x : fe) (o : operand) : outcome fe :=
  with_m x (fun p => let* s := bin_add c (fv x) o in Ok (fp_add_tail c s p)).
(** fp.hpp:723-750 [sub]; fe.hpp:359-414; 74-82 [fp_sub] *)
Definition fe_sub_of (c : cap) (x : fe) (o : operand) : outcome fe :=
  with_m x (fun p => let* s := bin_sub c (fv x) o in Ok (fp_sub_tail c s p)).
(** fp.hpp:757-796 [mul]; fe.hpp:422-477; 84-88 [fp_mul] *)
Definition fe_mul_of (c : cap) (x : fe) (o : operand) : outcome fe :=
  if is_one (fv x) then with_m x (fun _ => to_big c (fv x) o)
  else if operand_is_one (fv x) o then Ok x
  else with_m x (fun p => let* s := bin_mul c (fv x) o in op_mod c s p).
(** fp.hpp:831-849 [div]; fe.hpp:485-540: only for bigints and field elements; with an integer the call does not compile *)
Definition fe_div_of (c : cap) (x : fe) (y : bigint) : outcome fe := fe_div_big c x y.

(** fe.hpp:296-477: a op o, and o op a with the scalar on the left, which calls the same member of the element; 549-680:
    a op= o is a = a op o *)
Inductive side := ElementLeft | ElementRight | Assignment.
Inductive fop := FPlus | FMinus | FTimes.
Definition field_op (c : cap) (s : side) (op : fop) (x : fe) (o : operand) : outcome fe :=
  match op with FPlus => fe_add_of c x o | FMinus => fe_sub_of c x o | FTimes => fe_mul_of c x o end.

(** fp.hpp:866-1081: the comparisons compare the value of the element with the other operand; the modulus plays no part *)
Definition fe_eq c (x : fe) o := cmp_eq c (fv x) o.
Definition fe_ne c (x : fe) o := cmp_ne c (fv x) o.
Definition fe_lt c (x : fe) o := cmp_lt c (fv x) o.
Definition fe_le c (x : fe) o := cmp_le c (fv x) o.
Definition fe_gt c (x : fe) o := cmp_gt c (fv x) o.
Definition fe_ge c (x : fe) o := cmp_ge c (fv x) o.

(** fp.hpp:462-480 [zero], [one]; 487-489: the constructor from a modulus alone *)
Definition fe_zero (c : cap) : fe := mkfe (zero c) None.
Definition fe_one (c : cap) : fe := mkfe (of_int c 1) None.
Definition fe_of_modulus (c : cap) (p : bigint) : fe := mkfe (zero c) (Some p).
(** fp.hpp:557-569 [assign]; 583-586 [operator=] does not check *)
Definition fe_assign (x : fe) (v : bigint) (chk : bool) : outcome fe :=
  match fm x with
  | None => Ok x
  | Some p => let* _ := check (negb chk || fp_is_valid v p) in Ok (mkfe v (Some p))
  end.
Definition fe_set (x : fe) (v : bigint) : outcome fe := fe_assign x v false.
(** fp.hpp:592-604 [value], 611-615 [modulus], 649-652 [is_negative] *)
Definition fe_value (x : fe) : bigint := fv x.
Definition fe_modulus (x : fe) : outcome bigint := match fm x with None => Abort | Some p => Ok p end.
Definition fe_is_negative (x : fe) : bool := negb (is_zero (fv x)) && neg (fv x).
(** fe.hpp:71-92: the members of the base class, which a reference to [field_element] calls; line 82 of [is_one] calls [is_zero] *)
Definition base_is_zero (x : fe) : bool := fe_is_zero x.
Definition base_is_one (x : fe) : bool := fe_is_zero x.
