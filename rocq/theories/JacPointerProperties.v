(** C69: points with three coordinates and ECDSA on objects that hold pointers. *)
From Coq Require Import List ZArith Bool Lia.
From Verif Require Import Outcome WordsModel BigintModel BigintSpec NumModel FpModel FieldOpModel EcModel EcCurveModel EcdsaModel PointerModel PointerSpec PointerClaims PointerProperties JacPointerModel JacPointerSpec JacPointerClaims JacPointerOrigin.
Import ListNotations.
Open Scope Z_scope.

(** C69: points with three coordinates of one curve object or of its copies, in any mixture, behave as the points they stand for: sums, differences, doubles, multiples, simultaneous multiplication, the checks, normalisation and conversion, in both classes; equality for points of one object. *)
Theorem C69_points : forall c h k S C, alike3 h k S -> look_curve h k = C ->
  let O := fe_ops c (cu_p C) in let E := cu_coeffs c C in
  let ok := fun P Q => point3_of h S P /\ look3 h P = Q in
  forall P Q, point3_of h S P -> point3_of h S Q -> let P' := look3 h P in let Q' := look3 h Q in
  (agree ok (ho_add c h P Q) (proj_add O E P' Q') /\ agree ok (ho_sub c h P Q) (proj_sub O E P' Q') /\ agree ok (ho_doubled c h P) (proj_doubled O E P') /\
   (forall s, agree ok (ho_mul c h P s) (proj_mul O E P' s)) /\ (forall a b, agree ok (ho_mul_add c h a P b Q) (proj_mul_add O E c a P' b Q')) /\
   agree eq (ho_is_on_curve c h P) (proj_is_on_curve O E P') /\ agree eq (ho_is_valid c h P) (proj_is_valid O E (cu_n C) P') /\
   (in_field h k (tz P) \/ tc P = None -> agree ok (ho_normalize c h P) (proj_normalize O P')) /\
   agree (fun A B => point_of h S A /\ look_point h A = B) (ho_to_affine c h P) (proj_to_affine O P')) /\
  (agree ok (jo_add c h P Q) (jac_add O E P' Q') /\ agree ok (jo_sub c h P Q) (jac_sub O E P' Q') /\ agree ok (jo_doubled c h P) (jac_doubled O E P') /\
   (forall s, agree ok (jo_mul c h P s) (jac_mul O E c P' s)) /\ (forall a b, agree ok (jo_mul_add c h a P b Q) (jac_mul_add O E c a P' b Q')) /\
   agree eq (jo_is_on_curve c h P) (jac_is_on_curve O E P') /\ agree eq (jo_is_valid c h P) (jac_is_valid O E c (cu_n C) P') /\
   (in_field h k (tz P) \/ tc P = None -> agree ok (jo_normalize c h P) (jac_normalize O P')) /\
   agree (fun A B => point_of h S A /\ look_point h A = B) (jo_to_affine c h P) (jac_to_affine O P')) /\
  agree ok (to_inverted c h P) (inverted3 O P') /\ to_is_identity h P = Ok (is_identity3 O P') /\
  (forall A, point_of h S A -> agree ok (to_of_affine c h A) (Ok (of_affine O (look_point h A)))) /\
  (tc P = tc Q -> agree eq (ho_eqb c h P Q) (proj_eqb O P' Q') /\ agree eq (jo_eqb c h P Q) (jac_eqb O P' Q')).
Proof. exact points3_claim. Qed.
Print Assumptions C69_points.
(** C69: after any history of constructions, copies and destructions of curves, verification with a key on any surviving relative of a curve whose original exists, recovery and generation by any such object give what the curve with its parameters gives; a recovered key refers to the object or to its original. *)
Theorem C69_ecdsa : forall c l h k x, krun c (mkheap [] []) l = Ok h -> nth_error (lives l) k = Some x -> exists_at (lives l) (l_from x) = true ->
  let S := family (lives l) (l_from x) in
  exists C, curve_with c (l_params x) = Ok C /\
    (forall q msg r s, point_of h S q -> agree eq (po_ecdsa_verify c h q msg r s) (ecdsa_verify c C (look_point h q) msg r s)) /\
    (l_alive x = true -> forall msg r s recid verify,
      agree (fun P Q => point_of h S P /\ look_point h P = Q /\ (forall i, oc P = Some i -> i = k \/ i = l_from x)) (po_ecdsa_recover c h k msg r s recid verify) (ecdsa_recover c C msg r s recid verify)) /\
    (l_alive x = true -> forall u,
      agree (fun P Q => point3_of h S P /\ look3 h P = Q /\ (forall i, tc P = Some i -> i = l_from x)) (ho_generate c h k u) (generate_point_proj c C u) /\
      agree (fun P Q => point3_of h S P /\ look3 h P = Q /\ (forall i, tc P = Some i -> i = l_from x)) (jo_generate c h k u) (generate_point_jac c C u)).
Proof. exact ecdsa_claim. Qed.
Print Assumptions C69_ecdsa.
(** C69: a key can be verified with after its curve object is destroyed. Verification reads the destroyed curve, for every message and signature. *)
Theorem C69_key_destroyed_ub : forall c h q i msg r s, oc q = Some i -> om (ox q) = Some (PCurve i) -> at_addr (h_curves h) i = None -> po_ecdsa_verify c h q msg r s = UB.
Proof. exact key_dead. Qed.
Print Assumptions C69_key_destroyed_ub.
(** C69: keys of a copy verify as keys of the original. Once the original is destroyed, every verification with r and s in range that would give an answer, every recovery that would give a key, and generation of Jacobian points for scalars from 2 to n - 1 read a destroyed object. *)
Theorem C69_original_destroyed_ub : forall c l h k x, krun c (mkheap [] []) l = Ok h -> nth_error (lives l) k = Some x -> l_alive x = true -> exists_at (lives l) (l_from x) = false ->
  exists C, curve_with c (l_params x) = Ok C /\
  (forall q msg r s v, oc q = Some k -> live h (ox q) -> live h (oy q) -> aff_is_identity (fe_ops c (cu_p C)) (look_point h q) = false ->
     valid c (cu_n C) -> valid c r -> valid c s -> 1 <= value r < value (cu_n C) -> 1 <= value s < value (cu_n C) -> ecdsa_verify c C (look_point h q) msg r s = Ok v -> po_ecdsa_verify c h q msg r s = UB) /\
  (forall msg r s recid verify Q, ecdsa_recover c C msg r s recid verify = Ok (Some Q) -> po_ecdsa_recover c h k msg r s recid verify = UB) /\
  (forall u, valid c (cu_n C) -> valid c u -> 2 <= value u < value (cu_n C) -> jo_generate c h k u = UB).
Proof. exact original_dead. Qed.
Print Assumptions C69_original_destroyed_ub.
(** C69: equal points of one curve compare equal. Refuted for copies in both classes with three coordinates: the generator of a copy and the point the copy makes from the coordinates of its generator. *)
Theorem C69_copy_equality_refuted : forall c l h k x, krun c (mkheap [] []) l = Ok h -> nth_error (lives l) k = Some x -> l_alive x = true -> exists_at (lives l) (l_from x) = true -> l_from x <> k ->
  let '(p, _, _, gx, gy, n, _) := l_params x in valid c gx -> valid c n -> 1 < value n -> 0 < value gx -> 1 < value p -> valid c p ->
  exists A G P, jo_generate c h k (of_int c 1) = Ok G /\ po_make c h k gx gy false = Ok A /\ to_of_affine c h A = Ok P /\ look3 h G = look3 h P /\ ho_eqb c h G P = Ok false /\ jo_eqb c h G P = Ok false.
Proof. exact copy_equality3. Qed.
Print Assumptions C69_copy_equality_refuted.
(** C69: keys recovered from two signatures of one signer compare equal. Refuted for a copy of a curve: the recovered key refers to the copy or to the original, depending on the message, and keys that refer to different objects compare different. *)
Theorem C69_recovered_keys_refuted : let c := Fixed 4 in let k := of_int c in exists h P Q, krun c (mkheap [] []) (ex_curves true) = Ok h /\
  po_ecdsa_recover c h 2 [3] (k 178) (k 32) 1 true = Ok P /\ po_ecdsa_recover c h 2 [4] (k 178) (k 64) 1 true = Ok Q /\
  po_ecdsa_verify c h P [3] (k 178) (k 32) = Ok true /\ po_ecdsa_verify c h P [4] (k 178) (k 64) = Ok true /\
  look_point h P = look_point h Q /\ oc P = Some O /\ oc Q = Some 2%nat /\ po_eqb P Q = false.
Proof. eexists _, _, _. split; [vm_compute; reflexivity|]. split; [vm_compute; reflexivity|]. split; [vm_compute; reflexivity|]. vm_compute. repeat match goal with |- _ /\ _ => split end; reflexivity. Qed.
Print Assumptions C69_recovered_keys_refuted.
(** C69: which curve object results refer to. A sum in homogeneous coordinates refers to the object of its left operand; in Jacobian coordinates to that of the right one if z is 1 in the left operand only (line 1164 exchanges them); multiples and doubles keep the object; nothing else than the operands' objects appears. *)
Theorem C69_origin : forall c h P Q R,
  (ho_add c h P Q = Ok R -> (to_is_identity h P = Ok true /\ R = Q) \/ (to_is_identity h P = Ok false /\ (tc R = tc P \/ R = to_default c))) /\
  (jo_add c h P Q = Ok R -> (to_is_identity h P = Ok true /\ R = Q) \/ (to_is_identity h P = Ok false /\ to_is_identity h Q = Ok true /\ R = P) \/
     (to_is_identity h P = Ok false /\ to_is_identity h Q = Ok false /\ (tc R = tc (if fo_is_one (tz P) && negb (fo_is_one (tz Q)) then Q else P) \/ R = to_default c))) /\
  (to_inverted c h P = Ok R -> tc R = tc P) /\ (ho_doubled c h P = Ok R \/ jo_doubled c h P = Ok R -> tc R = tc P \/ R = to_default c) /\
  (forall s, ho_mul c h P s = Ok R \/ jo_mul c h P s = Ok R -> tc R = tc P \/ tc R = None) /\
  (forall a b, ho_mul_add c h a P b Q = Ok R \/ jo_mul_add c h a P b Q = Ok R -> tc R = tc P \/ tc R = tc Q \/ tc R = None) /\
  (ho_normalize c h P = Ok R \/ jo_normalize c h P = Ok R -> tc R = tc P).
Proof. exact origin_claim. Qed.
Print Assumptions C69_origin.
(** C69: a point can be doubled and checked after its curve object is destroyed. With z = 1 or coordinates elsewhere no answer is given, and the Jacobian double reads the destroyed curve; with another z every operation does. *)
Theorem C69_point_destroyed_ub : forall c h P i, tc P = Some i -> at_addr (h_curves h) i = None ->
  (to_is_identity h P = Ok false -> (fo_eq0 (ty P) = false -> jo_doubled c h P = UB /\ forall R, ho_doubled c h P <> Ok R) /\
     (forall b, ho_is_on_curve c h P <> Ok b) /\ (forall b, jo_is_on_curve c h P <> Ok b) /\ (forall b, ho_is_valid c h P <> Ok b) /\ (forall b, jo_is_valid c h P <> Ok b)) /\
  (om (tz P) = Some (PCurve i) -> is_one (ov (tz P)) = false ->
     to_is_identity h P = UB /\ to_inverted c h P = UB /\ ho_doubled c h P = UB /\ jo_doubled c h P = UB /\ (forall Q, ho_add c h P Q = UB /\ jo_add c h P Q = UB) /\
     (forall s, is_one s = false -> ho_mul c h P s = UB /\ jo_mul c h P s = UB) /\ ho_to_affine c h P = UB /\ jo_to_affine c h P = UB /\ ho_is_on_curve c h P = UB /\ jo_is_on_curve c h P = UB).
Proof. exact dangling_claim. Qed.
Print Assumptions C69_point_destroyed_ub.
(** a sum of points of two objects in both orders, one with z = 1, and a point of the destroyed first copy *)
Example C69_origin_ex : let c := Fixed 4 in let k := of_int c in let el := fun i v => mkfo (k v) (Some (PCurve i)) in
  match krun c (mkheap [] []) (ex_curves true) with
  | Ok h => let P := mkto (Some 0%nat) (el 0%nat 2) (el 0%nat 167) (el 0%nat 1) in let D := mkto (Some 1%nat) (el 1%nat 2) (el 1%nat 167) (el 1%nat 1) in
            match jo_doubled c h P with
            | Ok R => let Q := mkto (Some 2%nat) (tx R) (ty R) (tz R) in
                      option_map tc (match jo_add c h P Q with Ok V => Some V | _ => None end) = Some (Some 2%nat) /\ option_map tc (match jo_add c h Q P with Ok V => Some V | _ => None end) = Some (Some 2%nat) /\
                      option_map tc (match ho_add c h P Q with Ok V => Some V | _ => None end) = Some (Some 0%nat) /\ option_map tc (match ho_add c h Q P with Ok V => Some V | _ => None end) = Some (Some 2%nat)
            | _ => False end /\
            at_addr (h_curves h) 1 = None /\ to_is_identity h D = Ok false /\ jo_doubled c h D = UB /\ fo_eq0 (ty D) = false
  | _ => False end.
Proof. vm_compute. repeat match goal with |- _ /\ _ => split end; reflexivity. Qed.

(** a curve, two copies, and the original or the first copy destroyed: a key of the second copy, a signature, another message, and Jacobian generation *)
Example C69_ex : let c := Fixed 4 in let k := of_int c in
  (match krun c (mkheap [] []) (ex_curves true) with
   | Ok h => match po_make c h 2 (k 40) (k 217) true with
             | Ok q => po_ecdsa_verify c h q [100] (k 178) (k 14) = Ok true /\ po_ecdsa_verify c h q [101] (k 178) (k 14) = Ok false
             | _ => False end /\
             match jo_generate c h 2 (k 5) with Ok P => tc P = Some O /\ match jo_to_affine c h P with Ok A => value (ov (ox A)) = 40 /\ value (ov (oy A)) = 217 | _ => False end | _ => False end /\
             match ho_generate c h 2 (k 5) with Ok P => tc P = Some O /\ match ho_to_affine c h P with Ok A => value (ov (ox A)) = 40 /\ value (ov (oy A)) = 217 | _ => False end | _ => False end
   | _ => False end) /\
  (match krun c (mkheap [] []) (ex_curves false) with
   | Ok h => match po_make c h 2 (k 40) (k 217) true with Ok q => po_ecdsa_verify c h q [100] (k 178) (k 14) = UB /\ po_ecdsa_verify c h q [100] (k 178) (k 223) = Ok false | _ => False end /\
             po_ecdsa_recover c h 2 [100] (k 178) (k 14) 1 true = UB /\ jo_generate c h 2 (k 5) = UB
   | _ => False end).
Proof. vm_compute. repeat match goal with |- _ /\ _ => split end; reflexivity. Qed.
