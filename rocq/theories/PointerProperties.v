(** C68: the pointers inside field elements, points and curves. *)
From Coq Require Import List ZArith Bool Lia.
From Verif Require Import Outcome WordsModel BigintModel BigintSpec NumModel FpModel FieldOpModel EcModel EcCurveModel PointerModel PointerSpec PointerClaims.
Import ListNotations.
Open Scope Z_scope.

(** C68: a program over integer variables and field elements that leaves every modulus alone while an element refers to it computes, ends and fails as if each element held its modulus by value. *)
Theorem C68_programs : forall c l, stable [] l = true ->
  agree (fun s v => h_ints (f_heap s) = v_ints v /\ map (look (f_heap s)) (f_els s) = v_els v) (frun c fstart l) (vrun c vstart l).
Proof. exact programs_claim. Qed.
Print Assumptions C68_programs.
(** C68: an element is in the field its modulus variable had when the element was made, whatever happens to the variable later. Refuted: assigning the variable moves the elements made from it to another field; 5 mod 11, doubled after the variable becomes 7, is 3 and not 10. *)
Theorem C68_assigned_modulus_refuted : let c := (Fixed 4) in let l := [FInt (of_int c 11); FElem (of_int c 5) 0 true; FSet 0 (of_int c 7); FBin Badd 0 0] in
  ~ agree (fun s v => map (fun x => value (ov x)) (f_els s) = map (fun x => value (fv x)) (v_els v)) (frun c fstart l) (vrun c vstart l).
Proof. vm_compute. intros H. discriminate H. Qed.
Print Assumptions C68_assigned_modulus_refuted.
(** C68: a field element cannot be made from a temporary modulus. The deleted overloads (fp.hpp:492, 511) take one and two arguments; with the third argument a temporary is accepted, and negation, inversion, addition, subtraction, and multiplication of values other than one then read a destroyed object. *)
Theorem C68_temporary_modulus_ub : forall c v p,
  (forall o, frun c fstart [FTemp v p; FUn Uneg 0] = UB /\ frun c fstart [FTemp v p; FUn Uinv 0] = UB /\ (o <> Bdiv -> is_one v = false -> frun c fstart [FTemp v p; FBin o 0 0] = UB)) /\
  frun c fstart [FTemp v p; FBin Badd 0 0] = UB /\ frun c fstart [FTemp v p; FBin Bsub 0 0] = UB.
Proof. exact temporary_ub. Qed.
Print Assumptions C68_temporary_modulus_ub.
(** C68: points of one curve object or of its copies, in any mixture, add, subtract, double, negate, multiply and are checked as the points they stand for; results are again such points. *)
Theorem C68_points : forall c h k S C, alike h k S -> look_curve h k = C ->
  let O := fe_ops c (cu_p C) in let E := cu_coeffs c C in
  let ok := fun P Q => point_of h S P /\ look_point h P = Q in
  forall P Q, point_of h S P -> point_of h S Q ->
  agree ok (po_add c h P Q) (aff_add O E (look_point h P) (look_point h Q)) /\ agree ok (po_sub c h P Q) (aff_sub O E (look_point h P) (look_point h Q)) /\
  agree ok (po_doubled c h P) (aff_doubled O E (look_point h P)) /\ agree ok (po_inverted c h P) (aff_inverted O (look_point h P)) /\
  (forall s, agree ok (po_mul c h P s) (aff_mul O E (look_point h P) s)) /\
  agree eq (po_is_on_curve c h P) (aff_is_on_curve O E (look_point h P)) /\ agree eq (po_is_valid c h P) (aff_is_valid O E (cu_n C) (look_point h P)) /\
  po_is_identity h P = Ok (aff_is_identity O (look_point h P)).
Proof. exact points_claim. Qed.
Print Assumptions C68_points.
(** C68: after any history of constructions, copies and destructions of curves, an object whose original exists makes and generates the points of the curve with its parameters; generated points refer to the original, made points to the object itself. *)
Theorem C68_curves : forall c l h k x, krun c (mkheap [] []) l = Ok h -> nth_error (lives l) k = Some x -> l_alive x = true -> exists_at (lives l) (l_from x) = true ->
  exists C, curve_with c (l_params x) = Ok C /\ look_curve h (object c (l_from x) (l_params x)) = C /\ at_addr (h_curves h) k = Some (object c (l_from x) (l_params x)) /\
    (forall s, agree (fun P Q => oc P = None \/ oc P = Some (l_from x)) (po_generate c h k s) (generate_point c C s)) /\
    (forall s, agree (fun P Q => look_point h P = Q) (po_generate c h k s) (generate_point c C s)) /\
    (forall u v verify, agree (fun P Q => look_point h P = Q /\ oc P = Some k) (po_make c h k u v verify) (make_point c C u v verify)).
Proof. exact generate_known. Qed.
Print Assumptions C68_curves.
(** C68: a copy of a curve can be used like the curve. The implicit copy constructor copies the pointers in g, which refer to the original; once the original is destroyed, generating the point of any scalar from 2 to n - 1 reads a destroyed object. *)
Theorem C68_original_destroyed_ub : forall c l h k x s, krun c (mkheap [] []) l = Ok h -> nth_error (lives l) k = Some x -> l_alive x = true -> exists_at (lives l) (l_from x) = false ->
  let '(_, _, _, _, _, n, _) := l_params x in valid c s -> valid c n -> 2 <= value s < value n -> po_generate c h k s = UB.
Proof. exact generate_dead. Qed.
Print Assumptions C68_original_destroyed_ub.
(** C68: two points are equal exactly when their coordinates are and they refer to the same curve object or have abscissa zero. *)
Theorem C68_equality : forall c h P Q, (forall v, v = ov (ox P) \/ v = ov (oy P) \/ v = ov (ox Q) \/ v = ov (oy Q) -> valid c v) ->
  (po_eqb P Q = true <-> value (ov (ox P)) = value (ov (ox Q)) /\ value (ov (oy P)) = value (ov (oy Q)) /\ (oc P = oc Q \/ value (ov (ox P)) = 0)) /\
  (oc P = oc Q -> oc P <> None -> po_eqb P Q = aff_eqb (fe_ops c (zero c)) (look_point h P) (look_point h Q)).
Proof. exact equality_claim. Qed.
Print Assumptions C68_equality.
(** C68: equal points of one curve compare equal. Refuted for copies: 1 times the generator of a copy, and the point the same copy makes from the coordinates of its generator, are the same point and compare different. *)
Theorem C68_copy_equality_refuted : forall c l h k x, krun c (mkheap [] []) l = Ok h -> nth_error (lives l) k = Some x -> l_alive x = true -> exists_at (lives l) (l_from x) = true -> l_from x <> k ->
  let '(p, _, _, gx, gy, n, _) := l_params x in valid c gx -> valid c gy -> valid c n -> 1 < value n -> 0 < value gx ->
  exists G P, po_generate c h k (of_int c 1) = Ok G /\ po_make c h k gx gy false = Ok P /\ look_point h G = look_point h P /\ po_eqb G P = false.
Proof. exact copy_equality. Qed.
Print Assumptions C68_copy_equality_refuted.
(** C68: points of different curves compare different. Refuted: (0, 1) on y^2 = x^3 + x + 1 over 23 elements and over 29 compare equal. *)
Theorem C68_other_curve_refuted : let c := (Fixed 4) in exists h P Q, krun c (mkheap [] []) [KNew (of_int c 23) (of_int c 1) (of_int c 1) (of_int c 0) (of_int c 1) (of_int c 28) 1; KNew (of_int c 29) (of_int c 1) (of_int c 1) (of_int c 0) (of_int c 1) (of_int c 36) 1] = Ok h /\
  po_make c h 0 (of_int c 0) (of_int c 1) true = Ok P /\ po_make c h 1 (of_int c 0) (of_int c 1) true = Ok Q /\ po_eqb P Q = true.
Proof. eexists _, _, _. split; [vm_compute; reflexivity|]. split; [vm_compute; reflexivity|]. split; vm_compute; reflexivity. Qed.
Print Assumptions C68_other_curve_refuted.

(** a program that reuses variables and elements and assigns a modulus no element refers to any more; a curve, its copy, and the copy after the original is gone *)
Definition ex_program : list fcmd :=
  let k := of_int (Fixed 4) in
  [FInt (k 11); FInt (k 7); FElem (k 5) 0 true; FElem (k 3) 1 true; FBin Badd 0 0; FBin Bdiv 2 0; FStore 1 3; FSet 1 (k 100); FKill 1; FUn Uinv 1; FAssign 0 (k 9) true; FBin Bmul 0 4].
Definition ex_curves (last : bool) : list ccmd :=
  let k := of_int (Fixed 4) in KNew (k 251) (k 248) (k 26) (k 2) (k 167) (k 223) 1 :: KCopy 0 :: KCopy 1 :: (if last then [KKill 1] else [KKill 0]).
Example C68_ex :
  stable [] ex_program = true /\
  (match frun (Fixed 4) fstart ex_program with Ok s => map (fun x => value (ov x)) (f_els s) | _ => [] end) = [9; 2; 10; 2; 6; 10] /\
  stable [] [FInt (of_int (Fixed 4) 11); FElem (of_int (Fixed 4) 5) 0 true; FSet 0 (of_int (Fixed 4) 7)] = false /\
  (match krun (Fixed 4) (mkheap [] []) (ex_curves true) with
   | Ok h => match po_generate (Fixed 4) h 2 (of_int (Fixed 4) 2), po_make (Fixed 4) h 2 (of_int (Fixed 4) 2) (of_int (Fixed 4) 167) true with
             | Ok P, Ok Q => oc P = Some O /\ oc Q = Some 2%nat /\ (match po_add (Fixed 4) h P Q with Ok R => oc R = Some O /\ option_map (fun R => value (fv (fst R))) (look_point h R) = Some 71 | _ => False end)
             | _, _ => False end
   | _ => False end) /\
  map l_from (lives (ex_curves true)) = [0; 0; 0]%nat /\ exists_at (lives (ex_curves true)) 0 = true /\
  (match krun (Fixed 4) (mkheap [] []) (ex_curves false) with Ok h => po_generate (Fixed 4) h 2 (of_int (Fixed 4) 2) = UB /\ po_generate (Fixed 4) h 2 (of_int (Fixed 4) 1) <> UB | _ => False end) /\ exists_at (lives (ex_curves false)) 0 = false.
Proof. vm_compute. repeat match goal with |- _ /\ _ => split end; first [reflexivity|discriminate]. Qed.
