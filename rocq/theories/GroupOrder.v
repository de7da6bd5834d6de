(** The number of points of a curve over the integers modulo a prime: it kills every point, it is at most
    2 p + 1, and a point of large prime order determines it. *)
From Coq Require Import List ZArith Znumtheory Bool Lia Permutation Field.
From Verif Require Import EcGroup EcGroupProofs ZpField EcSpec EcScalar.
Import ListNotations.
Open Scope Z_scope.

Section G.
Variable p : Z.
Hypothesis Pp : prime p.
Notation F := (Zp p Pp).
Variables a b : F.
Hypothesis two_ne : (1 + 1)%f <> (0%f : F).
Hypothesis Hdisc : disc a b <> 0%f.
Notation C := (on_curve a b).
Notation inf := (@Inf F).
Notation addp := (padd a).
Add Field Fld : (f_theory F).

(** *** the list of all points *)
Definition all_fe : list F := map (fun i => zmk p Pp (Z.of_nat i)) (seq 0 (Z.to_nat p)).
Lemma all_fe_in (x : F) : In x all_fe.
Proof.
  unfold all_fe. apply in_map_iff. pose proof (zval_range p x) as R. exists (Z.to_nat (zval x)). split.
  - rewrite Z2Nat.id by lia. apply zmk_val.
  - apply in_seq. lia.
Qed.
Definition is_root (x y : F) : bool := if feq_dec (y * y)%f (x * x * x + a * x + b)%f then true else false.
Definition ordinates (x : F) : list F := nodup feq_dec (filter (is_root x) all_fe).
Lemma ordinates_in x y : In y (ordinates x) <-> C (Aff x y).
Proof.
  unfold ordinates. rewrite nodup_In, filter_In. unfold is_root. cbn [on_curve]. destruct (feq_dec _ _) as [e|n]; split.
  - intros _. exact e.
  - intros _. split; [apply all_fe_in|reflexivity].
  - intros (_ & H). discriminate.
  - intros H. contradiction.
Qed.
Lemma ordinates_two x : (length (ordinates x) <= 2)%nat.
Proof.
  pose proof (NoDup_nodup feq_dec (filter (is_root x) all_fe)) as ND. fold (ordinates x) in ND. pose proof (fun y => proj1 (ordinates_in x y)) as K.
  destruct (ordinates x) as [|y1 [|y2 [|y3 l]]]; cbn [length]; try lia. exfalso.
  pose proof (K y1 ltac:(cbn; tauto)) as K1. pose proof (K y2 ltac:(cbn; tauto)) as K2. pose proof (K y3 ltac:(cbn; tauto)) as K3.
  inversion ND as [|? ? N1 ND1]; subst. inversion ND1 as [|? ? N2 _]; subst.
  destruct (same_x F a b x y1 y2 K1 K2) as [->|E2]; [apply N1; left; reflexivity|]. destruct (same_x F a b x y1 y3 K1 K3) as [->|E3]; [apply N1; right; left; reflexivity|].
  apply N2. left. rewrite E2 in E3. apply (f_equal fopp) in E3.
  transitivity (- - y3)%f; [ring|]. rewrite <- E3. ring.
Qed.
Definition all_points : list (point F) := nodup (point_dec F) (Inf :: flat_map (fun x => map (Aff x) (ordinates x)) all_fe).
Lemma all_points_in X : In X all_points <-> C X.
Proof.
  unfold all_points. rewrite nodup_In. cbn [In]. rewrite in_flat_map. destruct X as [|x y].
  - split; [intros _; exact I|intros _; left; reflexivity].
  - split.
    + intros [H|(x' & _ & H)]; [discriminate|]. apply in_map_iff in H. destruct H as (y' & E & H). injection E as -> ->. apply ordinates_in. exact H.
    + intros H. right. exists x. split; [apply all_fe_in|]. apply in_map. apply ordinates_in. exact H.
Qed.
Lemma nodup_le {A} (d : forall x y : A, {x = y} + {x <> y}) l : (length (nodup d l) <= length l)%nat.
Proof. induction l as [|x l IH]; cbn [nodup length]; [lia|]. destruct (in_dec d x l); cbn [length]; lia. Qed.
Lemma all_points_bound : Z.of_nat (length all_points) <= 2 * p + 1.
Proof.
  pose proof (prime_ge_2 _ Pp) as P2. unfold all_points. pose proof (nodup_le (point_dec F) (Inf :: flat_map (fun x => map (Aff x) (ordinates x)) all_fe)) as L. cbn [length] in L.
  assert (K : forall l, (length (flat_map (fun x : F => map (Aff x) (ordinates x)) l) <= 2 * length l)%nat).
  { induction l as [|x l IH]; cbn [flat_map length]; [lia|]. rewrite app_length, map_length. pose proof (ordinates_two x). lia. }
  specialize (K all_fe). unfold all_fe in K at 2. rewrite map_length, seq_length in K. apply Nat2Z.inj_le in L. apply Nat2Z.inj_le in K. rewrite Nat2Z.inj_succ in L. rewrite Nat2Z.inj_mul, Z2Nat.id in K by lia. lia.
Qed.

(** *** translating all points permutes them *)
Definition psum (l : list (point F)) : point F := fold_right addp Inf l.
Lemma psum_curve l : Forall C l -> C (psum l).
Proof. induction 1 as [|x l Hx Hl IH]; cbn; [exact I|]. apply add_curve; assumption. Qed.
Lemma psum_perm l l' : Permutation l l' -> Forall C l -> psum l = psum l'.
Proof.
  induction 1 as [|x l l' H IH|x y l|l l' l'' H1 IH1 H2 IH2]; intros HC; cbn [psum fold_right] in *.
  - reflexivity.
  - inversion HC; subst. fold (psum l) (psum l'). rewrite IH by assumption. reflexivity.
  - inversion HC as [|? ? Cy H1]; subst. inversion H1 as [|? ? Cx H2]; subst. fold (psum l). pose proof (psum_curve l H2) as Cl.
    rewrite <- !(add_assoc F a b) by assumption. rewrite (add_comm F a b y x) by assumption. reflexivity.
  - rewrite IH1 by assumption. apply IH2. rewrite <- H1. exact HC.
Qed.
Lemma psum_translate X l : C X -> Forall C l -> psum (map (addp X) l) = addp (nmul a (length l) X) (psum l).
Proof.
  intros HX. induction 1 as [|x l Hx Hl IH]; cbn [psum fold_right map length nmul]; [reflexivity|]. fold (psum l) (psum (map (addp X) l)). rewrite IH.
  apply (add_4 F a b); auto using (nmul_curve F a b), psum_curve.
Qed.
Lemma all_killed X : C X -> nmul a (length all_points) X = Inf.
Proof.
  intros HX. assert (AC : Forall C all_points) by (apply Forall_forall; intros Y; apply all_points_in).
  assert (PM : Permutation (map (addp X) all_points) all_points).
  { apply NoDup_Permutation_bis.
    - assert (J : forall l, NoDup l -> Forall C l -> NoDup (map (addp X) l)).
      { induction 1 as [|Y l N ND IH]; intros HF; cbn [map]; constructor.
        - intros H. apply in_map_iff in H. destruct H as (Y' & E & H). inversion HF as [|? ? CY CF]; subst. assert (CY' : C Y') by (rewrite Forall_forall in CF; apply CF, H).
          apply N. rewrite (add_comm F a b X Y'), (add_comm F a b X Y) in E by assumption. apply (add_cancel F a b two_ne Hdisc) in E; [subst; exact H|assumption..].
        - inversion HF; subst. apply IH. assumption. }
      apply J; [apply NoDup_nodup|exact AC].
    - rewrite map_length. reflexivity.
    - intros Y H. apply in_map_iff in H. destruct H as (Z & <- & H). apply all_points_in. apply add_curve; [exact two_ne|exact HX|apply all_points_in, H]. }
  pose proof (psum_perm _ _ PM) as E. rewrite psum_translate in E by assumption.
  apply (no_fix F a b two_ne Hdisc _ (psum all_points)); [apply nmul_curve; assumption|apply psum_curve; exact AC|].
  apply E. rewrite PM. exact AC.
Qed.

(** *** a point of prime order *)
Variable n : Z.
Hypothesis Pn : prime n.
Variable G : point F.
Hypothesis HG : C G.
Hypothesis G0 : G <> Inf.
Hypothesis NG : zmul a n G = Inf.
Lemma order_divides : (n | Z.of_nat (length all_points)).
Proof.
  pose proof (all_killed G HG) as K. rewrite <- zmul_nat in K. set (N := Z.of_nat (length all_points)) in *.
  destruct (Zdivide_dec n N) as [D|D]; [exact D|]. exfalso. apply G0.
  pose proof (prime_rel_prime n Pn N D) as R. destruct (rel_prime_bezout _ _ R) as [u v E].
  rewrite <- (zmul_1 F a G). rewrite <- E. rewrite (zmul_add F a b) by assumption. rewrite !(zmul_mul F a b) by assumption. rewrite K, NG, !zmul_inf. reflexivity.
Qed.
Lemma points_pos : 0 < Z.of_nat (length all_points).
Proof. assert (H : In inf all_points) by (apply all_points_in; exact I). destruct all_points; [destruct H|cbn [length]; lia]. Qed.
Lemma order_bound : n <= 2 * p + 1.
Proof. pose proof order_divides as D. apply Z.divide_pos_le in D; [|apply points_pos]. pose proof all_points_bound. lia. Qed.
(** without a point of order two, a prime order above two thirds of p is the order of every point *)
Lemma order_all : 2 * p + 1 < 3 * n -> (forall x, ~ C (Aff x 0%f)) -> forall X, C X -> zmul a n X = Inf.
Proof.
  intros B T X HX. destruct order_divides as [k K]. pose proof all_points_bound as AB. pose proof points_pos as A0. pose proof (prime_ge_2 _ Pn) as N2.
  assert (K12 : k = 1 \/ k = 2) by nia.
  assert (E2 : zmul a (2 * n) X = Inf).
  { destruct K12 as [-> | ->].
    - rewrite (zmul_mul F a b) by assumption. rewrite <- (Z.mul_1_l n), <- K, zmul_nat, (all_killed X HX). apply zmul_inf.
    - rewrite <- K, zmul_nat. apply all_killed. exact HX. }
  rewrite (zmul_dbl F a b) in E2 by assumption. pose proof (zmul_curve F a b two_ne n X HX) as CY. destruct (zmul a n X) as [|x y]; [reflexivity|]. exfalso.
  apply (uniq_opp F a b) in E2; [|assumption..]. cbn [popp] in E2. injection E2 as E2. apply (opp_self F two_ne) in E2. subst y. exact (T x CY).
Qed.
End G.
