(** Inverses of negative numbers: packaged statements. *)
From Coq Require Import ZArith Znumtheory List Bool Lia PeanoNat.
From Verif Require Import Outcome LoopModel WordsModel WordsSpec BigintModel BigintSpec BigintProofs BigintClaims NumModel NumProofs NumClaims
  FpModel FpSpec FpProofs FpClaims OperatorModel OperatorSpec OperatorClaims FieldOpModel FieldOpSpec FieldOpClaims NegInvSpec NegInvProofs.
Import ListNotations.
Open Scope Z_scope.

Lemma modinv_negative_claim c y x m : valid c y -> valid c x -> valid c m -> value x < 0 -> 1 < value m ->
  room c (Nat.max (size x) (size m) + 1) ->
  exists o k, modinv c y x m = Ok o /\ divisions (value m) (- value x) k /\
  (Z.gcd (value x) (value m) = 1 -> Nat.even k = true ->
     exists r, o = Some r /\ valid c r /\ 0 <= value r < value m /\ (value x * value r) mod value m = 1) /\
  (Z.gcd (value x) (value m) <> 1 \/ Nat.even k = false -> o = None).
Proof.
  intros Hy Hx Hm Px Pm R. destruct (modinv_neg_spec c y x m (valid_storage _ _ Hy) Hx Hm Px Pm R) as (o & k & E & D & H).
  exists o, k. split; [exact E|]. split; [exact D|]. destruct o as [r|].
  - destruct H as (V & Rr & Er & Ev). split; [eauto|]. intros [Hg|He]; [|congruence]. exfalso. apply Hg.
    apply Zgcd_1_rel_prime. apply bezout_rel_prime.
    pose proof (Z.div_mod (value x * value r) (value m) ltac:(lia)) as Dm. rewrite Er in Dm.
    apply (Bezout_intro _ _ _ (value r) (- (value x * value r / value m))). lia.
  - split; [|reflexivity]. intros Hg He. destruct H as [H|H]; congruence.
Qed.
Lemma divisions_claim a b : 0 <= b -> (exists k, divisions a b k) /\ (forall k k', divisions a b k -> divisions a b k' -> k = k').
Proof. intros H. split; [apply divisions_total; exact H|]. intros k k'. apply divisions_fun. Qed.
Lemma minus_one_claim c y x m : valid c y -> valid c x -> valid c m -> value x = -1 -> 1 < value m ->
  room c (Nat.max (size x) (size m) + 1) -> (value x * (value m - 1)) mod value m = 1 /\ modinv c y x m = Ok None /\ op_modinv c x m = Abort.
Proof.
  intros Hy Hx Hm Ex Pm R.
  assert (D1 : divisions (value m) (- value x) 1). { rewrite Ex. change (- -1) with 1. constructor; [lia|]. rewrite Z.mod_1_r. constructor. }
  assert (N : forall z, valid c z -> modinv c z x m = Ok None).
  { intros z Hz. destruct (modinv_negative_claim c z x m Hz Hx Hm ltac:(lia) Pm R) as (o & k & E & D & _ & H). rewrite E, H; [reflexivity|].
    right. rewrite (divisions_fun _ _ _ _ D D1). reflexivity. }
  split.
  - rewrite Ex. replace (-1 * (value m - 1)) with (1 + (-1) * value m) by ring. rewrite Z_mod_plus_full. apply Z.mod_1_l. exact Pm.
  - split; [apply N; exact Hy|]. unfold op_modinv. rewrite N; [reflexivity|]. apply (NumProofs.zero_valid c x Hx).
Qed.

(** dividing a field element *)
Lemma field_div_negative_claim c p : modulus_ok c p -> forall x y, elem c p x -> valid c y -> value y < 0 -> room c (Nat.max (size y) (size p) + 1) ->
  exists k, divisions (value p) (- value y) k /\
  (Z.gcd (value y) (value p) = 1 -> Nat.even k = true -> exists r, fe_div_of c x y = Ok r /\ elem c p r /\ (value (fv r) * value y) mod value p = value (fv x)) /\
  (Z.gcd (value y) (value p) <> 1 \/ Nat.even k = false -> fe_div_of c x y = Abort).
Proof.
  intros Hp x y Hx Vy Y R. pose proof Hx as (Ex & Vx & Rx). assert (P1 : 1 < value p) by apply Hp. assert (Vp : valid c p) by apply Hp.
  unfold fe_div_of, fe_div_big, with_m. rewrite (is_one_value c) by exact Vy. rewrite Ex. replace (value y =? 1) with false by (symmetry; apply Z.eqb_neq; lia).
  unfold fp_div, op_modinv. destruct (modinv_negative_claim c (zero c) y p (NumProofs.zero_valid c y Vy) Vy Vp Y P1 R) as (o & k & -> & D & G1 & G2). cbn [bind].
  exists k. split; [exact D|]. split.
  - intros G Ev. destruct (G1 G Ev) as (i & -> & Vi & Ri & Ei). cbn [bind]. destruct (mulmod_val c p Hp (fv x) i) as (r & -> & Rr & Er); [split; assumption|split; assumption|].
    cbn [bind]. eexists. split; [reflexivity|]. split; [split; [reflexivity|exact Rr]|]. cbn [fv]. rewrite Er. rewrite Zmult_mod_idemp_l.
    replace (value (fv x) * value i * value y) with (value (fv x) * (value y * value i)) by ring. rewrite <- Zmult_mod_idemp_r, Ei, Z.mul_1_r. apply Z.mod_small. exact Rx.
  - intros G. rewrite (G2 G). reflexivity.
Qed.
(** the inverse of an element whose stored number is negative, as x * k leaves it *)
Lemma inv_negative_claim c p : modulus_ok c p -> forall x, fm x = Some p -> valid c (fv x) -> value (fv x) < 0 -> room c (Nat.max (size (fv x)) (size p) + 1) ->
  exists k, divisions (value p) (- value (fv x)) k /\
  (Z.gcd (value (fv x)) (value p) = 1 -> Nat.even k = true -> exists r, fe_inv c x = Ok r /\ elem c p r /\ (value (fv x) * value (fv r)) mod value p = 1) /\
  (Z.gcd (value (fv x)) (value p) <> 1 \/ Nat.even k = false -> fe_inv c x = Abort).
Proof.
  intros Hp x Ex Vx Y R. assert (P1 : 1 < value p) by apply Hp. assert (Vp : valid c p) by apply Hp.
  unfold fe_inv, with_m, op_modinv. rewrite Ex. destruct (modinv_negative_claim c (zero c) (fv x) p (NumProofs.zero_valid c _ Vx) Vx Vp Y P1 R) as (o & k & -> & D & G1 & G2). cbn [bind].
  exists k. split; [exact D|]. split.
  - intros G Ev. destruct (G1 G Ev) as (i & -> & Vi & Ri & Ei). cbn [bind]. eexists. split; [reflexivity|]. split; [|exact Ei]. split; [reflexivity|]. split; [exact Vi|exact Ri].
  - intros G. rewrite (G2 G). reflexivity.
Qed.
Lemma negative_inverse_refute : exists p x y r1 r2, modulus_ok fx_c p /\ elem fx_c p x /\
  field_op fx_c ElementRight FTimes x (KInt (-3)) = Ok r1 /\ value (fv r1) = -29 /\ Z.gcd (-29) (value p) = 1 /\ fe_inv fx_c r1 = Abort /\
  value y = -29 /\ fe_div_of fx_c x y = Abort /\
  field_op fx_c ElementRight FTimes x (KInt (-2)) = Ok r2 /\ value (fv r2) = -53 /\ (exists i, fe_inv fx_c r2 = Ok i /\ (-53 * value (fv i)) mod value p = 1).
Proof.
  exists (fx 101), (fxe 77 101), (fx (-29)). eexists. eexists. split; [apply fx_mod; lia|]. split; [apply fx_elem; lia|].
  split; [vm_compute; reflexivity|]. split; [vm_compute; reflexivity|]. split; [vm_compute; reflexivity|]. split; [vm_compute; reflexivity|].
  split; [vm_compute; reflexivity|]. split; [vm_compute; reflexivity|]. split; [vm_compute; reflexivity|]. split; [vm_compute; reflexivity|].
  eexists. split; vm_compute; reflexivity.
Qed.
