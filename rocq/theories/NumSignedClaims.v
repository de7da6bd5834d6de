(** The statements of NumSignedProperties.v, from NumSigned.v and JacobiEven.v. *)
From Coq Require Import List ZArith Bool Lia PeanoNat Znumtheory.
From Verif Require Import Outcome LoopModel WordsModel WordsSpec BigintModel BigintSpec BigintProofs BigintClaims
  NumModel NumProofs NumClaims NumLcm NegInvSpec NegInvProofs NumSigned JacobiSpec JacobiEven.
Import ListNotations.
Open Scope Z_scope.

Lemma gcd_any_claim c x y : valid c x -> valid c y ->
  exists r, gcd c x y = Ok r /\ valid c r /\ Z.abs (value r) = Z.gcd (value x) (value y).
Proof. intros Hx Hy. destruct (gcd_spec c x y Hx Hy) as (r & E & V & A & _). exists r. auto. Qed.

Lemma gcd_negative_refute c x y : valid c x -> valid c y -> value x <= 0 -> value y <= 0 -> value x <> 0 \/ value y <> 0 ->
  exists r, gcd c x y = Ok r /\ valid c r /\ value r = - Z.gcd (value x) (value y) /\ value r < 0.
Proof.
  intros Hx Hy Px Py N. destruct (gcd_nonpos c x y Hx Hy Px Py) as (r & E & V & A). exists r. split; [exact E|]. split; [exact V|]. split; [exact A|].
  pose proof (Z.gcd_nonneg (value x) (value y)). destruct (Z.eq_dec (Z.gcd (value x) (value y)) 0) as [Q|]; [apply Z.gcd_eq_0 in Q|]; lia.
Qed.

Lemma modinv_negm_claim c y x m : valid c y -> valid c x -> valid c m -> 0 < value x -> value m < -1 ->
  room c (Nat.max (size x) (size m) + 1) ->
  exists o k, modinv c y x m = Ok o /\ divisions (- value m) (value x) k /\
  (Z.gcd (value x) (value m) = 1 -> Nat.even k = false ->
     exists r, o = Some r /\ valid c r /\ 0 <= value r < - value m /\ (value x * value r) mod (- value m) = 1) /\
  (Z.gcd (value x) (value m) <> 1 \/ Nat.even k = true -> o = None).
Proof.
  intros Hy Hx Hm Px Pm R. destruct (modinv_negm_spec c y x m Hy Hx Hm Px Pm R) as (o & k & E & D & P). exists o, k. split; [exact E|]. split; [exact D|].
  destruct o as [r|].
  - destruct P as (V & Br & M & K). split; [intros _ _; exists r; auto|]. intros [G|Q]; [exfalso|rewrite K in Q; discriminate Q].
    apply G. set (g := Z.gcd (value x) (value m)) in *.
    assert (D1 : (g | 1)). { pose proof (Z.div_mod (value x * value r) (- value m) ltac:(lia)) as DM. rewrite M in DM.
      replace 1 with (value x * value r - - value m * (value x * value r / - value m)) by lia. apply Z.divide_sub_r; apply Z.divide_mul_l; [apply Z.gcd_divide_l|].
      apply Z.divide_opp_r. apply Z.gcd_divide_r. }
    pose proof (Z.gcd_nonneg (value x) (value m)). apply Z.divide_1_r_nonneg; assumption.
  - split; [|reflexivity]. intros G K. destruct P as [P|P]; [contradiction|rewrite K in P; discriminate P].
Qed.
