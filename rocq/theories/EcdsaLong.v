(** Key recovery for digests of more than twice the order: n - e is negative, its product has a negative remainder, and
    the digits of a negative number are none, so the generator is left out. *)
From Coq Require Import List ZArith Znumtheory Bool Lia.
From Verif Require Import Outcome LoopModel WordsModel WordsSpec UtilsSpec WordsProofs BigintModel BigintSpec BigintProofs BigintBits BigintBytes BigintClaims NumModel NumProofs FpModel FpSpec FpProofs FpClaims EcGroup EcGroupProofs ZpField EcModel EcSpec EcScalar EcFeSpec EcTransfer EcCurveModel EcClaims EcdsaModel EcdsaSpec EcdsaProofs EcdsaClaims.
Import ListNotations.
Open Scope Z_scope.

Lemma rnaf_nonpos c x : valid c x -> value x <= 0 -> to_rnaf c x = Ok [].
Proof.
  intros V L. assert (S0 : naf_step c (x, []) = Done (Ok [])).
  { cbn [naf_step]. unfold compareu1. destruct (neg x) eqn:N; [reflexivity|].
    pose proof (compareu1_spec c x 0 V ltac:(rewrite B_val; lia) (fun _ => N)) as C. unfold cmp_result, compareu1 in C. rewrite N in C.
    replace ((if Nat.ltb 1 (size x) then 1 else if word0 x >? 0 then 1 else if word0 x =? 0 then 0 else -1) >? 0) with false; [reflexivity|]. symmetry. lia. }
  unfold to_rnaf, to_naf, run_loop. assert (H : forall k, loop2 k (naf_step c) (x, []) = Done (Ok [])); [|rewrite H; reflexivity].
  induction k as [|k IH]; cbn [loop2]; [exact S0|]. rewrite IH. reflexivity.
Qed.

Lemma mul_add_digits {T : Type} (idn : T) inv add dbl c x x' (G : T) y Q : to_rnaf c x = to_rnaf c x' ->
  mul_add_fast idn inv add dbl c x G y Q = mul_add_fast idn inv add dbl c x' G y Q.
Proof. intros E. unfold mul_add_fast. rewrite E. reflexivity. Qed.

Section LONG.
Variable c : cap.
Variable C : curve.
Variable Pp : prime (value (cu_p C)).
Hypothesis EC : ecdsa_curve c C Pp.
Notation p := (cu_p C). Notation P := (value (cu_p C)). Notation n := (cu_n C). Notation N := (value (cu_n C)).
Notation O := (fe_ops c p).
Let Hn := eHn c C Pp EC.
Let N1 := eN1 c C Pp EC.
Let Pn := ePn c C Pp EC.
(** the exponent of the generator, for digests that are 0 or above 2n *)
Lemma exponent_none e w : valid c e -> (size e <= size n)%nat -> value e = 0 \/ N < value e -> reduced c n w ->
  exists ew, op_mod c (op_mul c (op_sub c n e) w) n = Ok ew /\ to_rnaf c ew = Ok [].
Proof.
  intros Ve Se H Rw. destruct (op_sub_val c n Hn n e ltac:(apply Hn) Ve (le_n _) Se) as (V1 & E1).
  assert (S1 : (size (op_sub c n e) <= size n)%nat).
  { pose proof (proj1 Hn) as Vn. apply (size_le_iff c _ (size n) V1); [apply Vn|]. pose proof (magnitude_range c n Vn) as M. rewrite Bn_pow2 in *. rewrite (abs_magnitude c) by exact V1. rewrite (abs_magnitude c) in M by exact Vn.
    pose proof (proj2 (size_le_iff c e (size n) Ve ltac:(apply Vn))) as Q.
    assert (ME : Z.abs (value e) < 2 ^ (32 * Z.of_nat (size n))). { rewrite <- Bn_pow2, <- (abs_magnitude c e Ve). apply (size_le_iff c e (size n) Ve); [apply Vn|exact Se]. }
    lia. }
  destruct (op_mul_val c n Hn (op_sub c n e) w V1 (proj1 Rw) S1 (red_size c n Hn w Rw)) as (V2 & E2).
  destruct (op_mod_val c n Hn _ V2) as (ew & K & Vw & Ew). exists ew. split; [exact K|]. apply rnaf_nonpos; [exact Vw|]. rewrite Ew, E2, E1.
  destruct H as [->|H].
  - rewrite Z.sub_0_r, Z.mul_comm, Z.rem_mul by lia. lia.
  - destruct Rw as (_ & Rw). rewrite <- (Z.opp_involutive ((N - value e) * value w)), Z.rem_opp_l by lia. pose proof (Z.rem_bound_pos (- ((N - value e) * value w)) N). nia.
Qed.
Lemma recover_none msg msg' r s id v : all_bytes msg -> all_bytes msg' -> valid c r -> valid c s ->
  (forall m, m = msg \/ m = msg' -> lead n m = 0 \/ 2 * N < lead n m) ->
  ecdsa_recover c C msg r s id v = ecdsa_recover c C msg' r s id v.
Proof.
  intros Am Am' Vr Vs L. unfold ecdsa_recover. destruct (out_of_range n r s || negb (Z.land id 3 =? id)) eqn:RG; [reflexivity|].
  apply orb_false_iff in RG. destruct RG as (RG & _). rewrite (range_claim c) in RG by (try assumption; apply Hn). apply negb_false_iff in RG.
  assert (Rr : reduced c n r) by (split; [exact Vr|lia]).
  destruct (negb (Z.shiftr id 1 =? 0) && negb (compare r (cu_p_minus_n C) <? 0)); [reflexivity|].
  destruct (digest_claim c n Hn msg Am) as (e & -> & Ve & Se & Ee & Le). destruct (digest_claim c n Hn msg' Am') as (e' & -> & Ve' & Se' & Ee' & Le'). cbn [bind].
  destruct (if negb (Z.shiftr id 1 =? 0) then _ else _) as [R| | |]; try reflexivity. cbn [bind]. destruct (aff_is_identity O R); [reflexivity|].
  destruct (if v then _ else _) as [ok| | |]; try reflexivity. cbn [bind]. destruct (negb ok); [reflexivity|].
  destruct (modinv_val c n Hn r Rr (prime_gcd c n Hn (value r) Pn ltac:(destruct Rr; lia))) as (w & -> & Rw & _). cbn [bind].
  assert (H : value e = 0 \/ N < value e). { rewrite Ee. destruct (L msg (or_introl eq_refl)) as [->|H]; [left|right]; destruct (Z.gtb_spec (lead n msg) N); destruct (Z.gtb_spec 0 N); lia. }
  assert (H' : value e' = 0 \/ N < value e'). { rewrite Ee'. destruct (L msg' (or_intror eq_refl)) as [->|H']; [left|right]; destruct (Z.gtb_spec (lead n msg') N); destruct (Z.gtb_spec 0 N); lia. }
  destruct (exponent_none e w Ve Se H Rw) as (ew & -> & D). destruct (exponent_none e' w Ve' Se' H' Rw) as (ew' & -> & D'). cbn [bind].
  destruct (op_mod c (op_mul c s w) n) as [sw| | |]; try reflexivity. cbn [bind]. unfold jac_mul_add. rewrite (mul_add_digits _ _ _ _ c ew ew') by (rewrite D, D'; reflexivity). reflexivity.
Qed.
Lemma recover_long msg r s id v : all_bytes msg -> valid c r -> valid c s -> 2 * N < leftmost (8 * byte_length n) msg ->
  ecdsa_recover c C msg r s id v = ecdsa_recover c C [] r s id v.
Proof.
  intros Am Vr Vs L. pose proof (byte_length_bounds c n (proj1 Hn)) as (B1 & _). rewrite <- lead_leftmost in L by (try exact Am; lia).
  apply recover_none; try assumption; [constructor|]. intros m [->| ->]; [right; exact L|left]. unfold lead. rewrite firstn_nil. reflexivity.
Qed.
End LONG.
