(** The actions of the example contract. *)
From Coq Require Import List ZArith Znumtheory Bool Lia.
From Verif Require Import Outcome UtilsModel UtilsSpec UtilsProofs LoopModel WordsModel WordsSpec BigintModel BigintSpec BigintProofs BigintBits BigintBytes BigintClaims NumModel FpModel FpSpec FpProofs FpClaims EcGroup EcGroupProofs ZpField EcModel EcSpec EcExact EcScalar EcFeSpec EcTransfer EcCurveModel EcClaims EcLaws EcCurveSpec EcCodec EcCurveClaims EcdsaModel EcdsaSpec EcdsaProofs EcdsaRecover EcdsaClaims NamedModel NamedSpec NamedProofs CurveVerify EcKey GroupSpec NamedGroup EcSafe EcdsaSafe ContractModel ContractSpec.
Import ListNotations.
Open Scope Z_scope.

Section ACT.
Variable c : cap.
Variable C : curve.
Variable Pp : prime (value (cu_p C)).
Hypothesis EC : ecdsa_curve c C Pp.
Hypothesis PN : value (cu_p C) <= 2 * value (cu_n C).
Notation p := (cu_p C). Notation P := (value (cu_p C)). Notation n := (cu_n C). Notation N := (value (cu_n C)). Notation F := (GFp p Pp).
Notation A := (kval p Pp (cu_a C)). Notation B := (kval p Pp (cu_b C)). Notation G := (aff_pt p Pp (cu_g C)). Notation O := (fe_ops c p).

Lemma room1 : room c 1.
Proof. destruct (eHn c C Pp EC) as (_ & _ & R). apply (room_le c (2 * size n)); [exact R|]. pose proof (eHn c C Pp EC) as (V & _). destruct V as (_ & S & _). lia. Qed.
Lemma bytes_cases d : all_bytes d -> (storable c d /\ exists x, of_bytes c d = Ok x /\ valid c x /\ value x = be_value d /\ 0 <= be_value d) \/ (~ storable c d /\ of_bytes c d = Abort).
Proof.
  intros Ad. unfold storable. assert (D : room c ((length d + 3) / 4) \/ ~ room c ((length d + 3) / 4)) by (clear; destruct c as [k|]; cbn [room]; [lia|left; exact I]).
  destruct D as [D|D]; [left; split; [exact D|]|right; split; [exact D|apply of_bytes_fail, D]].
  destruct (of_bytes_claim c d Ad) as (x & K & (V & _) & E). { pose proof room1 as R1. clear - D R1. destruct c as [k|]; cbn [room] in *; [lia|exact I]. }
  exists x. pose proof (be_range d Ad) as (R0 & _). auto.
Qed.
(** the key object *)
Notation obj x y := (Some (mkfe x (Some p), mkfe y (Some p))).
Lemma obj_good x y : valid c x -> valid c y -> 0 <= value x < P -> 0 <= value y < P -> good2 c p (obj x y).
Proof. intros. split; (split; [reflexivity|split; [assumption|cbn [fv]; lia]]). Qed.
Lemma make_key x y : valid c x -> valid c y -> 0 <= value x -> 0 <= value y ->
  (value x < P /\ value y < P /\ make_point c C x y false = Ok (obj x y) /\ good2 c p (obj x y)) \/ (~ (value x < P /\ value y < P) /\ make_point c C x y false = Abort).
Proof.
  intros Vx Vy X0 Y0. destruct (make_point_claim c C Pp x y false (eCB c C Pp EC) (proj1 (eHn c C Pp EC)) ltac:(discriminate) Vx Vy) as (K1 & K2).
  destruct (Z_lt_dec (value x) P) as [Lx|Lx]; [destruct (Z_lt_dec (value y) P) as [Ly|Ly]|].
  - left. destruct K1 as (K & Gq); [split; [lia|split; [lia|discriminate]]|]. auto.
  - right. split; [lia|]. apply K2. intros (_ & H & _). lia.
  - right. split; [lia|]. apply K2. intros (H & _). lia.
Qed.

(** whatever the strings, the action succeeds or aborts *)
Lemma action_total hash qx qy msg h r s : all_bytes qx -> all_bytes qy -> all_bytes r -> all_bytes s -> hash msg = Ok h -> all_bytes h ->
  check_ecdsa c C hash qx qy msg r s = Ok tt \/ check_ecdsa c C hash qx qy msg r s = Abort.
Proof.
  intros Ax Ay Ar As Eh Ah. unfold check_ecdsa.
  destruct (bytes_cases qx Ax) as [(_ & x & -> & Vx & Ex & X0)|(_ & ->)]; [|right; reflexivity]. destruct (bytes_cases qy Ay) as [(_ & y & -> & Vy & Ey & Y0)|(_ & ->)]; [|right; reflexivity]. cbn [bind].
  destruct (make_key x y Vx Vy ltac:(lia) ltac:(lia)) as [(Lx & Ly & -> & Gq)|(_ & ->)]; [|right; reflexivity]. cbn [bind]. rewrite Eh. cbn [bind].
  destruct (bytes_cases r Ar) as [(_ & r' & -> & Vr & Er & R0)|(_ & ->)]; [|right; reflexivity]. destruct (bytes_cases s As) as [(_ & s' & -> & Vs & Es & S0)|(_ & ->)]; [|right; reflexivity]. cbn [bind].
  unfold assert_ecdsa. destruct (verify_any c C Pp EC (obj x y) h r' s' Gq Ah Vr Vs) as (v & -> & _). cbn [bind]. destruct v; [left|right]; reflexivity.
Qed.

(** for a key on the curve the action succeeds exactly on valid input *)
Lemma action_exact hash qx qy msg h r s : value (cu_b C) <> 0 -> all_bytes qx -> all_bytes qy -> all_bytes r -> all_bytes s -> hash msg = Ok h -> all_bytes h -> fits_order C h ->
  satisfies C (be_value qx) (be_value qy) ->
  (action_valid c C Pp qx qy h r s -> check_ecdsa c C hash qx qy msg r s = Ok tt) /\ (~ action_valid c C Pp qx qy h r s -> check_ecdsa c C hash qx qy msg r s = Abort).
Proof.
  intros B0 Ax Ay Ar As Eh Ah Fh SA. unfold check_ecdsa, action_valid.
  destruct (bytes_cases qx Ax) as [(Sx & x & -> & Vx & Ex & X0)|(Sx & ->)]; [|split; [tauto|reflexivity]]. destruct (bytes_cases qy Ay) as [(Sy & y & -> & Vy & Ey & Y0)|(Sy & ->)]; [|split; [tauto|reflexivity]]. cbn [bind].
  destruct (make_key x y Vx Vy ltac:(lia) ltac:(lia)) as [(Lx & Ly & -> & Gq)|(NL & ->)]; [|split; [intros (_ & _ & _ & _ & K1 & K2 & _); exfalso; apply NL; lia|reflexivity]]. cbn [bind]. rewrite Eh. cbn [bind].
  destruct (bytes_cases r Ar) as [(Sr & r' & -> & Vr & Er & R0)|(Sr & ->)]; [|split; [tauto|reflexivity]]. destruct (bytes_cases s As) as [(Ss & s' & -> & Vs & Es & S0)|(Ss & ->)]; [|split; [tauto|reflexivity]]. cbn [bind].
  assert (EQ : aff_pt p Pp (obj x y) = key_point C Pp qx qy).
  { unfold aff_pt, option_map, fst, snd, abs_aff, fval, key_point. cbn [fv]. rewrite Ex, Ey. destruct (_ && _) eqn:Z0; [|reflexivity]. exfalso. apply andb_prop in Z0. destruct Z0 as (Zx & Zy).
    apply (fb_true F) in Zx, Zy. apply (f_equal (@zval P)) in Zx, Zy. rewrite zval_mk in Zx, Zy. change (@zval P (0%f : F)) with (0 mod P) in Zx, Zy.
    pose proof (cP3 c C Pp (eCB c C Pp EC)). rewrite Z.mod_0_l in Zx, Zy by lia. rewrite Z.mod_small in Zx, Zy by lia. unfold satisfies, rhs in SA. rewrite Zx, Zy in SA.
    replace (0 * 0) with 0 in SA by lia. replace (0 * 0 + value (cu_a C) * 0 + value (cu_b C)) with (value (cu_b C)) in SA by lia. destruct (eCO c C Pp EC) as (_ & _ & _ & (_ & Rb) & _). rewrite Z.mod_0_l, Z.mod_small in SA by lia. lia. }
  assert (ON : on_curve A B (key_point C Pp qx qy)).
  { cbn [on_curve key_point]. unfold kval. rewrite !(hom_mul C Pp), !(hom_add C Pp). apply zmk_eq. exact SA. }
  rewrite <- EQ in *. destruct (verify_std c C Pp EC (obj x y) h r' s' PN Gq ON Ah Fh Vr Vs) as (v & K & HV). unfold assert_ecdsa. rewrite K. cbn [bind]. rewrite Er, Es in HV. destruct v; cbn [check].
  - split; [reflexivity|]. intros NA. exfalso. apply NA. repeat (split; [first [assumption|lia]|]). apply HV. reflexivity.
  - split; [|reflexivity]. intros (_ & _ & _ & _ & _ & _ & K2). apply HV in K2. discriminate.
Qed.

(** a key off the curve with an accepted signature *)
Lemma action_off hash msg h : all_bytes h -> N < P -> hash msg = Ok h -> fits_order C h -> leftmost (bitlen N) h mod N <> 0 ->
  (forall x y, G = Aff x y -> coord p Pp x <> leftmost (bitlen N) h mod N) -> G <> Inf ->
  exists qx qy r, all_bytes qx /\ all_bytes qy /\ all_bytes r /\ be_value qx < P /\ be_value qy < P /\ ~ satisfies C (be_value qx) (be_value qy) /\ check_ecdsa c C hash qx qy msg r r = Ok tt.
Proof.
  intros Ah NP Eh Fh E0 EG G0. rewrite <- (digest_bits c n (eHn c C Pp EC) h Ah Fh) in E0, EG. destruct (off_curve_key c C Pp EC h Ah PN NP E0 EG G0) as (x & y & NO & HV).
  pose proof (eN1 c C Pp EC) as N1. pose proof (Z.mod_pos_bound (lead n h) N ltac:(lia)) as Re.
  assert (EN : forall v, 0 <= v < P -> all_bytes (octets (plen C) v) /\ be_value (octets (plen C) v) = v /\ exists b, of_bytes c (octets (plen C) v) = Ok b /\ valid c b /\ value b = v).
  { intros v Rv. destruct (octets_spec _ _ (p_octets c C Pp (eCB c C Pp EC) v Rv)) as (Ab & Lb & Eb). destruct (decode_word c C Pp (eCB c C Pp EC) _ Ab Lb) as (b & K & Vb & Xb & _).
    split; [exact Ab|]. split; [exact Eb|]. exists b. rewrite Eb in Xb. auto. }
  pose proof (zval_range P x) as Rx. pose proof (zval_range P y) as Ry.
  destruct (EN _ Rx) as (Ax & Ex & bx & Kx & Wx & Bx). destruct (EN _ Ry) as (Ay & Ey & by_ & Ky & Wy & By). destruct (EN (lead n h mod N) ltac:(lia)) as (Ar & Er & br & Kr & Wr & Br).
  exists (octets (plen C) (zval x)), (octets (plen C) (zval y)), (octets (plen C) (lead n h mod N)). rewrite Ex, Ey. do 3 (split; [assumption|]). split; [apply Rx|]. split; [apply Ry|]. split.
  - intros SA. apply NO. rewrite <- (zmk_val P Pp x), <- (zmk_val P Pp y). cbn [on_curve]. unfold kval. rewrite !(hom_mul C Pp), !(hom_add C Pp). apply zmk_eq. exact SA.
  - unfold check_ecdsa. rewrite Kx, Ky, Kr. cbn [bind]. destruct (make_key bx by_ Wx Wy ltac:(lia) ltac:(lia)) as [(_ & _ & -> & Gk)|(K & _)]; [|exfalso; apply K; lia]. cbn [bind]. rewrite Eh. cbn [bind]. unfold assert_ecdsa.
    rewrite (HV (obj bx by_) br br Gk); [reflexivity| |exact Wr|exact Wr|exact Br|exact Br]. cbn [raw_pt]. unfold fval. cbn [fv]. rewrite Bx, By, (zmk_val P Pp x), (zmk_val P Pp y). reflexivity.
Qed.
End ACT.
