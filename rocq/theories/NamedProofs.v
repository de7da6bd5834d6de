(** The named curves: what their declarations construct. *)
From Coq Require Import Ascii String List ZArith Znumtheory Bool Lia.
From Verif Require Import Outcome UtilsModel UtilsSpec UtilsProofs LoopModel WordsModel WordsSpec WordsProofs BigintModel BigintSpec BigintProofs BigintBits BigintBytes BigintClaims NumModel NumProofs JacobiSpec FpModel FpSpec FpProofs FpSqrt FpClaims EcGroup EcGroupProofs ZpField EcModel EcSpec EcScalar EcFeSpec EcTransfer EcCurveModel EcClaims EcLaws EcCurveSpec EcCodec EcCurveClaims EcdsaModel EcdsaSpec EcdsaProofs EcdsaRecover EcdsaClaims EcdsaExamples NamedModel NamedSpec.
Import ListNotations.
Open Scope Z_scope.

(** hex literals *)
Lemma digit_hex a d : digit a = Some d -> hex_digit (Z.of_N (N_of_ascii a)) d.
Proof.
  unfold digit. set (z := Z.of_N (N_of_ascii a)). clearbody z. destruct (Z.leb_spec 48 z); cbn [andb].
  - destruct (Z.leb_spec z 57).
    + intros E. injection E as <-. replace z with (48 + (z - 48)) at 1 by lia. constructor. lia.
    + destruct (Z.leb_spec 97 z); cbn [andb]; [|discriminate]. destruct (Z.leb_spec z 102); [|discriminate].
      intros E. injection E as <-. replace z with (97 + (z - 87 - 10)) at 1 by lia. constructor. lia.
  - destruct (Z.leb_spec 97 z); cbn [andb]; [|discriminate]. lia.
Qed.
Lemma hexnum_text k : forall s acc v, (String.length s = 2 * k)%nat -> hexnum acc s = Some v -> exists b, hex_text (chars s) b /\ length b = k /\ v = be_value_acc acc b.
Proof.
  induction k as [|k IH]; intros s acc v L H.
  - destruct s; [|discriminate]. injection H as <-. exists []. repeat split. constructor.
  - destruct s as [|x [|y s]]; try (cbn in L; lia). cbn [hexnum] in H. destruct (digit x) as [h|] eqn:Hx; [|discriminate]. destruct (digit y) as [l|] eqn:Hy; [|discriminate].
    destruct (IH s _ _ ltac:(cbn in L; lia) H) as (b & T & Lb & E). exists (16 * h + l :: b). split; [|split].
    + constructor; [apply digit_hex; exact Hx|apply digit_hex; exact Hy|exact T].
    + cbn. lia.
    + rewrite E. cbn [be_value_acc]. f_equal. ring.
Qed.
Lemma hex_text_bytes s b : hex_text s b -> all_bytes b.
Proof.
  induction 1 as [|c d h l s b H1 H2 H IH]; constructor; [|exact IH]. apply hex_digit_range in H1. apply hex_digit_range in H2. unfold is_byte. lia.
Qed.
(** a literal of 2k digits that fits makes the number it writes *)
Lemma literal_claim c s k v : (String.length s = 2 * k)%nat -> hexnum 0 s = Some v -> room c (Nat.max 1 ((k + 3) / 4)) ->
  exists r, of_hex_literal c s = Ok r /\ canonical c r /\ value r = v.
Proof.
  intros L H R. destruct (hexnum_text k s 0 v L H) as (b & T & Lb & E). unfold of_hex_literal. rewrite (from_hex_literal_text _ _ T). cbn [bind].
  subst k. destruct (of_bytes_claim c b (hex_text_bytes _ _ T) R) as (r & K & Cr & V). exists r. split; [exact K|]. split; [exact Cr|]. rewrite V, E. reflexivity.
Qed.

(** the decidable part of the claim about the parameters m *)
Definition lit_ok (bits : Z) (s : string) : bool :=
  Nat.even (String.length s) && Nat.leb (String.length s) (8 * words_for bits) && match hexnum 0 s with Some _ => true | None => false end.
Definition params_ok (m : params) : bool :=
  let p := hexval (pm_p m) in let a := hexval (pm_a m) in let b := hexval (pm_b m) in let gx := hexval (pm_gx m) in let gy := hexval (pm_gy m) in let n := hexval (pm_n m) in let h := pm_h m in
  lit_ok (pm_bits m) (pm_p m) && lit_ok (pm_bits m) (pm_a m) && lit_ok (pm_bits m) (pm_b m) && lit_ok (pm_bits m) (pm_gx m) && lit_ok (pm_bits m) (pm_gy m) && lit_ok (pm_bits m) (pm_n m) &&
  (0 <? pm_bits m) && (8 <? p) && (Z.log2 p + 1 =? pm_bits m) && (a <? p) && (b <? p) && (gx <? p) && (gy <? p) && negb ((4 * a ^ 3 + 27 * b ^ 2) mod p =? 0) && ((gy ^ 2) mod p =? (gx ^ 3 + a * gx + b) mod p) &&
  (2 <? n) && (n <? p) && (p <=? 2 * n) && (1 <=? h) && ((p + 1 - n * h) ^ 2 <=? 4 * p) && negb (b =? 0) && negb (gx =? 0).
Lemma params_all : forallb params_ok named_curves = true. Proof. vm_compute. reflexivity. Qed.
Lemma params_in m : In m named_curves -> params_ok m = true.
Proof. pose proof params_all as H. rewrite forallb_forall in H. apply H. Qed.
Lemma named_room wasm m k : (k <= words_for (pm_bits m) * 2)%nat -> room (named_cap wasm m) k.
Proof. intros H. unfold named_cap. destruct (_ && _); cbn [room]; [exact I|exact H]. Qed.
Lemma lit_claim wasm m s : 0 < pm_bits m -> lit_ok (pm_bits m) s = true -> exists r, of_hex_literal (named_cap wasm m) s = Ok r /\ canonical (named_cap wasm m) r /\ value r = hexval s.
Proof.
  intros B H. unfold lit_ok in H. apply andb_prop in H. destruct H as (H & N). apply andb_prop in H. destruct H as (E & L). apply Nat.even_spec in E. destruct E as (k & E). apply Nat.leb_le in L.
  destruct (hexnum 0 s) as [v|] eqn:V; [|discriminate]. unfold hexval. rewrite V. apply (literal_claim _ s k); [exact E|exact V|]. apply named_room.
  assert (W : (1 <= words_for (pm_bits m))%nat) by (unfold words_for; assert (1 <= (pm_bits m + 31) / 32) by (apply Z.div_le_lower_bound; lia); lia).
  assert ((k + 3) / 4 <= words_for (pm_bits m))%nat; [|lia]. assert ((k + 3) / 4 < words_for (pm_bits m) + 1)%nat; [|lia]. apply Nat.div_lt_upper_bound; lia.
Qed.
Lemma named_mod wasm m r v : valid (named_cap wasm m) r -> value r = v -> 1 < v -> v < 2 ^ pm_bits m -> 0 < pm_bits m -> modulus_ok (named_cap wasm m) r.
Proof.
  intros V E H1 H2 B. split; [exact V|]. split; [lia|]. apply named_room. assert (size r <= words_for (pm_bits m))%nat; [|lia].
  assert (W : pm_bits m <= 32 * ((pm_bits m + 31) / 32)) by (pose proof (Z.div_mod (pm_bits m + 31) 32); pose proof (Z.mod_pos_bound (pm_bits m + 31) 32); lia).
  unfold words_for. apply (size_le_iff _ r _ V); [lia|]. rewrite Bn_pow2, (abs_magnitude _ r V), E, Z.abs_eq by lia. eapply Z.lt_le_trans; [exact H2|]. apply Z.pow_le_mono_r; lia.
Qed.
Lemma params_parts m : params_ok m = true ->
  (lit_ok (pm_bits m) (pm_p m) = true /\ lit_ok (pm_bits m) (pm_a m) = true /\ lit_ok (pm_bits m) (pm_b m) = true /\ lit_ok (pm_bits m) (pm_gx m) = true /\ lit_ok (pm_bits m) (pm_gy m) = true /\ lit_ok (pm_bits m) (pm_n m) = true) /\
  0 < pm_bits m /\ 8 < hexval (pm_p m) /\ bitlen (hexval (pm_p m)) = pm_bits m /\ consistent (hexval (pm_p m)) (hexval (pm_a m)) (hexval (pm_b m)) (hexval (pm_gx m)) (hexval (pm_gy m)) (hexval (pm_n m)) (pm_h m) /\
  2 < hexval (pm_n m) < hexval (pm_p m) /\ hexval (pm_p m) <= 2 * hexval (pm_n m) /\ hexval (pm_b m) <> 0 /\ hexval (pm_gx m) <> 0.
Proof.
  unfold params_ok. intros H. repeat (match type of H with _ && _ = true => idtac end; let H1 := fresh "H" in apply andb_prop in H; destruct H as (H & H1)).
  assert (Q : forall s, lit_ok (pm_bits m) s = true -> 0 <= hexval s).
  { intros s K. unfold lit_ok in K. apply andb_prop in K. destruct K as (K & N). apply andb_prop in K. destruct K as (E & _). apply Nat.even_spec in E. destruct E as (k & E).
    unfold hexval. destruct (hexnum 0 s) as [v|] eqn:V; [|discriminate]. destruct (hexnum_text k s 0 v E V) as (b & T & _ & ->). apply (be_range b), (hex_text_bytes _ _ T). }
  split; [tauto|]. unfold consistent. repeat match goal with K : lit_ok _ ?s = true |- _ => pose proof (Q s K); revert K end. intros _ _ _ _ _ _.
  repeat match goal with K : (_ <? _) = true |- _ => apply Z.ltb_lt in K | K : (_ <=? _) = true |- _ => apply Z.leb_le in K | K : (_ =? _) = true |- _ => apply Z.eqb_eq in K | K : negb (_ =? _) = true |- _ => apply negb_true_iff, Z.eqb_neq in K end.
  unfold bitlen. repeat split; first [assumption | lia].
Qed.
Lemma named_claim wasm m : params_ok m = true -> exists C, named_curve wasm m = Ok C /\
  holds (named_cap wasm m) C (hexval (pm_p m)) (hexval (pm_a m)) (hexval (pm_b m)) (hexval (pm_gx m)) (hexval (pm_gy m)) (hexval (pm_n m)) (pm_h m).
Proof.
  intros H. destruct (params_parts m H) as ((Lp & La & Lb & Lx & Ly & Ln) & B & P8 & BL & (P3 & Ra & Rb & Rx & Ry & _ & _ & N1 & _ & _) & N2 & _ & _ & _). clear H.
  destruct (lit_claim wasm m _ B Lp) as (p & Kp & (Vp & _) & Ep). destruct (lit_claim wasm m _ B La) as (a & Ka & (Va & _) & Ea). destruct (lit_claim wasm m _ B Lb) as (b & Kb & (Vb & _) & Eb).
  destruct (lit_claim wasm m _ B Lx) as (x & Kx & (Vx & _) & Ex). destruct (lit_claim wasm m _ B Ly) as (y & Ky & (Vy & _) & Ey). destruct (lit_claim wasm m _ B Ln) as (n & Kn & (Vn & _) & En).
  unfold named_curve. rewrite Kp, Ka, Kb, Kx, Ky, Kn. cbn [bind].
  assert (PB : hexval (pm_p m) < 2 ^ pm_bits m) by (rewrite <- BL; unfold bitlen; replace (Z.log2 (hexval (pm_p m)) + 1) with (Z.succ (Z.log2 (hexval (pm_p m)))) by lia; apply Z.log2_spec; lia).
  pose proof (named_mod wasm m p _ Vp Ep ltac:(lia) PB B) as Mp. pose proof (named_mod wasm m n _ Vn En ltac:(lia) ltac:(lia) B) as Mn.
  unfold curve_make, make_field_element. rewrite !(make_integer (named_cap wasm m) p) by assumption.
  replace ((0 <=? value x) && (value x <? value p)) with true by lia. replace ((0 <=? value y) && (value y <? value p)) with true by lia. cbn [check bind].
  eexists. split; [reflexivity|]. unfold holds. cbn [cu_p cu_a cu_b cu_g cu_n cu_h cu_a_is_zero cu_a_is_minus_3 cu_p_minus_n].
  assert (sub3 : valid (named_cap wasm m) (subs1 (named_cap wasm m) false (zero (named_cap wasm m)) p 3) /\ value (subs1 (named_cap wasm m) false (zero (named_cap wasm m)) p 3) = value p - 3)
    by (apply subs1_spec; [apply (zst _ p Mp)|apply Mp|unfold int32; lia|apply (room_1 _ p Mp)|discriminate]).
  destruct sub3 as (V3 & E3). destruct (compare_claim _ a _ Va V3) as (-> & _). rewrite (is_zero_spec _ a Va), (abs_magnitude _ a Va), E3, Ea, Ep.
  assert (PN : valid (named_cap wasm m) (op_sub (named_cap wasm m) p n) /\ value (op_sub (named_cap wasm m) p n) = value p - value n).
  { destruct (le_ge_dec (size p) (size n)) as [L|L].
    - apply (op_sub_val _ n Mn); [exact Vp|exact Vn|exact L|apply le_n].
    - apply (op_sub_val _ p Mp); [exact Vp|exact Vn|apply le_n|exact L]. }
  destruct PN as (Vpn & Epn). split; [exact Mp|]. split; [reflexivity|]. split; [split; [exact Va|lia]|]. split; [reflexivity|]. split; [split; [exact Vb|lia]|]. split; [exact Eb|]. split.
  - exists (mkfe x (Some p)), (mkfe y (Some p)). cbn [fv]. split; [reflexivity|]. split; [split; [reflexivity|split; [exact Vx|cbn [fv]; lia]]|]. split; [exact Ex|]. split; [split; [reflexivity|split; [exact Vy|cbn [fv]; lia]]|exact Ey].
  - split; [exact Mn|]. split; [exact En|]. split; [reflexivity|]. split; [rewrite Z.abs_eq by lia; reflexivity|]. split; [reflexivity|]. split; [exact Vpn|]. rewrite Epn, Ep, En. reflexivity.
Qed.
(** the point classes see the coefficients the theorems about points assume *)
Lemma holds_coeffs c C p a b gx gy n h : 3 < p -> holds c C p a b gx gy n h -> cu_coeffs c C = coeffs_of c (cu_p C) (cu_a C) (cu_b C).
Proof.
  intros P3 (Mp & Ep & (Va & Ra) & Ea & _ & _ & _ & _ & _ & _ & Fz & F3 & _). unfold cu_coeffs, coeffs_of. f_equal.
  - rewrite Fz, (is_zero_spec _ _ Va), (abs_magnitude _ _ Va), Z.abs_eq, Ea by lia. reflexivity.
  - assert (S3 : valid c (subs1 c false (zero c) (cu_p C) 3) /\ value (subs1 c false (zero c) (cu_p C) 3) = value (cu_p C) - 3)
      by (apply subs1_spec; [apply (zst _ _ Mp)|apply Mp|unfold int32; lia|apply (room_1 _ _ Mp)|discriminate]).
    destruct S3 as (V3 & E3). destruct (compare_claim _ (cu_a C) _ Va V3) as (-> & _). rewrite F3, E3, Ea, Ep. reflexivity.
Qed.
Lemma holds_curve c C p a b gx gy n h (Pp : prime (value (cu_p C))) : holds c C p a b gx gy n h -> consistent p a b gx gy n h -> curve_base c C Pp.
Proof.
  intros HH (P3 & _ & _ & _ & _ & D & _). split; [|apply (holds_coeffs c C p a b gx gy n h P3 HH)]. destruct HH as (Mp & Ep & Ha & Ea & Hb & Eb & _).
  split; [exact Mp|]. split; [lia|]. split; [exact Ha|]. split; [exact Hb|]. intros Z0. apply D. apply (f_equal (@zval (value (cu_p C)))) in Z0. unfold GFp, EcFeSpec.kval in Z0. rewrite zp_disc, zval_mk in Z0.
  rewrite Ea, Eb in Z0. rewrite Ep in Z0 at 1. rewrite <- Ep. replace (4 * a ^ 3 + 27 * b ^ 2) with (4 * a * a * a + 27 * b * b) by ring. rewrite Ep, Z0. change (0 mod value (cu_p C) = 0). apply Z.mod_0_l. lia.
Qed.
(** parameters whose moduli are prime make a curve object to which the theorems about ECDSA apply *)
Lemma holds_ecdsa c C p a b gx gy n h (Pp : prime (value (cu_p C))) : holds c C p a b gx gy n h -> consistent p a b gx gy n h -> 8 < p -> prime n -> ecdsa_curve c C Pp.
Proof.
  intros HH CC P8 Pn. pose proof (holds_curve c C p a b gx gy n h Pp HH CC) as CB. destruct HH as (Mp & Ep & Ha & Ea & Hb & Eb & (x & y & Eg & Hx & Ex & Hy & Ey) & Mn & En & _).
  split; [exact CB|]. split; [lia|]. split; [rewrite Eg; exact (conj Hx Hy)|]. split; [|split; [exact Mn|rewrite En; exact Pn]].
  destruct (aff_pt (cu_p C) Pp (cu_g C)) eqn:E; [exact I|]. rewrite <- E. rewrite Eg in *. unfold aff_pt in *. cbn [option_map fst snd abs_aff] in *. destruct (_ && _); [discriminate|].
  apply (on_satisfies C Pp). destruct CC as (_ & _ & _ & _ & _ & _ & ON & _). unfold satisfies, rhs. rewrite Ex, Ey, Ea, Eb, Ep. replace (gy * gy) with (gy ^ 2) by ring. replace (gx * gx * gx) with (gx ^ 3) by ring. exact ON.
Qed.
