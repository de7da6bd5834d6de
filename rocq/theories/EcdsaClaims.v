(** ECDSA: the statements of the properties, the message integer in terms of bits, an example and the
    counterexamples. *)
From Coq Require Import List ZArith Znumtheory Bool Lia.
From Verif Require Import Outcome LoopModel WordsModel WordsSpec UtilsSpec WordsProofs BigintModel BigintSpec BigintProofs BigintBits BigintBytes BigintClaims NumModel NumProofs JacobiSpec FpModel FpSpec FpProofs FpSqrt FpClaims EcGroup EcGroupProofs ZpField EcModel EcSpec EcScalar EcFeSpec EcTransfer EcCurveModel EcClaims EcLaws EcCurveSpec EcCodec EcCurveClaims EcdsaModel EcdsaSpec EcdsaProofs EcdsaRecover.
Import ListNotations.
Open Scope Z_scope.

(** *** the message integer *)
Lemma be_firstn k msg : all_bytes msg -> be_value (firstn k msg) = be_value msg / 256 ^ Z.of_nat (length msg - k).
Proof.
  intros A. rewrite <- (firstn_skipn k msg) at 2. rewrite be_app, skipn_length. pose proof (be_range (skipn k msg) (bytes_skipn k msg A)) as R. rewrite skipn_length in R.
  rewrite Z.div_add_l by lia. rewrite Z.div_small by exact R. lia.
Qed.
Lemma lead_leftmost n msg : all_bytes msg -> 0 <= byte_length n -> lead n msg = leftmost (8 * byte_length n) msg.
Proof.
  intros A B0. unfold lead, leftmost. rewrite be_firstn by exact A. f_equal. change 256 with (2 ^ 8). rewrite <- Z.pow_mul_r by lia. f_equal. lia.
Qed.
Lemma leftmost_short b b' msg : 8 * Z.of_nat (length msg) <= b -> 8 * Z.of_nat (length msg) <= b' -> leftmost b msg = leftmost b' msg.
Proof. intros H H'. unfold leftmost. f_equal. f_equal. lia. Qed.
Section BITS.
Variable c : cap.
Variable n : bigint.
Hypothesis Hn : modulus_ok c n.
Lemma bytes_of_bits : 8 * (byte_length n - 1) < bitlen (value n) <= 8 * byte_length n.
Proof.
  destruct Hn as (V & N1 & _). destruct (byte_length_bounds c n V) as (A1 & A2 & A3). rewrite (mag_abs c n V) in * by lia. unfold bitlen. change 256 with (2 ^ 8) in *.
  rewrite <- Z.pow_mul_r in * by lia. pose proof (Z.log2_spec (value n) ltac:(lia)) as (L1 & L2). split.
  - destruct (Z.eq_dec (byte_length n) 1) as [E|E]; [rewrite E; pose proof (Z.log2_nonneg (value n)); lia|]. specialize (A3 ltac:(lia)).
    apply (Z.log2_le_pow2 (value n)) in A3; lia.
  - pose proof (proj1 (Z.log2_lt_pow2 (value n) (8 * byte_length n) ltac:(lia)) A2). lia.
Qed.
(** the message integer is the leftmost bits FIPS 186 asks for when the order has a whole number of bytes, or
    when the digest is not longer than the order *)
Lemma digest_bits msg : all_bytes msg -> bitlen (value n) mod 8 = 0 \/ 8 * Z.of_nat (length msg) <= bitlen (value n) ->
  lead n msg = leftmost (bitlen (value n)) msg.
Proof.
  intros A H. pose proof bytes_of_bits as B0. pose proof (byte_length_bounds c n (proj1 Hn)) as (B1 & _). rewrite lead_leftmost by (try exact A; lia). destruct H as [H|H].
  - f_equal. pose proof (Z.div_mod (bitlen (value n)) 8 ltac:(lia)). lia.
  - apply leftmost_short; lia.
Qed.
(** below twice the order *)
Lemma lead_below msg : all_bytes msg -> bitlen (value n) mod 8 = 0 \/ 8 * Z.of_nat (length msg) <= bitlen (value n) -> lead n msg < 2 * value n.
Proof.
  intros A H. rewrite digest_bits by assumption. destruct Hn as (V & N1 & _). unfold leftmost. set (l := 8 * Z.of_nat (length msg)). set (b := bitlen (value n)) in *.
  pose proof (be_range msg A) as R. assert (LB : 0 < b) by (unfold b, bitlen; pose proof (Z.log2_nonneg (value n)); lia).
  assert (E : be_value msg / 2 ^ (l - Z.min b l) < 2 ^ b).
  { apply Z.div_lt_upper_bound; [apply Z.pow_pos_nonneg; lia|]. rewrite <- Z.pow_add_r by lia. change 256 with (2 ^ 8) in R. rewrite <- Z.pow_mul_r in R by lia. fold l in R.
    pose proof (Z.pow_le_mono_r 2 l (l - Z.min b l + b) ltac:(lia) ltac:(lia)). lia. }
  assert (E2 : 2 ^ b <= 2 * value n). { unfold b, bitlen. pose proof (Z.log2_spec (value n) ltac:(lia)) as (L1 & _). rewrite Z.pow_add_r by (try lia; apply Z.log2_nonneg). lia. }
  lia.
Qed.
Lemma digest_bits_claim msg : all_bytes msg -> bitlen (value n) mod 8 = 0 \/ 8 * Z.of_nat (length msg) <= bitlen (value n) ->
  exists e, digest_int c n msg = Ok e /\ valid c e /\ 0 <= value e <= value n /\ value e mod value n = leftmost (bitlen (value n)) msg mod value n /\
    (leftmost (bitlen (value n)) msg <= value n -> value e = leftmost (bitlen (value n)) msg).
Proof.
  intros A H. destruct (digest_claim c n Hn msg A) as (e & K & V & _ & E & R). pose proof (lead_below msg A H). pose proof (digest_mod c n Hn msg e E) as M. rewrite <- digest_bits by assumption.
  exists e. split; [exact K|]. split; [exact V|]. split; [|split; [exact M|]]; rewrite E; destruct (Z.gtb_spec (lead n msg) (value n)); lia.
Qed.
(** in general whole bytes are taken: the leftmost byte_length n bytes *)
Lemma digest_bytes_claim msg : all_bytes msg ->
  exists e, digest_int c n msg = Ok e /\ valid c e /\ value e mod value n = leftmost (8 * byte_length n) msg mod value n /\ byte_length n = (bitlen (value n) + 7) / 8.
Proof.
  intros A. destruct (digest_claim c n Hn msg A) as (e & K & V & _ & E & R). pose proof (byte_length_bounds c n (proj1 Hn)) as (B1 & _).
  exists e. split; [exact K|]. split; [exact V|]. rewrite <- lead_leftmost by (try exact A; lia). split; [exact (digest_mod c n Hn msg e E)|].
  pose proof bytes_of_bits as B0. assert (byte_length n - 1 < (bitlen (value n) + 7) / 8 < byte_length n + 1); [|lia].
  split; [pose proof (Z.div_le_lower_bound (bitlen (value n) + 7) 8 (byte_length n) ltac:(lia) ltac:(lia)); lia|apply Z.div_lt_upper_bound; lia].
Qed.
End BITS.

(** *** the statements in terms of the standard *)
Section STD.
Variable c : cap.
Variable C : curve.
Variable Pp : prime (value (cu_p C)).
Hypothesis EC : ecdsa_curve c C Pp.
Notation p := (cu_p C). Notation P := (value (cu_p C)). Notation n := (cu_n C). Notation N := (value (cu_n C)).
Notation F := (GFp p Pp). Notation A := (kval p Pp (cu_a C)). Notation B := (kval p Pp (cu_b C)).
Notation G := (aff_pt p Pp (cu_g C)).
Notation on := (on_curve A B).
Notation e_of msg := (leftmost (bitlen (value (cu_n C))) msg).
Definition fits_order (msg : list Z) : Prop := bitlen N mod 8 = 0 \/ 8 * Z.of_nat (length msg) <= bitlen N.
Lemma verify_std q msg r s : P <= 2 * N -> good2 c p q -> on (aff_pt p Pp q) -> all_bytes msg -> fits_order msg -> valid c r -> valid c s ->
  exists v, ecdsa_verify c C q msg r s = Ok v /\ (v = true <-> accepts (coord p Pp) A G N (aff_pt p Pp q) (e_of msg) (value r) (value s)).
Proof.
  intros PN Gq Cq Am Fm Vr Vs. destruct (verify_claim c C Pp EC q msg r s Gq Cq Am Vr Vs) as (v & K & H1 & H2). exists v. split; [exact K|].
  rewrite <- (digest_bits c n (eHn c C Pp EC) msg Am Fm). split; auto.
Qed.
Lemma assert_std q msg r s : P <= 2 * N -> good2 c p q -> on (aff_pt p Pp q) -> all_bytes msg -> fits_order msg -> valid c r -> valid c s ->
  (accepts (coord p Pp) A G N (aff_pt p Pp q) (e_of msg) (value r) (value s) -> assert_ecdsa c C q msg r s = Ok tt) /\
  (~ accepts (coord p Pp) A G N (aff_pt p Pp q) (e_of msg) (value r) (value s) -> assert_ecdsa c C q msg r s = Abort).
Proof.
  intros PN Gq Cq Am Fm Vr Vs. destruct (verify_std q msg r s PN Gq Cq Am Fm Vr Vs) as (v & K & H). unfold assert_ecdsa. rewrite K. cbn [bind]. destruct v; split; intros X; try reflexivity.
  - exfalso. apply X, H. reflexivity.
  - apply H in X. discriminate.
Qed.
(** whatever the order and the digest, verification returns: no abort, no division by zero *)
Lemma verify_total q msg r s : good2 c p q -> on (aff_pt p Pp q) -> all_bytes msg -> valid c r -> valid c s -> exists v, ecdsa_verify c C q msg r s = Ok v.
Proof. intros Gq Cq Am Vr Vs. destruct (verify_claim c C Pp EC q msg r s Gq Cq Am Vr Vs) as (v & K & _). exists v. exact K. Qed.
(** soundness without any bound between p and n: what is accepted satisfies the equation for the byte-truncated digest *)
Lemma verify_sound q msg r s : good2 c p q -> on (aff_pt p Pp q) -> all_bytes msg -> valid c r -> valid c s -> ecdsa_verify c C q msg r s = Ok true ->
  accepts (coord p Pp) A G N (aff_pt p Pp q) (leftmost (8 * byte_length n) msg) (value r) (value s).
Proof.
  intros Gq Cq Am Vr Vs K. destruct (verify_claim c C Pp EC q msg r s Gq Cq Am Vr Vs) as (v & K' & H & _). rewrite K in K'. injection K' as <-.
  pose proof (byte_length_bounds c n (proj1 (eHn c C Pp EC))) as (B1 & _). rewrite <- lead_leftmost by (try exact Am; lia). apply H. reflexivity.
Qed.
Lemma verify_bytes q msg r s : P <= 2 * N -> good2 c p q -> on (aff_pt p Pp q) -> all_bytes msg -> valid c r -> valid c s ->
  exists v, ecdsa_verify c C q msg r s = Ok v /\ (v = true <-> accepts (coord p Pp) A G N (aff_pt p Pp q) (leftmost (8 * byte_length n) msg) (value r) (value s)).
Proof.
  intros PN Gq Cq Am Vr Vs. destruct (verify_claim c C Pp EC q msg r s Gq Cq Am Vr Vs) as (v & K & H1 & H2). exists v. split; [exact K|].
  pose proof (byte_length_bounds c n (proj1 (eHn c C Pp EC))) as (B1 & _). rewrite <- lead_leftmost by (try exact Am; lia). split; auto.
Qed.
Hypothesis PMN : cu_p_minus_n C = op_sub c p n.
Hypothesis KG : zmul A N G = Inf.
Hypothesis PN : P <= 2 * N.
Lemma recover_verify msg r s id v : all_bytes msg -> fits_order msg -> valid c r -> valid c s -> 0 <= id -> value r < P ->
  (v = true -> value (cu_b C) <> 0) -> (v = false -> forall X, on X -> zmul A N X = Inf) ->
  exists Q, ecdsa_recover c C msg r s id v = Ok Q /\ good2 c p Q /\ (aff_is_identity (fe_ops c p) Q = true \/ on (aff_pt p Pp Q) /\ ecdsa_verify c C Q msg r s = Ok true).
Proof.
  intros Am Fm Vr Vs Hid RP Hb HX. pose proof (lead_below c n (eHn c C Pp EC) msg Am Fm) as L2.
  destruct (recover_sound_claim c C Pp EC PMN msg r s id v Am ltac:(lia) Vr Vs Hid KG Hb HX RP) as (Q & K & GQ & H). exists Q. split; [exact K|]. split; [exact GQ|].
  pose proof (aff_id_claim c p Pp _ _ (eCO c C Pp EC) Q GQ) as ID. destruct (aff_is_identity (fe_ops c p) Q); [left; reflexivity|right].
  destruct H as (CQ & AC); [intros I; apply ID in I; discriminate|]. split; [exact CQ|]. destruct (verify_claim c C Pp EC Q msg r s GQ CQ Am Vr Vs) as (b & -> & _ & HB). rewrite (HB PN AC). reflexivity.
Qed.
Lemma recover_key msg r s v q : all_bytes msg -> fits_order msg -> valid c r -> valid c s -> 2 < N -> value r < P -> good2 c p q ->
  (v = true -> value (cu_b C) <> 0) -> on (aff_pt p Pp q) -> zmul A N (aff_pt p Pp q) = Inf -> ecdsa_verify c C q msg r s = Ok true ->
  exists id Q, 0 <= id <= 3 /\ ecdsa_recover c C msg r s id v = Ok Q /\ good2 c p Q /\ raw_pt p Pp Q = aff_pt p Pp q.
Proof.
  intros Am Fm Vr Vs N2 RP Gq Hb Cq Kq K. pose proof (lead_below c n (eHn c C Pp EC) msg Am Fm) as L2.
  destruct (verify_claim c C Pp EC q msg r s Gq Cq Am Vr Vs) as (b & K' & H & _). rewrite K in K'. injection K' as <-.
  apply (recover_complete_claim c C Pp EC PMN msg r s v q); auto. lia.
Qed.
Lemma sign_verify d k q msg r s : good2 c p q -> aff_pt p Pp q = zmul A d G -> aff_is_identity (fe_ops c p) q = false -> all_bytes msg -> fits_order msg -> valid c r -> valid c s ->
  signature (coord p Pp) A G N d k (e_of msg) (value r) (value s) -> ecdsa_verify c C q msg r s = Ok true.
Proof.
  intros Gq Eq NI Am Fm Vr Vs SG. assert (CG : on G) by apply (eGon c C Pp EC). pose proof (two_ne c p Pp _ _ (eCO c C Pp EC)) as TW.
  assert (Cq : on (aff_pt p Pp q)) by (rewrite Eq; apply (zmul_curve F A B TW); exact CG).
  destruct (verify_std q msg r s PN Gq Cq Am Fm Vr Vs) as (v & -> & H). f_equal. apply H. rewrite Eq. apply (sign_claim c C Pp EC d k); [split; assumption| |exact SG].
  intros I. rewrite <- Eq in I. apply (aff_id_claim c p Pp _ _ (eCO c C Pp EC) q Gq) in I. congruence.
Qed.
End STD.
