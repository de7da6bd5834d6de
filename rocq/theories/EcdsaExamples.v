(** Small curves meeting the hypotheses of the ECDSA theorems, and the counterexamples. *)
From Coq Require Import List ZArith Znumtheory Bool Lia.
From Verif Require Import Outcome LoopModel WordsModel WordsSpec UtilsSpec WordsProofs BigintModel BigintSpec BigintProofs BigintBits BigintBytes BigintClaims NumModel NumProofs JacobiSpec FpModel FpSpec FpProofs FpSqrt FpClaims EcGroup EcGroupProofs ZpField EcModel EcSpec EcScalar EcFeSpec EcTransfer EcCurveModel EcClaims EcLaws EcCurveSpec EcCodec EcCurveClaims EcdsaModel EcdsaSpec EcdsaProofs EcdsaRecover EcdsaClaims.
Import ListNotations.
Open Scope Z_scope.

Lemma small_prime p : 1 < p -> forallb (fun k => Z.gcd (Z.of_nat k) p =? 1) (seq 1 (Z.to_nat p - 1)) = true -> prime p.
Proof.
  intros P1 H. constructor; [exact P1|]. intros n Hn. apply Zgcd_1_rel_prime. rewrite forallb_forall in H. specialize (H (Z.to_nat n)). rewrite Z2Nat.id in H by lia.
  apply Z.eqb_eq, H. apply in_seq. lia.
Qed.
(** the discriminant of a curve over the integers modulo a prime *)
Lemma zp_add q (Pq : prime q) x y : fadd (zmk q Pq x : Zp q Pq) (zmk q Pq y) = zmk q Pq (x + y). Proof. apply zmk_eq. rewrite !zval_mk. symmetry. apply Zplus_mod. Qed.
Lemma zp_mul q (Pq : prime q) x y : fmul (zmk q Pq x : Zp q Pq) (zmk q Pq y) = zmk q Pq (x * y). Proof. apply zmk_eq. rewrite !zval_mk. symmetry. apply Zmult_mod. Qed.
Lemma zp_disc q (Pq : prime q) x y : disc (zmk q Pq x : Zp q Pq) (zmk q Pq y) = zmk q Pq (4 * x * x * x + 27 * y * y).
Proof.
  unfold disc. change (@f1 (Zp q Pq)) with (zmk q Pq 1). repeat (rewrite zp_add || rewrite zp_mul). f_equal. ring.
Qed.
(** the object made by the constructor for a curve with small constants *)
Definition small_curve (p a b gx gy n h : Z) : curve :=
  mkcurve (of_int ex_c p) (of_int ex_c a) (of_int ex_c b) (Some (el ex_c p gx, el ex_c p gy)) (of_int ex_c n) h (a =? p - 3) (a =? 0) (op_sub ex_c (of_int ex_c p) (of_int ex_c n)).
Lemma small_value p k : 0 <= k < p -> p < 2 ^ 31 -> valid ex_c (of_int ex_c k) /\ value (of_int ex_c k) = k.
Proof. intros H L. destruct (of_int_ok ex_c k p ltac:(cbn; lia) H L) as (V & _ & E). auto. Qed.
Lemma small_mod k : 1 < k < 2 ^ 31 - 1 -> modulus_ok ex_c (of_int ex_c k).
Proof.
  intros H. destruct (small_value (k + 1) k ltac:(lia) ltac:(lia)) as (V & E). split; [exact V|]. rewrite E. split; [lia|]. cbn [room ex_c].
  assert (size (of_int ex_c k) <= 1)%nat; [|lia]. apply (size_le_iff ex_c _ 1 V ltac:(lia)). rewrite Bn_pow2, (abs_magnitude ex_c), E by exact V. cbn. lia.
Qed.
Lemma small_ok p a b gx gy n h (Pp : prime (value (cu_p (small_curve p a b gx gy n h)))) : prime n -> 8 < p < 2 ^ 31 - 1 -> 1 < n < 2 ^ 31 - 1 ->
  0 <= a < p -> 0 <= b < p -> 0 <= gx < p -> 0 <= gy < p -> (4 * a * a * a + 27 * b * b) mod p <> 0 -> (gy * gy) mod p = (gx * gx * gx + a * gx + b) mod p ->
  cu_coeffs ex_c (small_curve p a b gx gy n h) = coeffs_of ex_c (of_int ex_c p) (of_int ex_c a) (of_int ex_c b) ->
  ecdsa_curve ex_c (small_curve p a b gx gy n h) Pp.
Proof.
  intros Pn Hp Hn Ha Hb Hx Hy ND ON EC. destruct (small_value (p + 1) p ltac:(lia) ltac:(lia)) as (Vp & Ep).
  destruct (small_value p a Ha ltac:(lia)) as (Va & Ea). destruct (small_value p b Hb ltac:(lia)) as (Vb & Eb). destruct (small_value (n + 1) n ltac:(lia) ltac:(lia)) as (Vn & En).
  pose proof (el_elem ex_c p gx ltac:(cbn; lia) Hx ltac:(lia)) as Gx. pose proof (el_elem ex_c p gy ltac:(cbn; lia) Hy ltac:(lia)) as Gy.
  destruct (small_value p gx Hx ltac:(lia)) as (_ & Ex). destruct (small_value p gy Hy ltac:(lia)) as (_ & Ey).
  set (C := small_curve p a b gx gy n h) in *.
  split; [split; [|exact EC]|split; [cbn [C small_curve cu_p]; rewrite Ep; lia|split; [exact (conj Gx Gy)|split; [|split; [apply small_mod; lia|cbn [C small_curve cu_n]; rewrite En; exact Pn]]]]].
  - split; [apply small_mod; lia|]. split; [cbn [C small_curve cu_p]; rewrite Ep; lia|]. split; [split; [exact Va|cbn [C small_curve cu_p cu_a]; lia]|]. split; [split; [exact Vb|cbn [C small_curve cu_p cu_b]; lia]|].
    intros D. apply ND. apply (f_equal (@zval (value (of_int ex_c p)))) in D. unfold GFp, EcFeSpec.kval in D. rewrite zp_disc, zval_mk in D. cbn [C small_curve cu_p cu_a cu_b] in D. rewrite Ea, Eb in D. rewrite Ep in D at 1. rewrite D. change (0 mod value (of_int ex_c p) = 0). apply Z.mod_0_l. lia.
  - destruct (aff_pt (cu_p C) Pp (cu_g C)) eqn:E; [exact I|]. rewrite <- E. unfold aff_pt in *. cbn [C small_curve cu_g option_map fst snd abs_aff] in *. destruct (_ && _); [discriminate|].
    apply (on_satisfies C Pp). unfold satisfies, rhs. cbn [C small_curve cu_p cu_a cu_b el fv]. rewrite Ex, Ey, Ea, Eb, Ep. exact ON.
Qed.
(** acceptance, decided by computation *)
Lemma accepts_check (F : fieldT) (toZ : F -> Z) a (G Q : point F) n e r s w : Q <> Inf -> 1 <= r < n -> 1 <= s < n -> (s * w) mod n = 1 ->
  match padd a (zmul a ((e * w) mod n) G) (zmul a ((r * w) mod n) Q) with Inf => -1 | Aff x y => toZ x mod n end = r -> accepts toZ a G n Q e r s.
Proof.
  intros NI Hr Hs W H. split; [exact NI|]. split; [exact Hr|]. split; [exact Hs|]. destruct (padd a _ _) as [|x y] eqn:E; [lia|]. exists w, x, y. auto.
Qed.
Definition finite {F : fieldT} (Q : point F) : bool := match Q with Inf => false | _ => true end.
Lemma finite_neq (F : fieldT) (Q : point F) : finite Q = true -> Q <> Inf. Proof. intros H ->. discriminate. Qed.
Lemma not_finite (F : fieldT) (Q : point F) : finite Q = false -> Q = Inf. Proof. destruct Q; [reflexivity|discriminate]. Qed.

(** y^2 = x^3 - 3x + 26 over GF(251), a group of 223 points generated by (2, 167) *)
Definition E251 : curve := small_curve 251 248 26 2 167 223 1.
Lemma prime_251 : prime (value (cu_p E251)). Proof. apply small_prime; vm_compute; reflexivity. Qed.
Lemma prime_223 : prime 223. Proof. apply small_prime; vm_compute; reflexivity. Qed.
Lemma E251_ok : ecdsa_curve ex_c E251 prime_251.
Proof. apply small_ok; [exact prime_223|lia|lia|lia|lia|lia|lia|vm_compute; discriminate|vm_compute; reflexivity|reflexivity]. Qed.
Notation A251 := (kval (cu_p E251) prime_251 (cu_a E251)). Notation B251 := (kval (cu_p E251) prime_251 (cu_b E251)).
Notation G251 := (aff_pt (cu_p E251) prime_251 (cu_g E251)).
Lemma E251_gen : zmul A251 (value (cu_n E251)) G251 = Inf. Proof. apply not_finite. vm_compute. reflexivity. Qed.
Definition pairs (q : nat) : list (Z * Z) := flat_map (fun i => map (fun j => (Z.of_nat i, Z.of_nat j)) (seq 0 q)) (seq 0 q).
Lemma in_pairs q x y : 0 <= x < Z.of_nat q -> 0 <= y < Z.of_nat q -> In (x, y) (pairs q).
Proof.
  intros Hx Hy. apply in_flat_map. exists (Z.to_nat x). split; [apply in_seq; lia|]. apply in_map_iff. exists (Z.to_nat y). rewrite !Z2Nat.id by lia. split; [reflexivity|apply in_seq; lia].
Qed.
Lemma E251_all : forall X : point (GFp (cu_p E251) prime_251), on_curve A251 B251 X -> zmul A251 (value (cu_n E251)) X = Inf.
Proof.
  assert (K : forallb (fun P => let (x, y) := P : Z * Z in if (y * y) mod 251 =? (x * x * x + 248 * x + 26) mod 251
    then negb (finite (zmul A251 223 (Aff (zmk _ prime_251 x : GFp (cu_p E251) prime_251) (zmk _ prime_251 y)))) else true) (pairs 251) = true) by (vm_compute; reflexivity).
  rewrite forallb_forall in K. intros [|x y] H; [apply (zmul_inf _ A251)|]. apply not_finite.
  assert (Ex := zmk_val _ prime_251 x). assert (Ey := zmk_val _ prime_251 y). pose proof (zval_range _ x) as Rx. pose proof (zval_range _ y) as Ry.
  specialize (K (zval (x : zp (value (cu_p E251))), zval (y : zp (value (cu_p E251)))) (in_pairs 251 _ _ Rx Ry)). cbn beta iota in K.
  rewrite Ex, Ey in K. destruct (_ =? _) eqn:Q in K; [apply negb_true_iff; exact K|]. exfalso.
  unfold on_curve in H. rewrite <- Ex, <- Ey in H. unfold EcFeSpec.kval in H. rewrite !hom_mul, !hom_add in H. apply (f_equal (@zval (value (cu_p E251)))) in H. rewrite !zval_mk in H.
  apply Z.eqb_neq in Q. apply Q. exact H.
Qed.
Definition q251 (x y : Z) : option (fe * fe) := Some (el ex_c 251 x, el ex_c 251 y).
Lemma q251_good x y : 0 <= x < 251 -> 0 <= y < 251 -> good2 ex_c (cu_p E251) (q251 x y).
Proof. intros Hx Hy. split; apply el_elem; cbn; lia. Qed.
Lemma q251_on x y : 0 <= x < 251 -> 0 <= y < 251 -> (y * y) mod 251 = (x * x * x + 248 * x + 26) mod 251 -> on_curve A251 B251 (aff_pt (cu_p E251) prime_251 (q251 x y)).
Proof.
  intros Hx Hy H. unfold aff_pt, q251. cbn [option_map fst snd abs_aff]. destruct (_ && _); [exact I|]. apply (on_satisfies E251 prime_251). unfold satisfies, rhs. cbn [el fv].
  destruct (small_value 251 x Hx ltac:(lia)) as (_ & ->). destruct (small_value 251 y Hy ltac:(lia)) as (_ & ->). exact H.
Qed.
Lemma sm_valid k : 0 <= k < 2 ^ 31 - 1 -> valid ex_c (of_int ex_c k). Proof. intros H. apply (small_value (2 ^ 31 - 1) k); lia. Qed.

(** the curve with 19 points over GF(17): the order does not fill its byte and is above p *)
Definition E17 : curve := small_curve 17 2 2 5 1 19 1.
Lemma prime_E17 : prime (value (cu_p E17)). Proof. apply small_prime; vm_compute; reflexivity. Qed.
Lemma prime_19 : prime 19. Proof. apply small_prime; vm_compute; reflexivity. Qed.
Lemma E17_ok : ecdsa_curve ex_c E17 prime_E17.
Proof. apply small_ok; [exact prime_19|lia|lia|lia|lia|lia|lia|vm_compute; discriminate|vm_compute; reflexivity|reflexivity]. Qed.
(** y^2 = x^3 + 2x + 11 over GF(13) has 15 points; (7, 2) generates a subgroup of order 5 *)
Definition E13 : curve := small_curve 13 2 11 7 2 5 3.
Lemma prime_E13 : prime (value (cu_p E13)). Proof. apply small_prime; vm_compute; reflexivity. Qed.
Lemma prime_5 : prime 5. Proof. apply small_prime; vm_compute; reflexivity. Qed.
Lemma E13_ok : ecdsa_curve ex_c E13 prime_E13.
Proof. apply small_ok; [exact prime_5|lia|lia|lia|lia|lia|lia|vm_compute; discriminate|vm_compute; reflexivity|reflexivity]. Qed.

Definition std_accepts (C : curve) (Pp : prime (value (cu_p C))) (q : option (fe * fe)) (msg : list Z) (r s : bigint) : Prop :=
  accepts (coord (cu_p C) Pp) (kval (cu_p C) Pp (cu_a C)) (aff_pt (cu_p C) Pp (cu_g C)) (value (cu_n C)) (aff_pt (cu_p C) Pp q) (leftmost (bitlen (value (cu_n C))) msg) (value r) (value s).
Notation on_c C Pp q := (on_curve (kval (cu_p C) Pp (cu_a C)) (kval (cu_p C) Pp (cu_b C)) (aff_pt (cu_p C) Pp q)).
Lemma on_small p a b gx gy n h (Pp : prime (value (cu_p (small_curve p a b gx gy n h)))) x y : 0 <= a < p -> 0 <= b < p -> p < 2 ^ 31 - 1 -> 0 <= x < p -> 0 <= y < p -> (y * y) mod p = (x * x * x + a * x + b) mod p ->
  on_c (small_curve p a b gx gy n h) Pp (Some (el ex_c p x, el ex_c p y)).
Proof.
  intros Ha Hb Hp Hx Hy H. unfold aff_pt. cbn [option_map fst snd abs_aff]. destruct (_ && _); [exact I|]. apply (on_satisfies (small_curve p a b gx gy n h) Pp). unfold satisfies, rhs. cbn [el fv small_curve cu_p cu_a cu_b].
  destruct (small_value p x Hx ltac:(lia)) as (_ & ->). destruct (small_value p y Hy ltac:(lia)) as (_ & ->). destruct (small_value p a Ha ltac:(lia)) as (_ & ->). destruct (small_value p b Hb ltac:(lia)) as (_ & ->).
  destruct (small_value (p + 1) p ltac:(lia) ltac:(lia)) as (_ & ->). exact H.
Qed.
(** with a cofactor the abscissa can be 2n or more, and subtracting n once does not reduce it: a signature the
    standard accepts is rejected *)
Lemma cofactor_refute : exists c C (Pp : prime (value (cu_p C))) q msg r s, ecdsa_curve c C Pp /\ good2 c (cu_p C) q /\ on_c C Pp q /\ all_bytes msg /\ fits_order C msg /\ valid c r /\ valid c s /\
  std_accepts C Pp q msg r s /\ ecdsa_verify c C q msg r s = Ok false.
Proof.
  exists ex_c, E13, prime_E13, (Some (el ex_c 13 11, el ex_c 13 5)), [], (of_int ex_c 1), (of_int ex_c 1). split; [exact E13_ok|].
  split; [split; apply el_elem; cbn; lia|]. split; [apply on_small; lia|]. split; [constructor|]. split; [right; vm_compute; discriminate|]. do 2 (split; [apply sm_valid; lia|]). split.
  - apply (accepts_check _ _ _ _ _ _ _ _ _ 1); [apply finite_neq; vm_compute; reflexivity|vm_compute; split; [discriminate|reflexivity]|vm_compute; split; [discriminate|reflexivity]|reflexivity|vm_compute; reflexivity].
  - vm_compute. reflexivity.
Qed.
(** an order of 5 bits and a one byte digest: all 8 bits are used, a signature the standard accepts is rejected *)
Lemma digest_refute : exists c C (Pp : prime (value (cu_p C))) q msg r s, ecdsa_curve c C Pp /\ value (cu_p C) <= 2 * value (cu_n C) /\ good2 c (cu_p C) q /\ on_c C Pp q /\ all_bytes msg /\ valid c r /\ valid c s /\
  std_accepts C Pp q msg r s /\ ecdsa_verify c C q msg r s = Ok false /\
  exists e, digest_int c (cu_n C) msg = Ok e /\ value e mod value (cu_n C) <> leftmost (bitlen (value (cu_n C))) msg mod value (cu_n C).
Proof.
  exists ex_c, E17, prime_E17, (Some (el ex_c 17 0, el ex_c 17 6)), [200], (of_int ex_c 6), (of_int ex_c 5). split; [exact E17_ok|]. split; [vm_compute; discriminate|].
  split; [split; apply el_elem; cbn; lia|]. split; [apply on_small; lia|]. split; [repeat constructor; unfold is_byte; lia|]. do 2 (split; [apply sm_valid; lia|]). split; [|split].
  - apply (accepts_check _ _ _ _ _ _ _ _ _ 4); [apply finite_neq; vm_compute; reflexivity|vm_compute; split; [discriminate|reflexivity]|vm_compute; split; [discriminate|reflexivity]|reflexivity|vm_compute; reflexivity].
  - vm_compute. reflexivity.
  - eexists. split; [vm_compute; reflexivity|]. vm_compute. discriminate.
Qed.
(** an order that does not fill its bytes: with a digest of more than twice the order, n - e is negative and a
    recovered key does not verify *)
Lemma recover_digest_refute : exists c C (Pp : prime (value (cu_p C))) msg r s Q, ecdsa_curve c C Pp /\ value (cu_p C) <= 2 * value (cu_n C) /\ value (cu_b C) <> 0 /\ all_bytes msg /\ valid c r /\ valid c s /\
  value r < value (cu_p C) /\ cu_p_minus_n C = op_sub c (cu_p C) (cu_n C) /\
  ecdsa_recover c C msg r s 0 true = Ok Q /\ aff_is_identity (fe_ops c (cu_p C)) Q = false /\ ecdsa_verify c C Q msg r s = Ok false.
Proof.
  exists ex_c, E17, prime_E17, [200], (of_int ex_c 6), (of_int ex_c 5). eexists. split; [exact E17_ok|]. do 2 (split; [vm_compute; discriminate|]).
  split; [repeat constructor; unfold is_byte; lia|]. do 2 (split; [apply sm_valid; lia|]). split; [reflexivity|]. split; [reflexivity|]. split; [vm_compute; reflexivity|]. split; vm_compute; reflexivity.
Qed.
(** an order above p: r = 17 = p is taken for the abscissa 0, and the recovered key does not verify *)
Lemma recover_range_refute : exists c C (Pp : prime (value (cu_p C))) msg r s Q, ecdsa_curve c C Pp /\ value (cu_p C) <= 2 * value (cu_n C) /\ value (cu_b C) <> 0 /\ all_bytes msg /\ fits_order C msg /\ valid c r /\ valid c s /\
  value r < value (cu_n C) /\ cu_p_minus_n C = op_sub c (cu_p C) (cu_n C) /\
  ecdsa_recover c C msg r s 0 true = Ok Q /\ aff_is_identity (fe_ops c (cu_p C)) Q = false /\ ecdsa_verify c C Q msg r s = Ok false.
Proof.
  exists ex_c, E17, prime_E17, [], (of_int ex_c 17), (of_int ex_c 5). eexists. split; [exact E17_ok|]. do 2 (split; [vm_compute; discriminate|]).
  split; [constructor|]. split; [right; vm_compute; discriminate|]. do 2 (split; [apply sm_valid; lia|]). split; [reflexivity|]. split; [reflexivity|]. split; [vm_compute; reflexivity|]. split; vm_compute; reflexivity.
Qed.
