(** ECDSA verification and key recovery. *)
From Coq Require Import List ZArith Znumtheory Bool Lia.
From Verif Require Import Outcome LoopModel WordsModel WordsSpec UtilsSpec WordsProofs BigintModel BigintSpec BigintProofs BigintBits BigintBytes BigintClaims NumModel NumProofs JacobiSpec FpModel FpSpec FpProofs FpSqrt FpClaims EcGroup EcGroupProofs ZpField EcModel EcSpec EcScalar EcFeSpec EcTransfer EcCurveModel EcClaims EcLaws EcCurveSpec EcCodec EcCurveClaims EcdsaModel EcdsaSpec.
Import ListNotations.
Open Scope Z_scope.

(** *** integers modulo n *)
Lemma modcong n x y : (x - y) mod n = 0 -> 0 < n -> x mod n = y mod n.
Proof.
  intros H N. apply Z.mod_divide in H; [|lia]. destruct H as (k & H). replace x with (y + k * n) by lia. apply Z.mod_add. lia.
Qed.
Lemma congmod n x y : 0 < n -> x mod n = y mod n -> exists k, x - y = k * n.
Proof. intros N H. exists (x / n - y / n). pose proof (Z.div_mod x n ltac:(lia)). pose proof (Z.div_mod y n ltac:(lia)). rewrite Z.mul_sub_distr_r. lia. Qed.
Lemma inv_unique n s w w' : 1 < n -> (s * w) mod n = 1 -> (s * w') mod n = 1 -> w mod n = w' mod n.
Proof.
  intros N H H'. assert (A : (s * w) mod n = 1 mod n) by (rewrite Z.mod_1_l by lia; exact H). assert (B : (s * w') mod n = 1 mod n) by (rewrite Z.mod_1_l by lia; exact H').
  apply congmod in A; [|lia]. apply congmod in B; [|lia]. destruct A as (k & A), B as (l & B). apply modcong; [|lia].
  apply Z.mod_divide; [lia|]. exists (w' * k - w * l). replace (w - w') with (w' * (s * w - 1) - w * (s * w' - 1)) by ring. rewrite A, B. ring.
Qed.
Lemma mul_inv_mod n x w w' : w mod n = w' mod n -> (x * w) mod n = (x * w') mod n.
Proof. intros H. rewrite (Zmult_mod x w), H, <- Zmult_mod. reflexivity. Qed.

(** *** the range check *)
Lemma range_claim c n r s : valid c n -> valid c r -> valid c s ->
  out_of_range n r s = negb ((1 <=? value r) && (value r <? value n) && (1 <=? value s) && (value s <? value n)).
Proof.
  intros Vn Vr Vs. unfold out_of_range. pose proof (compares1_spec c r 1 Vr ltac:(unfold int32; lia)) as A. pose proof (compares1_spec c s 1 Vs ltac:(unfold int32; lia)) as B0.
  pose proof (compare_spec c r n Vr Vn) as D. pose proof (compare_spec c s n Vs Vn) as E. unfold cmp_result in *. lia.
Qed.
Lemma reject_claim c C q msg r s : valid c (cu_n C) -> valid c r -> valid c s ->
  ~ (1 <= value r < value (cu_n C) /\ 1 <= value s < value (cu_n C)) ->
  ecdsa_verify c C q msg r s = Ok false /\ (forall id v, ecdsa_recover c C msg r s id v = Ok None) /\ assert_ecdsa c C q msg r s = Abort.
Proof.
  intros Vn Vr Vs H. assert (R : out_of_range (cu_n C) r s = true) by (rewrite (range_claim c) by assumption; lia).
  assert (V : ecdsa_verify c C q msg r s = Ok false) by (unfold ecdsa_verify; rewrite R; destruct (aff_is_identity (fe_ops c (cu_p C)) q); reflexivity).
  split; [exact V|]. split; [intros; unfold ecdsa_recover; rewrite R; reflexivity|]. unfold assert_ecdsa. rewrite V. reflexivity.
Qed.

(** *** the integer of the message *)
Definition lead (n : bigint) (msg : list Z) : Z := be_value (firstn (Z.to_nat (byte_length n)) msg).
Lemma firstn_min {A} k (l : list A) : firstn (Nat.min k (length l)) l = firstn k l.
Proof. destruct (Nat.le_ge_cases k (length l)); [rewrite Nat.min_l by assumption; reflexivity|]. rewrite Nat.min_r, !firstn_all2 by lia. reflexivity. Qed.
Section DIGEST.
Variable c : cap.
Variable n : bigint.
Hypothesis Hn : modulus_ok c n.
Let Vn : valid c n. Proof. apply Hn. Qed.
Let N1 : 1 < value n. Proof. apply Hn. Qed.
Lemma n_words : byte_length n <= 4 * Z.of_nat (size n).
Proof.
  pose proof Vn as (_ & Sz & _). destruct (byte_length_bounds c n Vn) as (A1 & A2 & A3). destruct (Z_le_gt_dec (byte_length n) (4 * Z.of_nat (size n))) as [|G]; [assumption|].
  specialize (A3 ltac:(lia)). pose proof (magnitude_range c n Vn) as R. rewrite Bn_pow2 in R. change 256 with (2 ^ 8) in A3. rewrite <- Z.pow_mul_r in A3 by lia.
  pose proof (Z.pow_le_mono_r 2 (32 * Z.of_nat (size n)) (8 * (byte_length n - 1)) ltac:(lia) ltac:(lia)). lia.
Qed.
Lemma digest_claim msg : all_bytes msg -> exists e, digest_int c n msg = Ok e /\ valid c e /\ (size e <= size n)%nat /\
  value e = (if lead n msg >? value n then lead n msg - value n else lead n msg) /\ 0 <= lead n msg < 256 ^ byte_length n.
Proof.
  intros A. unfold digest_int. rewrite firstn_min. fold (lead n msg). set (d := firstn (Z.to_nat (byte_length n)) msg).
  assert (Ad : all_bytes d) by (apply bytes_firstn, A). assert (L : (length d <= Z.to_nat (byte_length n))%nat) by (unfold d; rewrite firstn_length; lia).
  pose proof n_words as W. pose proof Vn as (_ & Sz & _). destruct (byte_length_bounds c n Vn) as (A1 & _).
  destruct (of_bytes_claim c d Ad) as (e & -> & (Ve & _) & E).
  { apply room_le with (2 * size n)%nat; [apply Hn|]. assert ((length d + 3) / 4 < size n + 1)%nat by (apply Nat.div_lt_upper_bound; lia). lia. }
  cbn [bind]. pose proof (be_range d Ad) as B0. change (be_value d) with (lead n msg) in *.
  assert (B2 : lead n msg < 256 ^ byte_length n). { pose proof (Z.pow_le_mono_r 256 (Z.of_nat (length d)) (byte_length n) ltac:(lia) ltac:(lia)). lia. }
  assert (B1 : lead n msg < 2 ^ (32 * Z.of_nat (size n))). { change 256 with (2 ^ 8) in B2. rewrite <- Z.pow_mul_r in B2 by lia. pose proof (Z.pow_le_mono_r 2 (8 * byte_length n) (32 * Z.of_nat (size n)) ltac:(lia) ltac:(lia)). lia. }
  assert (Se : (size e <= size n)%nat) by (apply (size_le_iff c e (size n) Ve ltac:(lia)); rewrite Bn_pow2, (abs_magnitude c), E by assumption; lia).
  pose proof (compare_spec c e n Ve Vn) as CM. unfold cmp_result in CM. rewrite E in CM. destruct (Z.gtb_spec (lead n msg) (value n)) as [G|G].
  - replace (compare e n >? 0) with true by lia. destruct (sub_spec c e e n) as (V & EV); try assumption; [apply Ve|apply room_le with (2 * size n)%nat; [apply Hn|lia]|].
    eexists. split; [reflexivity|]. split; [exact V|]. split; [|split; [lia|lia]]. apply (size_le_iff c _ (size n) V ltac:(lia)). rewrite Bn_pow2, (abs_magnitude c) by assumption. lia.
  - replace (compare e n >? 0) with false by lia. eexists. split; [reflexivity|]. split; [exact Ve|]. split; [exact Se|]. split; [exact E|lia].
Qed.
Lemma digest_mod msg e : value e = (if lead n msg >? value n then lead n msg - value n else lead n msg) -> value e mod value n = lead n msg mod value n.
Proof. intros ->. destruct (lead n msg >? value n); [|reflexivity]. replace (lead n msg - value n) with (lead n msg + (-1) * value n) by lia. apply Z.mod_add. lia. Qed.
End DIGEST.

Section VERIFY.
Variable c : cap.
Variable C : curve.
Variable Pp : prime (value (cu_p C)).
Hypothesis EC : ecdsa_curve c C Pp.
Notation p := (cu_p C). Notation P := (value (cu_p C)). Notation n := (cu_n C). Notation N := (value (cu_n C)).
Notation F := (GFp p Pp). Notation A := (kval p Pp (cu_a C)). Notation B := (kval p Pp (cu_b C)).
Notation G := (aff_pt p Pp (cu_g C)).
Notation on := (on_curve A B).
Notation O := (fe_ops c p).
Lemma eCB : curve_base c C Pp. Proof. apply EC. Qed.
Lemma eCO : curve_ok c p Pp (cu_a C) (cu_b C). Proof. apply eCB. Qed.
Lemma eE : cu_coeffs c C = coeffs_of c p (cu_a C) (cu_b C). Proof. apply eCB. Qed.
Lemma eP8 : 8 < P. Proof. apply EC. Qed.
Lemma eGg : good2 c p (cu_g C). Proof. apply EC. Qed.
Lemma eGon : on G. Proof. apply EC. Qed.
Lemma eHn : modulus_ok c n. Proof. apply EC. Qed.
Lemma ePn : prime N. Proof. apply EC. Qed.
Lemma eN1 : 1 < N. Proof. apply eHn. Qed.

Lemma combine_claim u1 u2 q : reduced c n u1 -> reduced c n u2 -> good2 c p q -> on (aff_pt p Pp q) ->
  exists R R', jac_mul_add O (cu_coeffs c C) c u1 (of_affine O (cu_g C)) u2 (of_affine O q) = Ok R /\ jac_to_affine O R = Ok R' /\ good2 c p R' /\
    raw_pt p Pp R' = padd A (zmul A (value u1) G) (zmul A (value u2) (aff_pt p Pp q)).
Proof.
  intros H1 H2 Gq Cq. rewrite eE. destruct (jac_of_affine_claim c p Pp _ _ eCO (cu_g C) eGg) as (G1 & X1). destruct (jac_of_affine_claim c p Pp _ _ eCO q Gq) as (G2 & X2).
  destruct (jac_mul_add_claim c p Pp _ _ eCO eP8 u1 (of_affine O (cu_g C)) u2 (of_affine O q)) as (R & K & GR & XR); try assumption; try apply H1; try apply H2.
  - rewrite X1. exact eGon.
  - rewrite X2. exact Cq.
  - apply room_r with n; [exact eHn|apply (red_size c n eHn), H1].
  - apply room_r with n; [exact eHn|apply (red_size c n eHn), H2].
  - destruct (jac_to_affine_raw c p Pp _ _ eCO R GR) as (R' & K' & GR' & XR'). exists R, R'. split; [exact K|]. split; [exact K'|]. split; [exact GR'|]. rewrite XR', XR, X1, X2. reflexivity.
Qed.
Lemma accepts_unique (X : point F) e r s w x y : (s * w) mod N = 1 -> padd A (zmul A ((e * w) mod N) G) (zmul A ((r * w) mod N) X) = Aff x y ->
  accepts (coord p Pp) A G N X e r s -> coord p Pp x mod N = r.
Proof.
  intros W E (_ & _ & _ & w' & x' & y' & W' & E' & H). pose proof (inv_unique N s w w' eN1 W W') as U.
  rewrite (mul_inv_mod N e w w' U), (mul_inv_mod N r w w' U) in E. rewrite E in E'. injection E' as <- <-. exact H.
Qed.
Lemma accepts_not_inf (X : point F) e r s w : (s * w) mod N = 1 -> padd A (zmul A ((e * w) mod N) G) (zmul A ((r * w) mod N) X) = Inf ->
  accepts (coord p Pp) A G N X e r s -> False.
Proof.
  intros W E (_ & _ & _ & w' & x' & y' & W' & E' & H). pose proof (inv_unique N s w w' eN1 W W') as U.
  rewrite (mul_inv_mod N e w w' U), (mul_inv_mod N r w w' U) in E. congruence.
Qed.
Lemma verify_claim q msg r s : good2 c p q -> on (aff_pt p Pp q) -> all_bytes msg -> valid c r -> valid c s ->
  exists v, ecdsa_verify c C q msg r s = Ok v /\
    (v = true -> accepts (coord p Pp) A G N (aff_pt p Pp q) (lead n msg) (value r) (value s)) /\
    (P <= 2 * N -> accepts (coord p Pp) A G N (aff_pt p Pp q) (lead n msg) (value r) (value s) -> v = true).
Proof.
  intros Gq Cq Am Vr Vs. pose proof eN1 as N1. unfold ecdsa_verify.
  pose proof (aff_id_claim c p Pp _ _ eCO q Gq) as ID. destruct (aff_is_identity O q).
  { exists false. split; [reflexivity|]. split; [discriminate|]. intros _ (H & _). exfalso. apply H, ID. reflexivity. }
  rewrite (range_claim c) by (try assumption; apply eHn). destruct ((1 <=? value r) && (value r <? N) && (1 <=? value s) && (value s <? N)) eqn:RG; cbn [negb].
  2:{ exists false. split; [reflexivity|]. split; [discriminate|]. intros _ (_ & H1 & H2 & _). lia. }
  assert (Br : 1 <= value r < N) by (clear - RG; lia). assert (Bs : 1 <= value s < N) by (clear - RG; lia). clear RG.
  assert (Rr : reduced c n r) by (split; [exact Vr|clear - Br; lia]). assert (Rs : reduced c n s) by (split; [exact Vs|clear - Bs; lia]).
  destruct (digest_claim c n eHn msg Am) as (e & -> & Ve & Se & Ee & Le). cbn [bind].
  destruct (modinv_val c n eHn s Rs (prime_gcd c n eHn (value s) ePn ltac:(lia))) as (w & -> & Rw & W). cbn [bind].
  assert (E0 : 0 <= value e) by (rewrite Ee; destruct (Z.gtb_spec (lead n msg) N); lia).
  destruct (op_mul_val c n eHn e w Ve (proj1 Rw) Se (red_size c n eHn w Rw)) as (V1 & E1).
  destruct (op_mod_pos c n eHn (op_mul c e w) V1) as (u1 & -> & R1 & X1); [rewrite E1; destruct Rw; nia|]. cbn [bind].
  destruct (mulmod_val c n eHn r w Rr Rw) as (u2 & -> & R2 & X2). cbn [bind].
  destruct (combine_claim u1 u2 q R1 R2 Gq Cq) as (R & R' & -> & KT & GR & XR). cbn [bind]. rewrite KT. cbn [bind].
  assert (X1' : value u1 = (lead n msg * value w) mod N).
  { rewrite X1, E1, Zmult_mod, (digest_mod c n eHn msg e Ee), <- Zmult_mod. reflexivity. }
  rewrite X1', X2 in XR. clear X1 X1' X2 E1 E0 Ee Le. change (aff O) with (option (fe * fe)) in R'. destruct R' as [[x y]|].
  - destruct GR as (Hx & Hy). rewrite (id_values c C Pp eCB x y Hx Hy). cbn [raw_pt] in XR. pose proof Hx as (_ & Vx & Rx).
    destruct ((value (fv x) =? 0) && (value (fv y) =? 0)) eqn:Z0.
    { exists false. split; [reflexivity|]. split; [discriminate|]. intros _ H. pose proof (accepts_unique _ _ _ _ _ _ _ W (eq_sym XR) H) as U.
      unfold coord in *; rewrite (zval_fval c p Pp x Hx) in U. assert (value (fv x) = 0) as E by (clear - Z0; lia). rewrite E, Z.mod_0_l in U by (clear - N1; lia). clear - U Br. lia. }
    clear Z0.
    assert (K : exists x', (if negb (compare (fv x) n <? 0) then fe_sub_big c x n else Ok x) = Ok x' /\ valid c (fv x') /\ value (fv x') = if value (fv x) <? N then value (fv x) else value (fv x) - N).
    { pose proof (compare_spec c (fv x) n Vx (proj1 eHn)) as CM. unfold cmp_result in CM. destruct (Z.ltb_spec (value (fv x)) N) as [L|L].
      - replace (compare (fv x) n <? 0) with true by (clear - CM L; lia). exists x. auto.
      - replace (compare (fv x) n <? 0) with false by (clear - CM L; lia). cbn [negb]. destruct (fe_sub_claim c p (proj1 eCO) x (mkfe n (Some p)) Hx) as (z & K & (Hz & Vz)).
        + split; [reflexivity|]. split; [apply eHn|cbn [fv]; clear - N1 L Rx; lia].
        + unfold fe_sub in K. cbn [fv] in K, Vz. exists z. split; [exact K|]. split; [apply Hz|]. rewrite Vz, Z.mod_small by (clear - N1 L Rx; lia). reflexivity. }
    change (T O) with fe; destruct K as (x' & -> & Vx' & Ex'). cbn [bind]. pose proof (compare_spec c (fv x') r Vx' Vr) as CM. unfold cmp_result in CM.
    eexists. split; [reflexivity|]. split.
    + intros H. split; [intros I; apply ID in I; discriminate|]. split; [exact Br|]. split; [exact Bs|]. exists (value w), (fval p Pp x), (fval p Pp y). split; [exact W|]. split; [symmetry; exact XR|].
      unfold coord in *; rewrite (zval_fval c p Pp x Hx). assert (E : value (fv x') = value r) by (clear - H CM; lia). clear H CM. destruct (Z.ltb_spec (value (fv x)) N) as [L|L]; [rewrite Z.mod_small; clear - Ex' E L Rx; lia|].
      replace (value (fv x)) with (value r + 1 * N) by (clear - Ex' E; lia). rewrite Z.mod_add, Z.mod_small by (clear - N1 Br; lia). reflexivity.
    + intros PN H. pose proof (accepts_unique _ _ _ _ _ _ _ W (eq_sym XR) H) as U. unfold coord in *; rewrite (zval_fval c p Pp x Hx) in U. destruct (Z.ltb_spec (value (fv x)) N) as [L|L].
      * rewrite Z.mod_small in U by (clear - Rx L; lia). clear - U Ex' CM. lia.
      * replace (value (fv x)) with (value (fv x) - N + 1 * N) in U by (clear; lia). rewrite Z.mod_add, Z.mod_small in U by (clear - N1 L Rx PN; lia). clear - U Ex' CM. lia.
  - exists false. split; [reflexivity|]. split; [discriminate|]. intros _ H. exfalso. apply (accepts_not_inf _ _ _ _ _ W (eq_sym XR) H).
Qed.
End VERIFY.
