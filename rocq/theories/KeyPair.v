(** A curve all of whose points are killed by a large prime n is cyclic of order n: every key has exactly one
    private key, and exactly the signatures made with it verify. *)
From Coq Require Import List ZArith Znumtheory Bool Lia.
From Verif Require Import Outcome WordsModel WordsSpec UtilsSpec BigintModel BigintSpec BigintProofs BigintBytes BigintClaims NumModel NumProofs FpModel FpSpec FpProofs FpClaims EcGroup EcGroupProofs ZpField EcModel EcSpec EcScalar EcFeSpec EcCurveModel EcClaims EcLaws EcCurveSpec EcCodec EcCurveClaims EcdsaModel EcdsaSpec EcdsaProofs EcdsaRecover EcdsaClaims GroupOrder EcKey GroupSpec NamedModel NamedSpec NamedGroup KeyPairSpec.
Import ListNotations.
Open Scope Z_scope.

Section CYCLIC.
Variable p : Z.
Hypothesis Pp : prime p.
Notation F := (Zp p Pp).
Variables a b : F.
Hypothesis two_ne : (1 + 1)%f <> (0%f : F).
Hypothesis Hdisc : disc a b <> 0%f.
Notation C := (on_curve a b).
Variable n : Z.
Hypothesis Pn : prime n.
Hypothesis big : 2 * p + 1 < n * n.
Hypothesis all : forall X, C X -> zmul a n X = Inf.
Variable G : point F.
Hypothesis HG : C G.
Hypothesis G0 : G <> Inf.
Lemma kill_mod k X : C X -> zmul a (k mod n) X = zmul a k X.
Proof. intros H. apply (zmul_mod F a b two_ne Hdisc); auto. Qed.
Lemma kill_zero k X : C X -> zmul a k X = Inf -> X = Inf \/ (n | k).
Proof.
  intros H E. destruct (Zdivide_dec n k) as [D|D]; [right; exact D|left]. pose proof (prime_rel_prime n Pn k D) as R. destruct (rel_prime_bezout _ _ R) as [u v UV].
  rewrite <- (zmul_1 F a X), <- UV, (zmul_add F a b two_ne Hdisc), !(zmul_mul F a b two_ne Hdisc), E, (all X H), !(zmul_inf F a) by assumption. reflexivity.
Qed.
Lemma collect X i j i' j' : C X -> padd a (zmul a i G) (zmul a j X) = padd a (zmul a i' G) (zmul a j' X) -> zmul a (j - j') X = zmul a (i' - i) G.
Proof.
  intros HX E. pose proof (zmul_curve F a b two_ne) as ZC.
  assert (K : forall u v, padd a (padd a (zmul a u G) (zmul a v X)) (padd a (zmul a (- i) G) (zmul a (- j') X)) = padd a (zmul a (u - i) G) (zmul a (v - j') X)).
  { intros u v. rewrite (add_4 F a b two_ne Hdisc) by auto. unfold Z.sub. rewrite !(zmul_add F a b two_ne Hdisc) by assumption. reflexivity. }
  pose proof (K i j) as K1. pose proof (K i' j') as K2. rewrite E, K2 in K1. rewrite !Z.sub_diag in K1. rewrite !(zmul_0 F a) in K1. rewrite padd_0_r in K1. cbn [padd] in K1. symmetry. exact K1.
Qed.
(** a point outside of the multiples of G would give n^2 points *)
Definition grid (X : point F) : list (point F) :=
  map (fun ij => padd a (zmul a (Z.of_nat (fst ij)) G) (zmul a (Z.of_nat (snd ij)) X)) (list_prod (seq 0 (Z.to_nat n)) (seq 0 (Z.to_nat n))).
Lemma nodup_map {A B} (f : A -> B) l : NoDup l -> (forall x y, In x l -> In y l -> f x = f y -> x = y) -> NoDup (map f l).
Proof.
  induction 1 as [|x l H ND IH]; intros J; cbn [map]; constructor.
  - intros K. apply in_map_iff in K. destruct K as (y & E & K). rewrite (J y x (or_intror K) (or_introl eq_refl) E) in K. contradiction.
  - apply IH. intros u v Hu Hv. apply J; right; assumption.
Qed.
Lemma nodup_app {A} (l l' : list A) : NoDup l -> NoDup l' -> (forall x, In x l -> ~ In x l') -> NoDup (l ++ l').
Proof.
  induction 1 as [|x l H ND IH]; intros H' J; cbn [app]; [exact H'|]. constructor.
  - intros K. apply in_app_or in K. destruct K as [K|K]; [contradiction|]. exact (J x (or_introl eq_refl) K).
  - apply IH; [exact H'|]. intros y Hy. apply J. right. exact Hy.
Qed.
Lemma nodup_prod {A B} (l : list A) (l' : list B) : NoDup l -> NoDup l' -> NoDup (list_prod l l').
Proof.
  intros H H'. induction H as [|x l Hx ND IH]; cbn [list_prod]; [constructor|]. apply nodup_app; [|exact IH|].
  - apply nodup_map; [exact H'|]. intros u v _ _ E. injection E. auto.
  - intros (u, v) K K'. apply in_map_iff in K. destruct K as (w & E & _). injection E as -> _. apply in_prod_iff in K'. apply Hx, K'.
Qed.
Lemma below_eq i j : 0 <= i < n -> 0 <= j < n -> (n | i - j) -> i = j.
Proof.
  intros Hi Hj (k & E). clear - Hi Hj E. assert (k = 0) by nia. lia.
Qed.
Lemma grid_nodup X : C X -> (forall d, X <> zmul a d G) -> NoDup (grid X).
Proof.
  intros HX H. pose proof (prime_ge_2 _ Pn) as N2. unfold grid. apply nodup_map; [apply nodup_prod; apply seq_NoDup|].
  intros (i, j) (i', j') Hx Hy E. apply in_prod_iff in Hx, Hy. rewrite !in_seq in Hx, Hy. cbn [fst snd] in E. apply (collect X _ _ _ _ HX) in E.
  set (I := Z.of_nat i) in *. set (J := Z.of_nat j) in *. set (I' := Z.of_nat i') in *. set (J' := Z.of_nat j') in *.
  destruct (Zdivide_dec n (J - J')) as [D|D].
  - assert (EJ : J = J') by (apply below_eq; try assumption; lia). rewrite EJ, Z.sub_diag, (zmul_0 F a) in E. symmetry in E. apply kill_zero in E; [|exact HG]. destruct E as [E|E]; [contradiction|].
    assert (EI : I' = I) by (apply below_eq; try assumption; lia). f_equal; lia.
  - exfalso. pose proof (prime_rel_prime n Pn _ D) as R. destruct (rel_prime_bezout _ _ R) as [u v UV].
    apply (H (v * (I' - I))). rewrite (zmul_mul F a b two_ne Hdisc), <- E, <- (zmul_mul F a b two_ne Hdisc) by assumption.
    rewrite <- (zmul_1 F a X) at 1. rewrite <- UV. rewrite (zmul_add F a b two_ne Hdisc), (zmul_mul F a b two_ne Hdisc u n), (all X HX), (zmul_inf F a) by assumption. reflexivity.
Qed.
Lemma grid_length X : Z.of_nat (length (grid X)) = n * n.
Proof. pose proof (prime_ge_2 _ Pn) as N2. unfold grid. rewrite map_length, prod_length, seq_length, Nat2Z.inj_mul, Z2Nat.id by lia. reflexivity. Qed.
Lemma multiples X : C X -> exists d, 0 <= d < n /\ X = zmul a d G.
Proof.
  intros HX. pose proof (prime_ge_2 _ Pn) as N2.
  destruct (Exists_dec (fun i => X = zmul a (Z.of_nat i) G) (seq 0 (Z.to_nat n)) (fun i => point_dec F X _)) as [H|H].
  - apply Exists_exists in H. destruct H as (i & Hi & E). apply in_seq in Hi. exists (Z.of_nat i). split; [lia|exact E].
  - exfalso. assert (ND : NoDup (grid X)).
    { apply grid_nodup; [exact HX|]. intros d E. apply H, Exists_exists. pose proof (Z.mod_pos_bound d n ltac:(lia)) as R. exists (Z.to_nat (d mod n)). split; [apply in_seq; lia|].
      rewrite Z2Nat.id, kill_mod by (try assumption; lia). exact E. }
    assert (IC : incl (grid X) (all_points p Pp a b)).
    { intros Y K. apply all_points_in. unfold grid in K. apply in_map_iff in K. destruct K as (ij & <- & _). apply add_curve; try assumption; apply zmul_curve; assumption. }
    pose proof (NoDup_incl_length ND IC) as L. pose proof (all_points_bound p Pp a b) as AB. pose proof (grid_length X) as GL. lia.
Qed.
Lemma distinct i j : 0 <= i < n -> 0 <= j < n -> zmul a i G = zmul a j G -> i = j.
Proof.
  intros Hi Hj E. pose proof (collect G 0 i 0 j HG) as K. rewrite E in K. specialize (K eq_refl). rewrite Z.sub_diag, (zmul_0 F a) in K. apply kill_zero in K; [|exact HG]. destruct K; [contradiction|]. apply below_eq; assumption.
Qed.
Lemma count : has_points a b n.
Proof.
  pose proof (prime_ge_2 _ Pn) as N2. exists (map (fun i => zmul a (Z.of_nat i) G) (seq 0 (Z.to_nat n))). split; [|split].
  - apply nodup_map; [apply seq_NoDup|]. intros i j Hi Hj E. rewrite in_seq in Hi, Hj. apply distinct in E; lia.
  - intros X. split.
    + intros H. apply in_map_iff in H. destruct H as (i & <- & _). apply zmul_curve; assumption.
    + intros H. destruct (multiples X H) as (d & Hd & ->). apply in_map_iff. exists (Z.to_nat d). rewrite Z2Nat.id by lia. split; [reflexivity|]. apply in_seq. lia.
  - rewrite map_length, seq_length. lia.
Qed.
Lemma private X : C X -> X <> Inf -> exists d, private_key a G n d X /\ forall d', private_key a G n d' X -> d' = d.
Proof.
  intros HX X0. destruct (multiples X HX) as (d & Hd & E). exists d. split.
  - split; [|exact E]. destruct (Z.eq_dec d 0) as [-> |]; [rewrite (zmul_0 F a) in E; contradiction|lia].
  - intros d' (R & E'). apply distinct; [lia|exact Hd|]. congruence.
Qed.
End CYCLIC.

Section PAIR.
Variable c : cap. Variable C : curve.
Variable Pp : prime (value (cu_p C)).
Notation p := (cu_p C). Notation n := (cu_n C). Notation P := (value (cu_p C)). Notation N := (value (cu_n C)).
Notation A := (kval p Pp (cu_a C)). Notation B := (kval p Pp (cu_b C)). Notation G := (aff_pt p Pp (cu_g C)).
Notation on := (on_curve A B).
Notation sig := (signature (coord p Pp) A G N).
Notation acc := (accepts (coord p Pp) A G N).
Hypothesis U : usable c C Pp.
Local Lemma uEC : ecdsa_curve c C Pp. Proof. apply U. Qed.
Local Lemma uTW : (1 + 1)%f <> (0%f : GFp p Pp). Proof. exact (two_ne c p Pp _ _ (eCO c C Pp uEC)). Qed.
Local Lemma uHD : disc A B <> 0%f. Proof. exact (Hd c p Pp _ _ (eCO c C Pp uEC)). Qed.
Local Lemma uGon : on G. Proof. exact (eGon c C Pp uEC). Qed.
Local Lemma uPn : prime N. Proof. exact (ePn c C Pp uEC). Qed.
Local Lemma uG0 : G <> Inf. Proof. apply U. Qed.
Local Lemma uAll X : on X -> zmul A N X = Inf. Proof. apply U. Qed.
Local Lemma uBig : 2 * P + 1 < N * N. Proof. destruct U as (_ & _ & H & _). nia. Qed.
Local Lemma uN : 2 < N. Proof. destruct U as (_ & _ & _ & H & _). lia. Qed.
Lemma usable_points : has_points A B N.
Proof. apply (count P Pp A B uTW uHD N uPn uBig uAll G uGon uG0). Qed.
Lemma usable_private X : on X -> X <> Inf -> exists d, private_key A G N d X /\ forall d', private_key A G N d' X -> d' = d.
Proof. apply (private P Pp A B uTW uHD N uPn uBig uAll G uGon uG0). Qed.
Lemma private_on d X : private_key A G N d X -> on X /\ X <> Inf.
Proof.
  intros (R & ->). split; [apply zmul_curve; [exact uTW|exact uGon]|]. intros E. assert (d = 0); [|lia].
  apply (distinct P Pp A B uTW uHD N uPn uAll G uGon uG0); [lia|lia|]. etransitivity; [exact E|reflexivity].
Qed.
(** the nonce of an accepted signature *)
Lemma accepts_signature d e r s : 1 <= d < N -> acc (zmul A d G) e r s -> exists k, 1 <= k < N /\ sig d k e r s.
Proof.
  intros Hd (_ & Hr & Hs & w & x & y & W & E & X). pose proof uN as N2. set (k := (w * (e + r * d)) mod N).
  assert (EK : zmul A k G = Aff x y).
  { rewrite <- E, <- (zmul_mul _ A B uTW uHD), <- (zmul_add _ A B uTW uHD) by exact uGon. apply (killed_cong _ A B uTW uHD N G _ _ (conj uGon (uAll G uGon))).
    unfold k. rewrite Zmod_mod, Zplus_mod_idemp_l, <- Zplus_mod_idemp_r, Zmult_mod_idemp_l, Zplus_mod_idemp_r. f_equal. ring. }
  assert (RK : 0 <= k < N) by (apply Z.mod_pos_bound; lia). exists k. split.
  { destruct (Z.eq_dec k 0) as [E0|]; [rewrite E0 in EK; rewrite (zmul_0 _ A) in EK; discriminate|lia]. }
  split; [exact Hr|]. split; [exact Hs|]. split; [|exists x, y; split; assumption].
  unfold k. rewrite Zmult_mod_idemp_l. replace (w * (e + r * d) * s) with ((s * w) * (e + r * d)) by ring. rewrite <- Zmult_mod_idemp_l, W, Z.mul_1_l. reflexivity.
Qed.
Lemma nonce_unique d k k' e r s : 1 <= k < N -> 1 <= k' < N -> sig d k e r s -> sig d k' e r s -> k = k'.
Proof.
  intros Hk Hk' (_ & Hs & E & _) (_ & _ & E' & _). pose proof uN as N2. rewrite <- E' in E. apply (below_eq N); [lia|lia|].
  assert (D : (N | (k - k') * s)). { apply Z.mod_divide; [lia|]. rewrite Z.mul_sub_distr_r, Zminus_mod, E, Z.sub_diag. reflexivity. }
  apply prime_mult in D; [|exact uPn]. destruct D as [D|D]; [exact D|]. apply Z.divide_pos_le in D; lia.
Qed.
Lemma pair_verify d q msg r s : good2 c p q -> private_key A G N d (aff_pt p Pp q) -> all_bytes msg -> fits_order C msg -> valid c r -> valid c s ->
  exists v, ecdsa_verify c C q msg r s = Ok v /\ (v = true <-> exists k, 1 <= k < N /\ sig d k (leftmost (bitlen N) msg) (value r) (value s)).
Proof.
  intros Gq PK Am Fm Vr Vs. destruct (private_on d _ PK) as (Cq & Q0). pose proof PK as (Rd & Eq). destruct U as (_ & _ & (_ & PN) & _).
  destruct (verify_std c C Pp uEC q msg r s PN Gq Cq Am Fm Vr Vs) as (v & K & HV). exists v. split; [exact K|]. rewrite HV, Eq. split.
  - apply accepts_signature. exact Rd.
  - intros (k & _ & S). apply (sign_claim c C Pp uEC d k); [split; [exact uGon|apply uAll, uGon]|intros I; apply Q0; rewrite Eq; exact I|exact S].
Qed.
(** a key on the curve accepts exactly the signatures of one holder *)
Lemma key_holder q : good2 c p q -> on (aff_pt p Pp q) -> aff_pt p Pp q <> Inf ->
  exists d, private_key A G N d (aff_pt p Pp q) /\ (forall d', private_key A G N d' (aff_pt p Pp q) -> d' = d) /\
  forall msg r s, all_bytes msg -> fits_order C msg -> valid c r -> valid c s ->
    exists v, ecdsa_verify c C q msg r s = Ok v /\ (v = true <-> exists k, 1 <= k < N /\ sig d k (leftmost (bitlen N) msg) (value r) (value s)).
Proof.
  intros Gq Cq Q0. destruct (usable_private _ Cq Q0) as (d & PK & UQ). exists d. split; [exact PK|]. split; [exact UQ|]. intros. apply pair_verify; assumption.
Qed.
(** generate_point reaches every key *)
Lemma bytes_exist k : forall d, 0 <= d < 256 ^ Z.of_nat k -> exists l, all_bytes l /\ length l = k /\ be_value l = d.
Proof.
  induction k as [|k IH]; intros d Hd.
  - exists []. split; [constructor|]. split; [reflexivity|]. cbn in Hd. rewrite be_nil. lia.
  - destruct (IH (d / 256)) as (l & Al & Ll & El).
    { rewrite Nat2Z.inj_succ, Z.pow_succ_r in Hd by lia. split; [apply Z.div_pos; lia|apply Z.div_lt_upper_bound; lia]. }
    exists (l ++ [d mod 256]). split; [apply Forall_app; split; [exact Al|constructor; [apply Z.mod_pos_bound; lia|constructor]]|]. split; [rewrite app_length; cbn [length]; lia|].
    rewrite be_app, El. change (Z.of_nat (length [d mod 256])) with 1. replace (be_value [d mod 256]) with (d mod 256) by (rewrite be_cons, be_nil; change (256 ^ Z.of_nat (@length Z [])) with 1; lia).
    pose proof (Z.div_mod d 256 ltac:(lia)). lia.
Qed.
Lemma generate_all q : good2 c p q -> on (aff_pt p Pp q) -> aff_pt p Pp q <> Inf ->
  exists d R, valid c d /\ generate_point c C d = Ok R /\ good2 c p R /\ aff_eqb (fe_ops c p) R q = true.
Proof.
  intros Gq Cq Q0. destruct (usable_private _ Cq Q0) as (d & (Rd & Eq) & _).
  pose proof (eHn c C Pp uEC) as Hn. pose proof (abs_value_bound c n (proj1 Hn)) as AB. pose proof (room_1 c n Hn) as RM.
  destruct (bytes_exist (4 * size n) d) as (l & Al & Ll & El).
  { rewrite Nat2Z.inj_mul. change 256 with (2 ^ 8). rewrite <- Z.pow_mul_r by lia. replace (8 * (Z.of_nat 4 * Z.of_nat (size n))) with (32 * Z.of_nat (size n)) by lia. lia. }
  destruct (of_bytes_spec c l Al) as (x & _ & (Vx & _) & Ex).
  { rewrite Ll. replace ((4 * size n + 3) / 4)%nat with (size n) by (apply (Nat.div_unique _ _ _ 3); lia). apply room_le with (size n + 1)%nat; [exact RM|]. pose proof (proj1 Hn) as (_ & S1 & _). lia. }
  destruct U as (_ & B0 & _). destruct (generate_claim c C Pp uEC x Vx B0) as (K & _). destruct K as (R & K & GR & XR); [lia|]. exists x, R. split; [exact Vx|]. split; [exact K|]. split; [exact GR|].
  apply (aff_eqb_claim c p Pp _ _ (eCO c C Pp uEC)); [exact GR|exact Gq|]. rewrite XR, Ex, El. symmetry. exact Eq.
Qed.
End PAIR.

(** the named curves *)
Lemma named_holder wasm m C (Pp : prime (value (cu_p C))) q : In m named_curves -> named_curve wasm m = Ok C ->
  let c := named_cap wasm m in let A := kval (cu_p C) Pp (cu_a C) in let B := kval (cu_p C) Pp (cu_b C) in let G := aff_pt (cu_p C) Pp (cu_g C) in let N := hexval (pm_n m) in
  has_points A B N /\
  (good2 c (cu_p C) q -> on_curve A B (aff_pt (cu_p C) Pp q) -> aff_pt (cu_p C) Pp q <> Inf ->
   exists d, private_key A G N d (aff_pt (cu_p C) Pp q) /\ (forall d', private_key A G N d' (aff_pt (cu_p C) Pp q) -> d' = d) /\
   forall msg r s, all_bytes msg -> digest_fits m msg -> valid c r -> valid c s ->
    exists v, ecdsa_verify c C q msg r s = Ok v /\ (v = true <-> exists k, 1 <= k < N /\ signature (coord (cu_p C) Pp) A G N d k (leftmost (bitlen N) msg) (value r) (value s))).
Proof.
  intros IN NC. cbv zeta. rewrite <- (proj1 (n_value wasm m C IN NC)). pose proof (nU wasm m C IN NC Pp) as U. split; [apply (usable_points _ _ _ U)|]. intros Gq Cq Q0.
  destruct (key_holder _ _ _ U q Gq Cq Q0) as (d & H1 & H2 & H3). exists d. split; [exact H1|]. split; [exact H2|]. intros msg r s Am Fm. apply H3; [exact Am|]. apply (nFit wasm m C IN NC). exact Fm.
Qed.
