(** What an accepted ECDSA signature binds: how many s belong to one r, how many digests to one signature, and what
    two signatures with one r reveal. *)
From Coq Require Import List ZArith Znumtheory Bool Lia.
From Verif Require Import Outcome WordsModel WordsSpec UtilsSpec BigintModel BigintSpec BigintProofs BigintBytes BigintClaims NumModel NumProofs FpModel FpSpec FpProofs FpClaims EcGroup EcGroupProofs ZpField EcModel EcSpec EcScalar EcFeSpec EcCurveModel EcClaims EcLaws EcCurveSpec EcCodec EcCurveClaims EcdsaModel EcdsaSpec EcdsaProofs EcdsaRecover EcdsaClaims GroupOrder EcKey GroupSpec NamedModel NamedSpec NamedGroup CurveVerify KeyPairSpec KeyPair.
Import ListNotations.
Open Scope Z_scope.

(** a relation that gives different labels to different keys *)
Lemma label_bound {A K I : Type} (key : A -> K) (R : A -> I -> Prop) (ids : list I) : forall l, NoDup (map key l) -> (forall x, In x l -> exists i, In i ids /\ R x i) ->
  (forall x y i, In x l -> In y l -> R x i -> R y i -> key x = key y) -> (length l <= length ids)%nat.
Proof.
  intros l ND EX U.
  assert (G : exists f, length f = length l /\ NoDup f /\ incl f ids /\ (forall i, In i f -> exists x, In x l /\ R x i)).
  { clear -ND EX U. induction l as [|x l IH].
    - exists []. split; [reflexivity|]. split; [constructor|]. split; [intros i []|intros i []].
    - cbn [map] in ND. inversion ND as [|? ? N1 N2]; subst. destruct IH as (f & L & NF & IF & RF).
      + exact N2.
      + intros y Iy. apply EX. right. exact Iy.
      + intros y z i Iy Iz. apply U; right; assumption.
      + destruct (EX x (or_introl eq_refl)) as (i & Ii & Ri). exists (i :: f). split; [cbn [length]; lia|]. split; [|split].
        * constructor; [|exact NF]. intros J. destruct (RF i J) as (y & Iy & Ry). apply N1. rewrite (U x y i (or_introl eq_refl) (or_intror Iy) Ri Ry). apply in_map. exact Iy.
        * intros j [<-|J]; [exact Ii|apply IF; exact J].
        * intros j [<-|J]; [exists x; split; [left; reflexivity|exact Ri]|]. destruct (RF j J) as (y & Iy & Ry). exists y. split; [right; exact Iy|exact Ry]. }
  destruct G as (f & L & NF & IF & _). rewrite <- L. apply NoDup_incl_length; assumption.
Qed.

Lemma cong_ex m u v : 0 < m -> u mod m = v mod m -> exists t, u = v + t * m.
Proof. intros M H. exists (u / m - v / m). pose proof (Z.div_mod u m ltac:(lia)). pose proof (Z.div_mod v m ltac:(lia)). lia. Qed.

Lemma arith_1 e e' r d z t m : e + r * d = z * m -> 2 * r * d = - (e + e') + t * m -> e - e' = (2 * z - t) * m.
Proof. intros H1 H2. replace ((2 * z - t) * m) with (2 * (z * m) - t * m) by ring. rewrite <- H1. replace (t * m) with (2 * r * d + (e + e')) by lia. ring. Qed.
Lemma arith_2 e e' r d t m : 2 * r * d = - (e + e') + t * m -> e + e' + 2 * r * d = t * m.
Proof. lia. Qed.

Section BIND.
Variable c : cap. Variable C : curve.
Variable Pp : prime (value (cu_p C)).
Notation p := (cu_p C). Notation P := (value (cu_p C)). Notation N := (value (cu_n C)).
Notation A := (kval p Pp (cu_a C)). Notation B := (kval p Pp (cu_b C)). Notation G := (aff_pt p Pp (cu_g C)).
Notation on := (on_curve A B).
Notation sig := (signature (coord p Pp) A G N).
Hypothesis U : usable c C Pp.
Notation hTW := (KeyPair.uTW c C Pp U). Notation hHD := (KeyPair.uHD c C Pp U). Notation hGon := (KeyPair.uGon c C Pp U).

Lemma n_odd : N mod 2 = 1.
Proof.
  pose proof (KeyPair.uPn c C Pp U) as Pn. pose proof (KeyPair.uN c C Pp U) as N2. destruct (Z.eq_dec (N mod 2) 1) as [E|E]; [exact E|exfalso].
  pose proof (Z.mod_pos_bound N 2 ltac:(lia)). assert (D : (2 | N)) by (apply Z.mod_divide; lia). apply prime_divisors in D; [|exact Pn]. lia.
Qed.
Lemma abscissa x r : coord p Pp x mod N = r -> coord p Pp x = r \/ coord p Pp x = r + N.
Proof.
  intros E. unfold coord in *. pose proof (zval_range P x) as R. destruct U as (_ & _ & (_ & PN) & NP & _). pose proof (Z.div_mod (zval x) N ltac:(lia)) as D. rewrite E in D.
  assert (0 <= zval x / N) by (apply Z.div_pos; lia). pose proof (Z.mod_pos_bound (zval x) N ltac:(lia)). assert (zval x / N < 2) by (apply Z.div_lt_upper_bound; lia).
  assert (Q : zval x / N = 0 \/ zval x / N = 1) by lia. destruct Q as [Q|Q]; rewrite Q in D; [left|right]; lia.
Qed.
Lemma neg_point k : zmul A (N - k) G = popp (zmul A k G).
Proof. replace (N - k) with (N + - k) by ring. rewrite (zmul_add _ A B hTW hHD), (KeyPair.uAll c C Pp U G hGon), (zmul_opp _ A B) by exact hGon. reflexivity. Qed.
(** two multiples of the generator with the same abscissa *)
Lemma same_abscissa k k' x x' y y' : 1 <= k < N -> 1 <= k' < N -> zmul A k G = Aff x y -> zmul A k' G = Aff x' y' -> coord p Pp x = coord p Pp x' -> k' = k \/ k' = N - k.
Proof.
  intros Hk Hk' E E' X. apply (zval_inj P) in X. subst x'. pose proof (zmul_curve _ A B hTW k G hGon) as C1. pose proof (zmul_curve _ A B hTW k' G hGon) as C2. rewrite E in C1. rewrite E' in C2.
  pose proof (distinct P Pp A B hTW hHD N (KeyPair.uPn c C Pp U) (KeyPair.uAll c C Pp U) G hGon (KeyPair.uG0 c C Pp U)) as DI.
  destruct (same_x _ A B x y y' C1 C2) as [->| ->].
  - left. apply DI; [lia|lia|etransitivity; [exact E'|symmetry; exact E]].
  - right. apply DI; [lia|lia|]. etransitivity; [exact E'|]. symmetry. etransitivity; [exact (neg_point k)|]. etransitivity; [exact (f_equal popp E)|]. exact (popp_popp _ (Aff x y')).
Qed.
Lemma cancel k u v : 1 <= k < N -> (k * u) mod N = (k * v) mod N -> u mod N = v mod N.
Proof.
  intros Hk E. pose proof (KeyPair.uN c C Pp U) as N2. assert (D : (N | k * (u - v))) by (apply Z.mod_divide; [lia|]; rewrite Z.mul_sub_distr_l, Zminus_mod, E, Z.sub_diag; reflexivity).
  apply prime_mult in D; [|exact (KeyPair.uPn c C Pp U)]. destruct D as [D|D]; [apply Z.divide_pos_le in D; lia|]. destruct D as (z & Ez). replace u with (v + z * N) by lia. apply Z_mod_plus_full.
Qed.
Lemma neg_mod k u : ((N - k) * u) mod N = (k * - u) mod N.
Proof. replace ((N - k) * u) with (k * - u + u * N) by ring. apply Z_mod_plus_full. Qed.

(** one r that has one abscissa only *)
Lemma one_nonce k k' d d' e e' r s s' : 1 <= k < N -> 1 <= k' < N -> P <= r + N -> sig d k e r s -> sig d' k' e' r s' -> k' = k \/ k' = N - k.
Proof.
  intros Hk Hk' HR (_ & _ & _ & x & y & E & X) (_ & _ & _ & x' & y' & E' & X'). apply (same_abscissa k k' x x' y y' Hk Hk' E E').
  pose proof (zval_range P x) as R. pose proof (zval_range P x') as R'. apply abscissa in X. apply abscissa in X'. unfold coord in *. lia.
Qed.
Lemma s_two d k k' e r s s' : 1 <= k < N -> 1 <= k' < N -> P <= r + N -> sig d k e r s -> sig d k' e r s' -> s' = s \/ s' = N - s.
Proof.
  intros Hk Hk' HR S S'. destruct (one_nonce k k' d d e e r s s' Hk Hk' HR S S') as [->| ->]; destruct S as (_ & Hs & E & _); destruct S' as (_ & Hs' & E' & _).
  - left. rewrite <- E in E'. apply cancel in E'; [|exact Hk]. rewrite !Z.mod_small in E' by lia. exact E'.
  - right. rewrite <- E, neg_mod in E'. apply cancel in E'; [|exact Hk]. rewrite (Z.mod_small s) in E' by lia. rewrite <- E'. rewrite Z.mod_opp_l_nz; rewrite ?Z.mod_small; lia.
Qed.
Lemma digest_two d k k' e e' r s : 1 <= k < N -> 1 <= k' < N -> P <= r + N -> sig d k e r s -> sig d k' e' r s -> e' mod N = e mod N \/ (e + e' + 2 * r * d) mod N = 0.
Proof.
  intros Hk Hk' HR S S'. pose proof (KeyPair.uN c C Pp U) as N2. destruct (one_nonce k k' d d e e' r s s Hk Hk' HR S S') as [->| ->]; destruct S as (_ & Hs & E & _); destruct S' as (_ & _ & E' & _).
  - left. rewrite E in E'. replace e' with (e' + r * d - r * d) by ring. replace e with (e + r * d - r * d) by ring. rewrite Zminus_mod, <- E', <- Zminus_mod. reflexivity.
  - right. rewrite neg_mod in E'. replace (e + e' + 2 * r * d) with ((e + r * d) + (e' + r * d)) by ring. rewrite Zplus_mod, <- E, <- E', <- Zplus_mod. replace (k * s + k * - s) with 0 by ring. apply Z.mod_0_l. lia.
Qed.
Lemma reuse d k k' e e' r s s' : 1 <= k < N -> 1 <= k' < N -> P <= r + N -> sig d k e r s -> sig d k' e' r s' ->
  (r * d * (s - s')) mod N = (s' * e - s * e') mod N \/ (r * d * (s + s')) mod N = (- (s' * e + s * e')) mod N.
Proof.
  intros Hk Hk' HR S S'. pose proof (KeyPair.uN c C Pp U) as N2.
  assert (DV : forall u v, u mod N = v mod N -> exists z, u = v + z * N). { intros u v H. exists (u / N - v / N). pose proof (Z.div_mod u N ltac:(lia)). pose proof (Z.div_mod v N ltac:(lia)). lia. }
  destruct (one_nonce k k' d d e e' r s s' Hk Hk' HR S S') as [->| ->]; destruct S as (_ & _ & E & _); destruct S' as (_ & _ & E' & _).
  - left. apply DV in E. apply DV in E'. destruct E as (z & E). destruct E' as (z' & E'). replace (r * d * (s - s')) with (s' * e - s * e' + (s' * z - s * z') * N); [apply Z_mod_plus_full|].
    assert (Q : s' * (k * s) = s * (k * s')) by ring. rewrite E, E' in Q. clear - Q. lia.
  - right. rewrite neg_mod in E'. apply DV in E. apply DV in E'. destruct E as (z & E). destruct E' as (z' & E'). replace (r * d * (s + s')) with (- (s' * e + s * e') + (- s' * z - s * z') * N); [apply Z_mod_plus_full|].
    assert (Q : s' * (k * s) = - (s * (k * - s'))) by ring. rewrite E, E' in Q. clear - Q. lia.
Qed.

(** the label of a signature: which abscissa, and which half the nonce lies in *)
Definition labels : list (bool * bool) := [(false, false); (false, true); (true, false); (true, true)].
Definition labelled (d e r s : Z) (i : bool * bool) : Prop :=
  exists k x y, 1 <= k < N /\ sig d k e r s /\ zmul A k G = Aff x y /\ coord p Pp x = (if fst i then r + N else r) /\ (if snd i then 2 * k < N else N < 2 * k).
Lemma label_ex d k e r s : 1 <= k < N -> sig d k e r s -> exists i, In i labels /\ labelled d e r s i.
Proof.
  intros Hk S. pose proof S as (_ & _ & _ & x & y & E & X). apply abscissa in X. pose proof n_odd as NO. pose proof (Z.div_mod N 2 ltac:(lia)) as D.
  exists (Z.eqb (coord p Pp x) (r + N), Z.ltb (2 * k) N). split; [destruct (Z.eqb _ _), (Z.ltb _ _); cbn; tauto|]. exists k, x, y. split; [exact Hk|]. split; [exact S|]. split; [exact E|]. cbn [fst snd]. split.
  - destruct (Z.eqb_spec (coord p Pp x) (r + N)); lia.
  - destruct (Z.ltb_spec (2 * k) N); lia.
Qed.
Lemma label_nonce d d' e e' r s s' i : labelled d e r s i -> labelled d' e' r s' i -> exists k, 1 <= k < N /\ sig d k e r s /\ sig d' k e' r s'.
Proof.
  intros (k & x & y & Hk & S & E & X & H) (k' & x' & y' & Hk' & S' & E' & X' & H'). exists k. split; [exact Hk|]. split; [exact S|].
  destruct (same_abscissa k k' x x' y y' Hk Hk' E E' ltac:(congruence)) as [->| ->]; [exact S'|exfalso]. destruct (snd i); lia.
Qed.
Lemma label_s d e r s s' i : labelled d e r s i -> labelled d e r s' i -> s = s'.
Proof.
  intros L L'. destruct (label_nonce d d e e r s s' i L L') as (k & Hk & (_ & Hs & E & _) & (_ & Hs' & E' & _)). rewrite <- E' in E. apply cancel in E; [|exact Hk]. rewrite !Z.mod_small in E by lia. exact E.
Qed.
Lemma label_e d e e' r s i : labelled d e r s i -> labelled d e' r s i -> e mod N = e' mod N.
Proof.
  intros L L'. destruct (label_nonce d d e e' r s s i L L') as (k & Hk & (_ & _ & E & _) & (_ & _ & E' & _)). rewrite E in E'.
  replace e with (e + r * d - r * d) by ring. replace e' with (e' + r * d - r * d) by ring. rewrite Zminus_mod, E', <- Zminus_mod. reflexivity.
Qed.

(** verification *)
Notation lm := (leftmost (bitlen N)).
Variable q : option (fe * fe).
Hypothesis Gq : good2 c p q.
Section KEY.
Variable d : Z.
Hypothesis PK : private_key A G N d (aff_pt p Pp q).
Lemma accepted msg r s : all_bytes msg -> fits_order C msg -> valid c r -> valid c s -> ecdsa_verify c C q msg r s = Ok true -> exists k, 1 <= k < N /\ sig d k (lm msg) (value r) (value s).
Proof. intros Am Fm Vr Vs H. destruct (pair_verify c C Pp U d q msg r s Gq PK Am Fm Vr Vs) as (v & E & K). rewrite E in H. injection H as ->. apply K. reflexivity. Qed.
Lemma decided msg r s : all_bytes msg -> fits_order C msg -> valid c r -> valid c s -> exists v, ecdsa_verify c C q msg r s = Ok v /\ (v = true <-> exists k, 1 <= k < N /\ sig d k (lm msg) (value r) (value s)).
Proof. intros. apply (pair_verify c C Pp U d q msg r s); assumption. Qed.
Lemma digest_claim msg msg' r s : all_bytes msg -> fits_order C msg -> all_bytes msg' -> fits_order C msg' -> valid c r -> valid c s -> P <= value r + N ->
  ecdsa_verify c C q msg r s = Ok true -> ecdsa_verify c C q msg' r s = Ok true -> lm msg' mod N = lm msg mod N \/ (lm msg + lm msg' + 2 * value r * d) mod N = 0.
Proof.
  intros Am Fm Am' Fm' Vr Vs HR H H'. destruct (accepted msg r s Am Fm Vr Vs H) as (k & Hk & S). destruct (accepted msg' r s Am' Fm' Vr Vs H') as (k' & Hk' & S'). apply (digest_two d k k' _ _ _ (value s)); assumption.
Qed.
Lemma both_sig msg msg' k r s : (lm msg + lm msg' + 2 * r * d) mod N = 0 -> 1 <= k < N -> sig d k (lm msg) r s -> sig d (N - k) (lm msg') r s.
Proof.
  intros E0 Hk (Hr & Hs & E & x & y & K & X). split; [exact Hr|]. split; [exact Hs|]. pose proof (KeyPair.uN c C Pp U) as N2. split.
  - rewrite neg_mod. replace (k * - s) with (- (k * s)) by ring. apply Z.mod_divide in E0; [|lia]. destruct E0 as (z & E0).
    assert (D : exists t, k * s = lm msg + r * d + t * N). { exists (k * s / N - (lm msg + r * d) / N). pose proof (Z.div_mod (k * s) N ltac:(lia)). pose proof (Z.div_mod (lm msg + r * d) N ltac:(lia)). lia. }
    destruct D as (t & D). rewrite D. replace (- (lm msg + r * d + t * N)) with (lm msg' + r * d + (- z - t) * N) by lia. apply Z_mod_plus_full.
  - exists x, (- y)%f. split; [|exact X]. rewrite neg_point, K. reflexivity.
Qed.
Lemma both_claim msg msg' r s : all_bytes msg -> fits_order C msg -> all_bytes msg' -> fits_order C msg' -> valid c r -> valid c s ->
  (lm msg + lm msg' + 2 * value r * d) mod N = 0 -> ecdsa_verify c C q msg' r s = ecdsa_verify c C q msg r s.
Proof.
  intros Am Fm Am' Fm' Vr Vs E0. destruct (decided msg r s Am Fm Vr Vs) as (v & -> & K). destruct (decided msg' r s Am' Fm' Vr Vs) as (v' & -> & K'). f_equal. apply eq_true_iff_eq. rewrite K, K'. split; intros (k & Hk & S); exists (N - k); (split; [lia|]).
  - apply (both_sig msg' msg k); [|exact Hk|exact S]. rewrite <- E0. f_equal. ring.
  - apply (both_sig msg msg' k); assumption.
Qed.
Lemma reuse_claim msg msg' r s s' : all_bytes msg -> fits_order C msg -> all_bytes msg' -> fits_order C msg' -> valid c r -> valid c s -> valid c s' -> P <= value r + N ->
  ecdsa_verify c C q msg r s = Ok true -> ecdsa_verify c C q msg' r s' = Ok true ->
  (value r * d * (value s - value s')) mod N = (value s' * lm msg - value s * lm msg') mod N \/ (value r * d * (value s + value s')) mod N = (- (value s' * lm msg + value s * lm msg')) mod N.
Proof.
  intros Am Fm Am' Fm' Vr Vs Vs' HR H H'. destruct (accepted msg r s Am Fm Vr Vs H) as (k & Hk & S). destruct (accepted msg' r s' Am' Fm' Vr Vs' H') as (k' & Hk' & S'). apply (reuse d k k' _ _ _ _ _ Hk Hk' HR S S').
Qed.
End KEY.
Hypothesis Cq : on (aff_pt p Pp q). Hypothesis Q0 : aff_pt p Pp q <> Inf.
Lemma s_claim msg r s s' : all_bytes msg -> fits_order C msg -> valid c r -> valid c s -> valid c s' -> P <= value r + N ->
  ecdsa_verify c C q msg r s = Ok true -> ecdsa_verify c C q msg r s' = Ok true -> value s' = value s \/ value s' = N - value s.
Proof.
  intros Am Fm Vr Vs Vs' HR H H'. destruct (usable_private c C Pp U _ Cq Q0) as (d & PK & _). destruct (accepted d PK msg r s Am Fm Vr Vs H) as (k & Hk & S). destruct (accepted d PK msg r s' Am Fm Vr Vs' H') as (k' & Hk' & S'). apply (s_two d k k' _ _ _ _ Hk Hk' HR S S').
Qed.
Lemma s_four msg r l : all_bytes msg -> fits_order C msg -> valid c r -> NoDup (map value l) -> (forall s, In s l -> valid c s /\ ecdsa_verify c C q msg r s = Ok true) -> (length l <= 4)%nat.
Proof.
  intros Am Fm Vr ND H. destruct (usable_private c C Pp U _ Cq Q0) as (d & PK & _). change 4%nat with (length labels). apply (label_bound value (fun s i => labelled d (lm msg) (value r) (value s) i)); [exact ND| |].
  - intros s I. destruct (H s I) as (Vs & K). destruct (accepted d PK msg r s Am Fm Vr Vs K) as (k & Hk & S). apply (label_ex d k); assumption.
  - intros s s' i _ _. apply label_s.
Qed.
Lemma digest_four r s l : valid c r -> valid c s -> NoDup (map (fun m => lm m mod N) l) -> (forall m, In m l -> all_bytes m /\ fits_order C m /\ ecdsa_verify c C q m r s = Ok true) -> (length l <= 4)%nat.
Proof.
  intros Vr Vs ND H. destruct (usable_private c C Pp U _ Cq Q0) as (d & PK & _). change 4%nat with (length labels). apply (label_bound (fun m => lm m mod N) (fun m i => labelled d (lm m) (value r) (value s) i)); [exact ND| |].
  - intros m I. destruct (H m I) as (Am & Fm & K). destruct (accepted d PK m r s Am Fm Vr Vs K) as (k & Hk & S). apply (label_ex d k); assumption.
  - intros m m' i _ _. apply label_e.
Qed.
End BIND.

(** one signature for two messages *)
Section TWICE.
Variable c : cap. Variable C : curve.
Variable Pp : prime (value (cu_p C)).
Notation p := (cu_p C). Notation n := (cu_n C). Notation P := (value (cu_p C)). Notation N := (value (cu_n C)).
Notation A := (kval p Pp (cu_a C)). Notation B := (kval p Pp (cu_b C)). Notation G := (aff_pt p Pp (cu_g C)).
Notation on := (on_curve A B).
Notation lm := (leftmost (bitlen N)).
Hypothesis U : usable c C Pp.
Lemma big_exists d : 0 <= d < N -> exists x, valid c x /\ value x = d.
Proof.
  intros Rd. pose proof (eHn c C Pp (KeyPair.uEC c C Pp U)) as Hn. pose proof (abs_value_bound c n (proj1 Hn)) as AB. pose proof (room_1 c n Hn) as RM.
  destruct (bytes_exist (4 * size n) d) as (l & Al & Ll & El).
  { rewrite Nat2Z.inj_mul. change 256 with (2 ^ 8). rewrite <- Z.pow_mul_r by lia. replace (8 * (Z.of_nat 4 * Z.of_nat (size n))) with (32 * Z.of_nat (size n)) by lia. lia. }
  destruct (of_bytes_spec c l Al) as (x & _ & (Vx & _) & Ex).
  { rewrite Ll. replace ((4 * size n + 3) / 4)%nat with (size n) by (apply (Nat.div_unique _ _ _ 3); lia). apply room_le with (size n + 1)%nat; [exact RM|]. pose proof (proj1 Hn) as (_ & S1 & _). lia. }
  exists x. split; [exact Vx|]. rewrite Ex. exact El.
Qed.
Lemma inverse_mod u : u mod N <> 0 -> exists w, (u * w) mod N = 1.
Proof.
  intros H. pose proof (KeyPair.uN c C Pp U) as N2. assert (D : ~ (N | u)) by (intros D; apply H, Z.mod_divide; [lia|exact D]).
  destruct (rel_prime_bezout _ _ (prime_rel_prime N (KeyPair.uPn c C Pp U) u D)) as [x y E]. exists y. replace (u * y) with (1 + (- x) * N) by lia. rewrite Z_mod_plus_full. apply Z.mod_small. lia.
Qed.
Lemma no_factor u v : u mod N <> 0 -> v mod N <> 0 -> (u * v) mod N <> 0.
Proof.
  intros Hu Hv E. pose proof (KeyPair.uN c C Pp U) as N2. apply Z.mod_divide in E; [|lia]. apply prime_mult in E; [|exact (KeyPair.uPn c C Pp U)]. destruct E as [E|E]; apply Z.mod_divide in E; lia.
Qed.
Lemma twice msg msg' : all_bytes msg -> fits_order C msg -> all_bytes msg' -> fits_order C msg' -> (lm msg - lm msg') mod N <> 0 -> (lm msg + lm msg') mod N <> 0 ->
  (forall x y, G = Aff x y -> coord p Pp x mod N <> 0) ->
  exists q r s, good2 c p q /\ on (aff_pt p Pp q) /\ valid c r /\ valid c s /\ ecdsa_verify c C q msg r s = Ok true /\ ecdsa_verify c C q msg' r s = Ok true.
Proof.
  intros Am Fm Am' Fm' D0 S0 XG. pose proof (KeyPair.uN c C Pp U) as N2. pose proof (KeyPair.uG0 c C Pp U) as G0. destruct G as [|gx gy] eqn:EG; [contradiction|]. specialize (XG gx gy eq_refl).
  set (e := lm msg) in *. set (e' := lm msg') in *. set (r0 := coord p Pp gx mod N) in *.
  assert (Rr : 0 <= r0 < N) by (apply Z.mod_pos_bound; lia).
  assert (T2 : 2 mod N <> 0) by (rewrite Z.mod_small; lia).
  destruct (inverse_mod (2 * r0)) as (w & W). { apply no_factor; [exact T2|]. rewrite Z.mod_small; lia. }
  set (d := (- (e + e') * w) mod N).
  assert (Rd : 0 <= d < N) by (apply Z.mod_pos_bound; lia).
  assert (DD : exists t, 2 * r0 * d = - (e + e') + t * N).
  { assert (Q : (2 * r0 * d) mod N = (- (e + e')) mod N). { unfold d. rewrite Zmult_mod_idemp_r. replace (2 * r0 * (- (e + e') * w)) with (2 * r0 * w * - (e + e')) by ring. rewrite <- Zmult_mod_idemp_l, W, Z.mul_1_l. reflexivity. }
    apply cong_ex; [clear -N2; lia|exact Q]. }
  destruct DD as (t & DD).
  assert (Nd : d <> 0). { intros K. rewrite K in DD. apply S0. pose proof (arith_2 e e' r0 0 t N DD) as Q. rewrite Z.mul_0_r, Z.add_0_r in Q. rewrite Q. apply Z_mod_mult. }
  set (s0 := (e + r0 * d) mod N). assert (Rs : 0 <= s0 < N) by (apply Z.mod_pos_bound; lia).
  assert (Ns : s0 <> 0). { intros K. unfold s0 in K. apply Z.mod_divide in K; [|lia]. destruct K as (z & K). apply D0. rewrite (arith_1 e e' r0 d z t N K DD). apply Z_mod_mult. }
  assert (Rd' : 1 <= d < N) by (clear -Rd Nd; clearbody d; lia). assert (Rs' : 1 <= s0 < N) by (clear -Rs Ns; clearbody s0; lia). assert (Rr' : 1 <= r0 < N) by (clear -Rr XG; clearbody r0; lia).
  destruct (big_exists d Rd) as (x & Vx & Ex). destruct (big_exists r0 Rr) as (r & Vr & Er). destruct (big_exists s0 Rs) as (s & Vs & Es).
  destruct U as (_ & B0 & _). destruct (proj1 (generate_claim c C Pp (KeyPair.uEC c C Pp U) x Vx B0)) as (q & _ & Gq & Eq); [rewrite Ex; clear -Rd'; clearbody d; lia|]. rewrite Ex in Eq.
  assert (PK : private_key A G N d (aff_pt p Pp q)). { split; [exact Rd'|exact Eq]. }
  destruct (private_on c C Pp U d _ PK) as (Cq & _). exists q, r, s. split; [exact Gq|]. split; [exact Cq|]. split; [exact Vr|]. split; [exact Vs|].
  assert (OK : ecdsa_verify c C q msg r s = Ok true).
  { destruct (decided c C Pp U q Gq d PK msg r s Am Fm Vr Vs) as (v & E & K). rewrite E. f_equal. apply K. exists 1. split; [clear -N2; lia|]. rewrite Er, Es.
    split; [exact Rr'|]. split; [exact Rs'|]. split; [fold e; unfold s0; rewrite Z.mul_1_l, Zmod_mod; reflexivity|]. exists gx, gy. split; [|reflexivity]. rewrite (zmul_1 _ A). exact EG. }
  split; [exact OK|]. rewrite (both_claim c C Pp U q Gq d PK msg msg' r s Am Fm Am' Fm' Vr Vs); [exact OK|]. fold e e'. rewrite Er. rewrite (arith_2 e e' r0 d t N DD). apply Z_mod_mult.
Qed.
End TWICE.

(** the named curves *)
Lemma named_gx : forallb (fun m => negb (hexval (pm_gx m) mod hexval (pm_n m) =? 0)) named_curves = true.
Proof. vm_compute. reflexivity. Qed.
Lemma named_twice wasm m C (Pp : prime (value (cu_p C))) msg msg' : In m named_curves -> named_curve wasm m = Ok C -> all_bytes msg -> digest_fits m msg -> all_bytes msg' -> digest_fits m msg' ->
  let c := named_cap wasm m in let N := hexval (pm_n m) in let e := leftmost (bitlen N) in
  (e msg - e msg') mod N <> 0 -> (e msg + e msg') mod N <> 0 ->
  exists q r s, good2 c (cu_p C) q /\ on_curve (kval (cu_p C) Pp (cu_a C)) (kval (cu_p C) Pp (cu_b C)) (aff_pt (cu_p C) Pp q) /\ valid c r /\ valid c s /\ ecdsa_verify c C q msg r s = Ok true /\ ecdsa_verify c C q msg' r s = Ok true.
Proof.
  intros IN NC Am Fm Am' Fm'. cbv zeta. rewrite <- (proj1 (n_value wasm m C IN NC)). intros D0 S0.
  pose proof (nU wasm m C IN NC Pp) as U.
  destruct (twice _ C Pp U msg msg' Am (nFit wasm m C IN NC msg Fm) Am' (nFit wasm m C IN NC msg' Fm') D0 S0) as (q & r & s & H1 & H2 & H3).
  - intros x y EG. destruct (named_holds wasm m IN) as (C' & K' & HC'). rewrite NC in K'. injection K' as <-. destruct HC' as (EN & _ & _ & _ & _ & _ & (gx & gy & Eg & Gx & Vx & _) & _).
    rewrite Eg in EG. unfold aff_pt, abs_aff in EG. cbn [option_map fst snd] in EG. destruct (_ && _); [discriminate|]. injection EG as <- _.
    assert (EX : coord (cu_p C) Pp (fval (cu_p C) Pp gx) = hexval (pm_gx m)). { rewrite <- Vx. unfold coord, fval. cbn [zval zmk]. apply Z.mod_small. apply Gx. }
    pose proof named_gx as NG. rewrite forallb_forall in NG. specialize (NG m IN). rewrite (proj1 (n_value wasm m C IN NC)), EX. intros K. rewrite K in NG. discriminate.
  - exists q, r, s. split; [exact H1|]. split; [exact H2|exact H3].
Qed.
Lemma named_gap : forallb (fun m => hexval (pm_p m) - hexval (pm_n m) <=? 2 ^ (pm_bits m / 2 + 1)) named_curves = true.
Proof. vm_compute. reflexivity. Qed.
Lemma named_bind wasm m C (Pp : prime (value (cu_p C))) q : In m named_curves -> named_curve wasm m = Ok C ->
  let c := named_cap wasm m in let A := kval (cu_p C) Pp (cu_a C) in let G := aff_pt (cu_p C) Pp (cu_g C) in let N := hexval (pm_n m) in let e := leftmost (bitlen N) in
  good2 c (cu_p C) q -> on_curve A (kval (cu_p C) Pp (cu_b C)) (aff_pt (cu_p C) Pp q) -> aff_pt (cu_p C) Pp q <> Inf ->
  exists d, private_key A G N d (aff_pt (cu_p C) Pp q) /\
  forall msg msg' r s s', all_bytes msg -> digest_fits m msg -> all_bytes msg' -> digest_fits m msg' -> valid c r -> valid c s -> valid c s' -> 2 ^ (pm_bits m / 2 + 1) <= value r ->
  ecdsa_verify c C q msg r s = Ok true -> ecdsa_verify c C q msg' r s' = Ok true ->
  (e msg' = e msg -> value s' = value s \/ value s' = N - value s) /\
  (value s' = value s -> e msg' mod N = e msg mod N \/ (e msg + e msg' + 2 * value r * d) mod N = 0) /\
  ((value r * d * (value s - value s')) mod N = (value s' * e msg - value s * e msg') mod N \/ (value r * d * (value s + value s')) mod N = (- (value s' * e msg + value s * e msg')) mod N).
Proof.
  intros IN NC. cbv zeta. rewrite <- (proj1 (n_value wasm m C IN NC)). intros Gq Cq Q0. pose proof (nU wasm m C IN NC Pp) as U.
  destruct (usable_private _ C Pp U _ Cq Q0) as (d & PK & _). exists d. split; [exact PK|]. intros msg msg' r s s' Am Fm Am' Fm' Vr Vs Vs' HR H H'.
  assert (HR' : value (cu_p C) <= value r + value (cu_n C)).
  { pose proof named_gap as NG. rewrite forallb_forall in NG. specialize (NG m IN). apply Z.leb_le in NG. destruct (n_value wasm m C IN NC) as (En & Ep). rewrite En, Ep. clear -NG HR. lia. }
  apply (nFit wasm m C IN NC) in Fm. apply (nFit wasm m C IN NC) in Fm'.
  destruct (accepted _ C Pp U q Gq d PK msg r s Am Fm Vr Vs H) as (k & Hk & S). destruct (accepted _ C Pp U q Gq d PK msg' r s' Am' Fm' Vr Vs' H') as (k' & Hk' & S').
  split; [|split].
  - intros E. rewrite E in S'. apply (s_two _ C Pp U d k k' _ _ _ _ Hk Hk' HR' S S').
  - intros E. rewrite E in S'. apply (digest_two _ C Pp U d k k' _ _ _ _ Hk Hk' HR' S S').
  - apply (reuse _ C Pp U d k k' _ _ _ _ _ Hk Hk' HR' S S').
Qed.
Lemma named_four wasm m C (Pp : prime (value (cu_p C))) q msg r l : In m named_curves -> named_curve wasm m = Ok C ->
  let c := named_cap wasm m in good2 c (cu_p C) q -> on_curve (kval (cu_p C) Pp (cu_a C)) (kval (cu_p C) Pp (cu_b C)) (aff_pt (cu_p C) Pp q) -> aff_pt (cu_p C) Pp q <> Inf ->
  all_bytes msg -> digest_fits m msg -> valid c r -> NoDup (map value l) -> (forall s, In s l -> valid c s /\ ecdsa_verify c C q msg r s = Ok true) -> (length l <= 4)%nat.
Proof.
  intros IN NC c Gq Cq Q0 Am Fm. apply (s_four c C Pp (nU wasm m C IN NC Pp) q Gq Cq Q0 msg r l Am (nFit wasm m C IN NC msg Fm)).
Qed.
