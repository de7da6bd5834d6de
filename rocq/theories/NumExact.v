(** Modular exponentiation for every base, exponent and modulus, of either sign, and the members that abort. *)
From Coq Require Import List ZArith Bool Lia PeanoNat Znumtheory.
From Coq Require Import ZifyBool ZifyNat ZifyN.
From Verif Require Import Outcome LoopModel LoopProofs BitLemmas WordsModel WordsSpec WordsProofs DivProofs
  UtilsSpec BigintModel BigintSpec BigintProofs BigintBits BigintClosure BigintClaims NumModel NumProofs NumPow NumExactSpec.
Import ListNotations.
Open Scope Z_scope.

Lemma small_words ws : all_words ws -> ws <> [] -> eval ws < B -> Nat.eqb (get_real_size ws) 1 = true /\ hd 0 (firstn (get_real_size ws) ws) = eval ws.
Proof.
  intros Hw Hne Hb. destruct (get_real_size_spec ws Hne) as (Hn & _ & Hnz & En).
  assert (get_real_size ws = 1)%nat as E1.
  { destruct (Nat.eq_dec (get_real_size ws) 1) as [E|E]; [exact E|]. exfalso. specialize (Hnz ltac:(lia)).
    assert (Hwf : all_words (firstn (get_real_size ws) ws)) by (apply words_firstn; exact Hw).
    assert (Hl : length (firstn (get_real_size ws) ws) = get_real_size ws) by (rewrite firstn_length; lia).
    assert (Hne' : firstn (get_real_size ws) ws <> []) by (intros E'; rewrite E' in Hl; cbn in Hl; lia).
    destruct (last_bounds _ Hwf Hne') as (R0 & R1). rewrite Hl in R1.
    assert (El : last (firstn (get_real_size ws) ws) 0 = nth (get_real_size ws - 1) ws 0).
    { destruct (exists_snoc _ Hne') as (l & a & Ea). rewrite Ea, last_snoc.
      assert (Ll : length l = (get_real_size ws - 1)%nat) by (rewrite <- Hl, Ea, app_length; cbn; lia).
      rewrite <- (nth_firstn_lt ws (get_real_size ws)) by lia. rewrite Ea, <- Ll. rewrite app_nth2, Nat.sub_diag by lia. reflexivity. }
    rewrite El in *. rewrite <- En in R1. pose proof (Bn_mono 1 (get_real_size ws - 1) ltac:(lia)) as Hm1. rewrite Bn_1 in Hm1.
    pose proof (Bn_pos (get_real_size ws - 1)). clear - R0 R1 Hm1 Hb Hnz H. nia. }
  rewrite E1. split; [reflexivity|]. rewrite En, E1. destruct ws as [|w t]; [congruence|]. cbn [firstn hd eval]. lia.
Qed.

Lemma pow_words_small c pm ps z x ws : all_words ws -> ws <> [] ->
  (eval ws = 0 -> pow_words c pm ps z x ws = Ok (Some (assign_int z 1))) /\
  (eval ws = 1 -> pow_words c pm ps z x ws = Ok (Some x)).
Proof.
  intros Hw Hne. pose proof B_val as BV.
  split; intros Ee; destruct (small_words ws Hw Hne ltac:(lia)) as (A1 & A2); unfold pow_words; rewrite A1, A2, Ee; reflexivity.
Qed.

Lemma pow_words_rem c z x m ws : storage_ok c z -> valid c x -> valid c m -> value m <> 0 -> all_words ws -> ws <> [] ->
  match pow_words c (mod_mul c m) (mod_sqr c m) z x ws with
  | Ok (Some r) => valid c r /\ powm_result (value x) (eval ws) (value m) (value r)
  | Ok None => ~ room c (2 * Nat.max (size x) (size m))
  | _ => False
  end.
Proof.
  intros Hz Hx Hm Pm Hw Hne. set (K := Nat.max (size x) (size m)).
  set (rep := fun r a => valid c r /\ Z.rem (value r) (value m) = Z.rem a (value m) /\ (size r <= K)%nat).
  set (fin := fun r => exists b, value r = Z.rem b (value m)).
  assert (H1 : forall a b x0 y0 r, rep x0 a -> rep y0 b -> valid c r -> value r = Z.rem (value x0 * value y0) (value m) -> (size r <= size m)%nat ->
     rep r (a * b) /\ fin r).
  { intros a b x0 y0 r (Vx & Ex & Sx) (Vy & Ey & Sy) Vr Er Sr. split; [|eexists; exact Er].
    split; [exact Vr|]. split; [|unfold K; clear - Sr; lia]. rewrite Er, Z.rem_rem by exact Pm.
    rewrite Z.mul_rem, Ex, Ey, <- Z.mul_rem by exact Pm. reflexivity. }
  assert (H : pow_ok rep fin (~ room c (2 * K)) (value x) (eval ws) (pow_words c (mod_mul c m) (mod_sqr c m) z x ws)).
  { apply pow_words_spec; try assumption.
    - intros u a (Hu & _). apply valid_storage; exact Hu.
    - intros same z0 x0 y0 a b Hz0 Hs Rx Ry. pose proof Rx as (Vx & _ & Sx). pose proof Ry as (Vy & _ & Sy).
      pose proof (mod_mul_spec c m same z0 x0 y0 Hz0 Hs Vx Vy Hm Pm) as P.
      unfold gives. destruct (mod_mul c m same z0 x0 y0) as [[r|]| | |]; try contradiction.
      + destruct P as (Vr & Er & Sr). apply (H1 a b x0 y0 r); assumption.
      + intros Hr. apply P. eapply room_le; [exact Hr|]. lia.
    - intros same z0 x0 a Hz0 Hs Rx. pose proof Rx as (Vx & _ & Sx).
      pose proof (mod_sqr_spec c m same z0 x0 Hz0 Hs Vx Hm Pm) as P.
      unfold gives. destruct (mod_sqr c m same z0 x0) as [[r|]| | |]; try contradiction.
      + destruct P as (Vr & Er & Sr). apply (H1 a a x0 x0 r); assumption.
      + intros Hr. apply P. eapply room_le; [exact Hr|]. lia.
    - intros z0 Hz0. destruct (assign_one c z0 Hz0 (valid_room1 c x Hx)) as (A & E & S). unfold rep. rewrite E, S.
      pose proof Hx as (_ & ? & _). split; [exact A|]. split; [reflexivity|]. unfold K. lia.
    - eapply zero_storage; exact Hx.
    - unfold rep. split; [exact Hx|]. split; [reflexivity|]. unfold K. lia. }
  destruct (pow_words_small c (mod_mul c m) (mod_sqr c m) z x ws Hw Hne) as (S0 & S1).
  destruct (Z.eq_dec (eval ws) 0) as [E0|E0].
  { rewrite (S0 E0). destruct (assign_one c z Hz (valid_room1 c x Hx)) as (A & E & _). split; [exact A|].
    unfold powm_result. rewrite E0. exact E. }
  destruct (Z.eq_dec (eval ws) 1) as [E1|E1].
  { rewrite (S1 E1). split; [exact Hx|]. unfold powm_result. rewrite E1. reflexivity. }
  pose proof (eval_range ws Hw) as Rg.
  unfold pow_ok in H. destruct (pow_words c (mod_mul c m) (mod_sqr c m) z x ws) as [[r|]| | |] eqn:Ep; try contradiction; [|exact H].
  destruct H as ((Vr & Er & _) & Hf). split; [exact Vr|]. unfold powm_result.
  destruct (Z.eqb_spec (eval ws) 0); [lia|]. destruct (Z.eqb_spec (eval ws) 1); [lia|].
  destruct (Hf ltac:(lia)) as (b & Eb). rewrite <- Er, Eb, Z.rem_rem by exact Pm. reflexivity.
Qed.

Lemma mod_sqr_zero c m same z x : storage_ok c z -> (same = true -> z = x) -> valid c x -> valid c m -> value m = 0 -> room c (size x + size x) ->
  mod_sqr c m same z x = Abort /\ (same = false -> mod_mul c m same z x x = Abort).
Proof.
  intros Hz Hs Hx Hm E0 R. split; [|intros ->].
  - unfold mod_sqr, sqr. destruct (mul_spec c same same z x x Hz Hx Hx R Hs Hs) as (r & -> & Vr & _).
    unfold mod_r. rewrite (div_mod_by_zero c None _ r m Vr Hm E0). reflexivity.
  - unfold mod_mul. destruct (mul_spec c false false z x x Hz Hx Hx R ltac:(discriminate) ltac:(discriminate)) as (r & -> & Vr & _).
    unfold mod_r. rewrite (div_mod_by_zero c None _ r m Vr Hm E0). reflexivity.
Qed.
Lemma pow_words_zero_modulus c z x m ws : storage_ok c z -> valid c x -> valid c m -> value m = 0 -> all_words ws -> ws <> [] ->
  room c (size x + size x) -> 2 <= eval ws -> pow_words c (mod_mul c m) (mod_sqr c m) z x ws = Abort.
Proof.
  intros Hz Hx Hm E0 Hw Hne R Hg. pose proof (zero_storage c x Hx) as Z0.
  pose proof (proj1 (mod_sqr_zero c m false z x Hz ltac:(discriminate) Hx Hm E0 R)) as A1.
  pose proof (proj1 (mod_sqr_zero c m false (zero c) x Z0 ltac:(discriminate) Hx Hm E0 R)) as A2.
  pose proof (proj2 (mod_sqr_zero c m false (zero c) x Z0 ltac:(discriminate) Hx Hm E0 R) eq_refl) as A3.
  unfold pow_words. destruct (get_real_size_spec ws Hne) as (Hn & _ & _ & En).
  assert (Hk : forall k, k < 2 -> (Nat.eqb (get_real_size ws) 1 && (hd 0 (firstn (get_real_size ws) ws) =? k))%bool = false).
  { intros k Lk. destruct (Nat.eqb_spec (get_real_size ws) 1) as [E|E]; [|reflexivity]. rewrite E in *. cbn [andb].
    destruct ws as [|w t]; [congruence|]. cbn [firstn hd]. cbn [firstn eval] in En. apply Z.eqb_neq. cbn [eval] in Hg. lia. }
  rewrite !Hk by lia.
  repeat match goal with |- context [if ?b then _ else _] => destruct b end; rewrite ?A1, ?A2; try reflexivity.
  cbn [pow_table]. rewrite A3. reflexivity.
Qed.

Lemma pow_words_any c z x m ws : valid c z -> valid c x -> valid c m -> all_words ws -> ws <> [] ->
  room c (2 * Nat.max (size x) (size m)) -> modexp_any c (pow_words c (mod_mul c m) (mod_sqr c m) z x ws) (value x) (eval ws) (value m).
Proof.
  intros Hz Hx Hm Hw Hne R. apply valid_stor in Hz. unfold modexp_any. destruct (Z.eqb_spec (value m) 0) as [E0|E0]; cbn [andb].
  - destruct (Z.leb_spec 2 (eval ws)) as [L|L].
    + apply pow_words_zero_modulus; try assumption. eapply room_le; [exact R|]. lia.
    + destruct (pow_words_small c (mod_mul c m) (mod_sqr c m) z x ws Hw Hne) as (S0 & S1). pose proof (eval_range ws Hw) as Rg.
      destruct (Z.eq_dec (eval ws) 0) as [Z0|Z0].
      * rewrite (S0 Z0). destruct (assign_one c z Hz (valid_room1 c x Hx)) as (A & E & _). eexists. split; [reflexivity|]. split; [exact A|].
        unfold powm_result. rewrite Z0. exact E.
      * assert (Z1 : eval ws = 1) by lia. rewrite (S1 Z1). exists x. split; [reflexivity|]. split; [exact Hx|]. unfold powm_result. rewrite Z1. reflexivity.
  - pose proof (pow_words_rem c z x m ws Hz Hx Hm E0 Hw Hne) as H.
    destruct (pow_words c (mod_mul c m) (mod_sqr c m) z x ws) as [[r|]| | |]; try contradiction. exists r. split; [reflexivity|exact H].
Qed.
Lemma modexp_total c z x y m : valid c z -> valid c x -> valid c y -> valid c m -> room c (2 * Nat.max (size x) (size m)) ->
  if neg y then modexp c z x y m = Ok None else modexp_any c (modexp c z x y m) (value x) (value y) (value m).
Proof.
  intros Hz Hx Hy Hm R. unfold modexp. destruct (neg y) eqn:Hn; [reflexivity|].
  destruct (words_ne c y Hy) as (A & N). rewrite (value_sgn y), Hn. cbn [sgn]. rewrite magnitude_words. apply pow_words_any; assumption.
Qed.
Lemma modexp_word_total c z x w m : valid c z -> valid c x -> 0 <= w < 2 ^ 32 -> valid c m -> room c (2 * Nat.max (size x) (size m)) ->
  modexp_any c (modexp_word c z x w m) (value x) w (value m).
Proof.
  intros Hz Hx Hw Hm R. unfold modexp_word. assert (E : eval [w] = w) by (cbn [eval]; lia).
  pose proof (pow_words_any c z x m [w] Hz Hx Hm) as H. rewrite E in H. apply H; [|discriminate|exact R]. repeat constructor; apply Hw.
Qed.

(** the members: they abort exactly when the free function fails *)
Lemma op_pow_total n x y : valid (Flex n) x -> valid (Flex n) y ->
  if neg y then op_pow (Flex n) x y = Abort
  else exists r, op_pow (Flex n) x y = Ok r /\ valid (Flex n) r /\ value r = value x ^ value y.
Proof.
  intros Hx Hy. unfold op_pow. destruct (neg y) eqn:Hn.
  - unfold pow. rewrite Hn. reflexivity.
  - pose proof (pow_spec (Flex n) (zero (Flex n)) x y (zero_storage _ _ Hx) Hx Hy) as H.
    assert (Py : 0 <= value y) by (rewrite value_sgn, Hn; pose proof (magnitude_range _ _ Hy); cbn [sgn]; lia). specialize (H Py Hn).
    destruct (pow (Flex n) (zero (Flex n)) x y) as [[r|]| | |]; try contradiction; cbn [bind].
    + exists r. split; [reflexivity|exact H].
    + destruct H as (k & Hk). exfalso. apply Hk. exact I.
Qed.
Lemma op_pow_fixed c x y : valid c x -> valid c y ->
  (exists r, op_pow c x y = Ok r /\ neg y = false /\ valid c r /\ value r = value x ^ value y) \/ op_pow c x y = Abort.
Proof.
  intros Hx Hy. unfold op_pow. destruct (neg y) eqn:Hn.
  - right. unfold pow. rewrite Hn. reflexivity.
  - pose proof (pow_spec c (zero c) x y (zero_storage _ _ Hx) Hx Hy) as H.
    assert (Py : 0 <= value y) by (rewrite value_sgn, Hn; pose proof (magnitude_range _ _ Hy); cbn [sgn]; lia). specialize (H Py Hn).
    destruct (pow c (zero c) x y) as [[r|]| | |]; try contradiction; cbn [bind]; [left; exists r; tauto|right; reflexivity].
Qed.
Lemma op_modexp_total c x y m : valid c x -> valid c y -> valid c m -> room c (2 * Nat.max (size x) (size m)) ->
  if neg y || ((value m =? 0) && (2 <=? value y)) then op_modexp c x y m = Abort
  else exists r, op_modexp c x y m = Ok r /\ valid c r /\ powm_result (value x) (value y) (value m) (value r).
Proof.
  intros Hx Hy Hm R. destruct (zero_spec c (valid_room1 c x Hx)) as (Hz & _).
  pose proof (modexp_total c (zero c) x y m Hz Hx Hy Hm R) as H. unfold op_modexp. destruct (neg y); cbn [orb].
  - rewrite H. reflexivity.
  - unfold modexp_any in H. destruct ((value m =? 0) && (2 <=? value y)).
    + rewrite H. reflexivity.
    + destruct H as (r & -> & V & P). exists r. auto.
Qed.
