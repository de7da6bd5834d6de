From Coq Require Import List ZArith Bool Lia PeanoNat Znumtheory.
From Coq Require Import ZifyBool ZifyNat ZifyN.
From Verif Require Import Outcome LoopModel LoopProofs BitLemmas WordsModel WordsSpec WordsProofs DivProofs
  UtilsSpec BigintModel BigintSpec BigintProofs BigintBits BigintClosure BigintClaims NumModel NumProofs.
Import ListNotations.
Open Scope Z_scope.

Lemma nibble_val v k : 0 <= v -> 0 <= k -> Z.land (Z.shiftr v k) 15 = v / 2 ^ k - 16 * (v / 2 ^ (k + 4)).
Proof.
  intros Hv Hk. change 15 with (Z.ones 4). rewrite Z.land_ones, Z.shiftr_div_pow2 by lia. change (2 ^ 4) with 16.
  rewrite Z.pow_add_r by lia. change (2 ^ 4) with 16. rewrite <- Z.div_div by (try lia; apply Z.pow_nonzero; lia).
  pose proof (Z.div_mod (v / 2 ^ k) 16 ltac:(lia)). lia.
Qed.

Definition dig (e d : Z) : Z := 16 * e + d.
Lemma nibbles_word v e : 0 <= v < B ->
  fold_left dig (map (fun j => Z.land (Z.shiftr v ((7 - j) * 4)) 15) [0; 1; 2; 3; 4; 5; 6; 7]) e = B * e + v.
Proof.
  intros Hv. rewrite B_val in *. cbn [map fold_left]. unfold dig.
  rewrite !nibble_val by lia.
  change ((7 - 0) * 4) with 28. change ((7 - 1) * 4) with 24. change ((7 - 2) * 4) with 20. change ((7 - 3) * 4) with 16.
  change ((7 - 4) * 4) with 12. change ((7 - 5) * 4) with 8. change ((7 - 6) * 4) with 4. change ((7 - 7) * 4) with 0.
  change (28 + 4) with 32. change (24 + 4) with 28. change (20 + 4) with 24. change (16 + 4) with 20.
  change (12 + 4) with 16. change (8 + 4) with 12. change (4 + 4) with 8. change (0 + 4) with 4. change (2 ^ 0) with 1.
  rewrite (Z.div_small v (2 ^ 32)) by (change (2 ^ 32) with 4294967296; lia). rewrite Z.div_1_r. lia.
Qed.
Lemma nibbles_val y : all_words y -> fold_left dig (nibbles y) 0 = eval y.
Proof.
  unfold nibbles.
  assert (H : forall l e, all_words l ->
    fold_left dig (flat_map (fun v => map (fun j => Z.land (Z.shiftr v ((7 - j) * 4)) 15) [0; 1; 2; 3; 4; 5; 6; 7]) l) e =
    e * Bn (length l) + eval (rev l)).
  { induction l as [|v l IH]; intros e Hl.
    - cbn [flat_map fold_left length rev eval]. rewrite Bn_0. lia.
    - apply words_cons in Hl. destruct Hl as (Hv & Hl). cbn [flat_map]. rewrite fold_left_app, nibbles_word by exact Hv.
      rewrite IH by exact Hl. cbn [length rev]. rewrite eval_app, rev_length, Bn_S. cbn [eval]. lia. }
  intros Hy. rewrite H.
  - rewrite rev_involutive. lia.
  - apply Forall_rev. exact Hy.
Qed.

Lemma nibbles_range y d : In d (nibbles y) -> 0 <= d <= 15.
Proof.
  unfold nibbles. rewrite in_flat_map. intros (v & _ & H). apply in_map_iff in H. destruct H as (j & <- & _).
  change 15 with (Z.ones 4). rewrite Z.land_ones by lia. change (2 ^ 4) with 16. pose proof (Z.mod_pos_bound (Z.shiftr v ((7 - j) * 4)) 16 ltac:(lia)).
  change (Z.ones 4) with 15. lia.
Qed.

Section POWSPEC.
Variable c : cap.
Variable pmul : bool -> bigint -> bigint -> bigint -> pow_res.
Variable psqr : bool -> bigint -> bigint -> pow_res.
Variable rep : bigint -> Z -> Prop.
Variable fin : bigint -> Prop.
Variable fail : Prop.
Definition gives (a : Z) (o : pow_res) : Prop :=
  match o with Ok (Some r) => rep r a /\ fin r | Ok None => fail | _ => False end.
Hypothesis rep_stor : forall x a, rep x a -> storage_ok c x.
Hypothesis Hmul : forall same z x y a b, storage_ok c z -> (same = true -> z = x) -> rep x a -> rep y b -> gives (a * b) (pmul same z x y).
Hypothesis Hsqr : forall same z x a, storage_ok c z -> (same = true -> z = x) -> rep x a -> gives (a * a) (psqr same z x).
Hypothesis Hone : forall z, storage_ok c z -> rep (assign_int z 1) 1.
Hypothesis Hzero : storage_ok c (zero c).

Lemma gives_then a b r f : gives a r -> (forall z, rep z a -> fin z -> gives b (f z)) -> gives b (then_ r f).
Proof.
  unfold gives at 1, then_. intros H Hf. destruct r as [[z|]| | |]; try contradiction; cbn [bind]; [apply Hf; tauto|exact H].
Qed.
Lemma gives_eq a b r : gives a r -> a = b -> gives b r.
Proof. intros H <-. exact H. Qed.

Lemma table_spec x v : rep x v -> forall n prev k, 1 <= k -> rep prev (v ^ k) ->
  match pow_table c pmul x prev n with
  | Ok (Some l) => length l = n /\ forall i, (i < n)%nat -> rep (nth i l (zero c)) (v ^ (k + 1 + Z.of_nat i))
  | Ok None => fail
  | _ => False
  end.
Proof.
  intros Hx. induction n as [|n IH]; intros prev k Hk Hp; cbn [pow_table].
  - split; [reflexivity|]. intros; lia.
  - pose proof (Hmul false (zero c) prev x _ _ Hzero ltac:(discriminate) Hp Hx) as H. unfold gives in H.
    destruct (pmul false (zero c) prev x) as [[t|]| | |]; try contradiction; cbn [bind]; [|exact H].
    destruct H as (Ht & _). rewrite Z.mul_comm, <- Z.pow_succ_r in Ht by lia.
    specialize (IH t (Z.succ k) ltac:(lia) Ht). destruct (pow_table c pmul x t n) as [[l|]| | |]; try contradiction; cbn [bind]; [|exact IH].
    destruct IH as (L & IH). split; [cbn [length]; lia|]. intros [|i] Hi.
    + cbn [nth]. replace (k + 1 + Z.of_nat 0) with (Z.succ k) by lia. exact Ht.
    + cbn [nth]. replace (k + 1 + Z.of_nat (S i)) with (Z.succ k + 1 + Z.of_nat i) by lia. apply IH. lia.
Qed.

Lemma pow_16 v e d : 0 <= e -> 0 <= d -> v ^ e * v ^ e * (v ^ e * v ^ e) * (v ^ e * v ^ e * (v ^ e * v ^ e)) *
  (v ^ e * v ^ e * (v ^ e * v ^ e) * (v ^ e * v ^ e * (v ^ e * v ^ e))) * v ^ d = v ^ dig e d.
Proof. intros He Hd. unfold dig. rewrite <- !Z.pow_add_r by lia. f_equal. lia. Qed.

Lemma digit_spec tbl v z e d : (forall i, 1 <= i <= 15 -> rep (nth (Z.to_nat (i - 1)) tbl (zero c)) (v ^ i)) ->
  0 <= e -> 0 <= d <= 15 -> rep z (v ^ e) -> gives (v ^ dig e d) (pow_digit c pmul psqr tbl z d).
Proof.
  intros Ht He Hd Hz. unfold pow_digit.
  eapply gives_then; [apply Hsqr; [eapply rep_stor; exact Hz|auto|exact Hz]|]. clear z Hz. intros z Hz _.
  eapply gives_then; [apply Hsqr; [eapply rep_stor; exact Hz|auto|exact Hz]|]. clear z Hz. intros z Hz _.
  eapply gives_then; [apply Hsqr; [eapply rep_stor; exact Hz|auto|exact Hz]|]. clear z Hz. intros z Hz _.
  eapply gives_then; [apply Hsqr; [eapply rep_stor; exact Hz|auto|exact Hz]|]. clear z Hz. intros z Hz Hf.
  destruct (Z.eqb_spec d 0) as [->|Hne].
  - unfold gives. split; [|exact Hf]. rewrite <- (pow_16 v e 0) by lia. rewrite Z.pow_0_r, Z.mul_1_r. exact Hz.
  - eapply gives_eq; [apply Hmul; [eapply rep_stor; exact Hz|auto|exact Hz|apply Ht; lia]|]. apply pow_16; lia.
Qed.

Lemma digits_pow_spec tbl v : (forall i, 1 <= i <= 15 -> rep (nth (Z.to_nat (i - 1)) tbl (zero c)) (v ^ i)) ->
  forall ds z e, (forall d, In d ds -> 0 <= d <= 15) -> 0 <= e -> rep z (v ^ e) -> (ds = [] -> fin z) ->
  gives (v ^ fold_left dig ds e) (pow_digits c pmul psqr tbl z ds).
Proof.
  intros Ht. induction ds as [|d ds IH]; intros z e Hd He Hz Hf; cbn [fold_left pow_digits].
  - split; [exact Hz|apply Hf; reflexivity].
  - eapply gives_then; [apply (digit_spec tbl v z e d Ht He); [apply Hd; left; reflexivity|exact Hz]|].
    intros z' Hz' Hf'. apply IH; try assumption.
    + intros d' Hd'. apply Hd. right. exact Hd'.
    + unfold dig. specialize (Hd d ltac:(left; reflexivity)). lia.
    + intros _. exact Hf'.
Qed.

Definition pow_ok (v e : Z) (o : pow_res) : Prop :=
  match o with Ok (Some r) => rep r (v ^ e) /\ (2 <= e -> fin r) | Ok None => fail | _ => False end.
Lemma gives_pow_ok v e o : gives (v ^ e) o -> pow_ok v e o.
Proof. unfold gives, pow_ok. destruct o as [[r|]| | |]; tauto. Qed.

Lemma pow_words_spec z x y v : storage_ok c z -> rep x v -> all_words y -> y <> [] ->
  pow_ok v (eval y) (pow_words c pmul psqr z x y).
Proof.
  intros Hz Hx Hy Hne. unfold pow_words.
  destruct (get_real_size_spec y Hne) as (Hn & _ & _ & En). set (n := get_real_size y) in *.
  set (y' := firstn n y). assert (Hy' : all_words y') by (apply words_firstn; exact Hy).
  assert (Ly : length y' = n) by (unfold y'; rewrite firstn_length; lia).
  assert (Ev : eval y' = eval y) by (symmetry; exact En). rewrite <- Ev.
  assert (H1 : n = 1%nat -> y' = [hd 0 y']).
  { intros E. rewrite E in Ly. destruct y' as [|a [|? ?]]; cbn in Ly; try discriminate. reflexivity. }
  assert (Hv1 : forall k, (Nat.eqb n 1 && (hd 0 y' =? k))%bool = true -> eval y' = k).
  { intros k Hk. apply andb_true_iff in Hk. destruct Hk as (A & C). apply Nat.eqb_eq in A. apply Z.eqb_eq in C.
    rewrite (H1 A), C. cbn [eval]. lia. }
  destruct (Nat.eqb n 1 && (hd 0 y' =? 0))%bool eqn:C0.
  { rewrite (Hv1 0 C0). split; [apply Hone; exact Hz|lia]. }
  destruct (Nat.eqb n 1 && (hd 0 y' =? 1))%bool eqn:C1.
  { rewrite (Hv1 1 C1). split; [rewrite Z.pow_1_r; exact Hx|lia]. }
  destruct (Nat.eqb n 1 && (hd 0 y' =? 2))%bool eqn:C2.
  { rewrite (Hv1 2 C2). apply gives_pow_ok. rewrite Z.pow_2_r. apply Hsqr; [exact Hz|discriminate|exact Hx]. }
  destruct (Nat.eqb n 1 && (hd 0 y' =? 3))%bool eqn:C3.
  { rewrite (Hv1 3 C3). apply gives_pow_ok.
    eapply gives_then; [apply Hsqr; [exact Hzero|discriminate|exact Hx]|]. intros t Ht _.
    eapply gives_eq; [apply Hmul; [exact Hz|discriminate|exact Ht|exact Hx]|]. ring. }
  destruct (Nat.eqb n 1 && (hd 0 y' =? 4))%bool eqn:C4.
  { rewrite (Hv1 4 C4). apply gives_pow_ok.
    eapply gives_then; [apply Hsqr; [exact Hz|discriminate|exact Hx]|]. intros t Ht _.
    eapply gives_eq; [apply Hsqr; [eapply rep_stor; exact Ht|auto|exact Ht]|]. ring. }
  pose proof (table_spec x v Hx 14 x 1 ltac:(lia)) as Htab. rewrite Z.pow_1_r in Htab. specialize (Htab Hx).
  destruct (pow_table c pmul x x 14) as [[l|]| | |]; try contradiction; cbn [bind]; [|exact Htab].
  destruct Htab as (Ll & Hl). apply gives_pow_ok. rewrite <- (nibbles_val y' Hy').
  apply digits_pow_spec.
  - intros i Hi. destruct (Z.eq_dec i 1) as [->|Hi1]; [rewrite Z.pow_1_r; exact Hx|].
    replace (Z.to_nat (i - 1)) with (S (Z.to_nat (i - 2))) by lia. cbn [nth].
    specialize (Hl (Z.to_nat (i - 2)) ltac:(lia)). replace (1 + 1 + Z.of_nat (Z.to_nat (i - 2))) with i in Hl by lia. exact Hl.
  - apply nibbles_range.
  - lia.
  - rewrite Z.pow_0_r. apply Hone. exact Hz.
  - intros Hnil. exfalso. unfold nibbles in Hnil. destruct (rev y') as [|a t] eqn:Er.
    + assert (length (rev y') = 0%nat) by (rewrite Er; reflexivity). rewrite rev_length in *. lia.
    + cbn in Hnil. discriminate Hnil.
Qed.
End POWSPEC.

(** *** plain powers *)
Lemma plain_mul_spec c same z x y : storage_ok c z -> (same = true -> z = x) -> valid c x -> valid c y ->
  match plain_mul c same z x y with
  | Ok (Some r) => valid c r /\ value r = value x * value y
  | Ok None => ~ room c (size x + size y)
  | _ => False
  end.
Proof.
  intros Hz Hs Hx Hy. unfold plain_mul. destruct (mul c same false z x y) as [[|] r] eqn:E.
  - apply (mul_sound c same false z x y r Hz Hx Hy Hs ltac:(discriminate) E).
  - intros Hr. destruct (mul_spec c same false z x y Hz Hx Hy Hr Hs ltac:(discriminate)) as (r' & E' & _). congruence.
Qed.
Lemma plain_sqr_spec c same z x : storage_ok c z -> (same = true -> z = x) -> valid c x ->
  match plain_sqr c same z x with
  | Ok (Some r) => valid c r /\ value r = value x * value x
  | Ok None => ~ room c (size x + size x)
  | _ => False
  end.
Proof.
  intros Hz Hs Hx. unfold plain_sqr, sqr. destruct (mul c same same z x x) as [[|] r] eqn:E.
  - apply (mul_sound c same same z x x r Hz Hx Hx Hs Hs E).
  - intros Hr. destruct (mul_spec c same same z x x Hz Hx Hx Hr Hs Hs) as (r' & E' & _). congruence.
Qed.

Lemma assign_one c z : storage_ok c z -> room c 1 -> valid c (assign_int z 1) /\ value (assign_int z 1) = 1 /\ size (assign_int z 1) = 1%nat.
Proof. intros Hz Hr. destruct (assign_int_spec c z 1 Hz Hr) as (A & E & _ & S & _); [rewrite B_val; lia|]. auto. Qed.

Lemma words_ne c x : valid c x -> all_words (words x) /\ words x <> [].
Proof. intros H. destruct (words_valid c x H) as (A & L & N). split; [exact A|]. exact N. Qed.

Lemma pow_words_plain c z x ws : storage_ok c z -> valid c x -> all_words ws -> ws <> [] ->
  match pow_words c (plain_mul c) (plain_sqr c) z x ws with
  | Ok (Some r) => valid c r /\ value r = value x ^ eval ws
  | Ok None => exists n, ~ room c n
  | _ => False
  end.
Proof.
  intros Hz Hx Hw Hne.
  pose proof (pow_words_spec c (plain_mul c) (plain_sqr c) (fun r a => valid c r /\ value r = a) (fun _ => True) (exists n, ~ room c n)) as H.
  specialize (H ltac:(intros u a (Hu & _); apply valid_storage; exact Hu)).
  assert (H' : pow_ok (fun r a => valid c r /\ value r = a) (fun _ => True) (exists n, ~ room c n) (value x) (eval ws)
    (pow_words c (plain_mul c) (plain_sqr c) z x ws)).
  { apply H; try assumption.
    - intros same z0 x0 y0 a b Hz0 Hs (Hx0 & <-) (Hy0 & <-). pose proof (plain_mul_spec c same z0 x0 y0 Hz0 Hs Hx0 Hy0) as P.
      unfold gives. destruct (plain_mul c same z0 x0 y0) as [[r|]| | |]; try contradiction; [tauto|eauto].
    - intros same z0 x0 a Hz0 Hs (Hx0 & <-). pose proof (plain_sqr_spec c same z0 x0 Hz0 Hs Hx0) as P.
      unfold gives. destruct (plain_sqr c same z0 x0) as [[r|]| | |]; try contradiction; [tauto|eauto].
    - intros z0 Hz0. pose proof (assign_one c z0 Hz0 (valid_room1 c x Hx)). tauto.
    - eapply zero_storage; exact Hx.
    - auto. }
  unfold pow_ok in H'. destruct (pow_words c (plain_mul c) (plain_sqr c) z x ws) as [[r|]| | |]; tauto.
Qed.

Lemma pow_spec c z x y : storage_ok c z -> valid c x -> valid c y -> 0 <= value y -> neg y = false ->
  match pow c z x y with
  | Ok (Some r) => valid c r /\ value r = value x ^ value y
  | Ok None => exists n, ~ room c n
  | _ => False
  end.
Proof.
  intros Hz Hx Hy Hp Hn. unfold pow. rewrite Hn. destruct (words_ne c y Hy) as (A & N).
  rewrite (value_sgn y), Hn. cbn [sgn]. rewrite magnitude_words. apply pow_words_plain; assumption.
Qed.

Lemma pow_i64_spec c z x k : storage_ok c z -> valid c x -> 0 <= k < 2 ^ 63 ->
  match pow_i64 c z x k with
  | Ok (Some r) => valid c r /\ value r = value x ^ k
  | Ok None => exists n, ~ room c n
  | _ => False
  end.
Proof.
  intros Hz Hx Hk. unfold pow_i64. replace (k <? 0) with false by lia. rewrite cabs64_spec, Z.abs_eq by lia.
  pose proof B_pos. pose proof (Z.div_mod k B ltac:(lia)) as D. pose proof (Z.mod_pos_bound k B ltac:(lia)) as M.
  assert (Hd : 0 <= k / B < B) by (split; [apply Z.div_pos; lia|apply Z.div_lt_upper_bound; [lia|rewrite B_val; change (2 ^ 63) with 9223372036854775808 in Hk; lia]]).
  destruct (Z.eqb_spec (k / B) 0) as [E|E].
  - pose proof (pow_words_plain c z x [k mod B] Hz Hx) as P. replace (eval [k mod B]) with k in P by (cbn [eval]; lia).
    apply P; [|discriminate]. repeat constructor; rewrite <- ?B_eq; lia.
  - pose proof (pow_words_plain c z x [k mod B; k / B] Hz Hx) as P.
    replace (eval [k mod B; k / B]) with k in P by (cbn [eval]; rewrite <- ?B_eq; lia).
    apply P; [|discriminate]. repeat constructor; rewrite <- ?B_eq; lia.
Qed.

(** *** modular powers *)
Lemma mod_tail c m z1 a : valid c z1 -> valid c m -> value m <> 0 -> value z1 = a ->
  exists u, mod_r c (zero c) z1 m = Ok (true, u) /\ valid c u /\ value u = Z.rem a (value m) /\ (size u <= size m)%nat.
Proof.
  intros Hr Hm Hnz <-. destruct (mod_r_spec c (zero c) z1 m (zero_storage c m Hm) Hr Hm Hnz) as (u & E & Hu & Eu). exists u.
  split; [exact E|]. split; [exact Hu|]. split; [exact Eu|]. apply (size_le c); [assumption|assumption|]. rewrite Eu.
  pose proof (Z.rem_bound_abs (value z1) (value m) Hnz). lia.
Qed.
Lemma mod_mul_spec c m same z x y : storage_ok c z -> (same = true -> z = x) -> valid c x -> valid c y -> valid c m -> value m <> 0 ->
  match mod_mul c m same z x y with
  | Ok (Some r) => valid c r /\ value r = Z.rem (value x * value y) (value m) /\ (size r <= size m)%nat
  | Ok None => ~ room c (size x + size y)
  | _ => False
  end.
Proof.
  intros Hz Hs Hx Hy Hm Hnz. unfold mod_mul. destruct (mul c same false z x y) as [[|] r] eqn:E.
  - destruct (mul_sound c same false z x y r Hz Hx Hy Hs ltac:(discriminate) E) as (Hr & Er).
    destruct (mod_tail c m r _ Hr Hm Hnz Er) as (u & -> & H). cbn [bind]. exact H.
  - intros Hr. destruct (mul_spec c same false z x y Hz Hx Hy Hr Hs ltac:(discriminate)) as (r' & E' & _). congruence.
Qed.
Lemma mod_sqr_spec c m same z x : storage_ok c z -> (same = true -> z = x) -> valid c x -> valid c m -> value m <> 0 ->
  match mod_sqr c m same z x with
  | Ok (Some r) => valid c r /\ value r = Z.rem (value x * value x) (value m) /\ (size r <= size m)%nat
  | Ok None => ~ room c (size x + size x)
  | _ => False
  end.
Proof.
  intros Hz Hs Hx Hm Hnz. unfold mod_sqr, sqr. destruct (mul c same same z x x) as [[|] r] eqn:E.
  - destruct (mul_sound c same same z x x r Hz Hx Hx Hs Hs E) as (Hr & Er).
    destruct (mod_tail c m r _ Hr Hm Hnz Er) as (u & -> & H). cbn [bind]. exact H.
  - intros Hr. destruct (mul_spec c same same z x x Hz Hx Hx Hr Hs Hs) as (r' & E' & _). congruence.
Qed.

(** for a non-negative base: the result is congruent to the power, in range when at least one
    multiplication took place; no failure with room for twice the larger of modulus and base *)
Lemma pow_words_mod c z x m ws : storage_ok c z -> valid c x -> valid c m -> 0 <= value x -> 0 < value m -> all_words ws -> ws <> [] ->
  match pow_words c (mod_mul c m) (mod_sqr c m) z x ws with
  | Ok (Some r) => valid c r /\ 0 <= value r /\ value r mod value m = value x ^ eval ws mod value m /\
      (2 <= eval ws -> value r < value m) /\ (eval ws = 1 -> value r = value x) /\ (eval ws = 0 -> value r = 1)
  | Ok None => ~ room c (2 * Nat.max (size x) (size m))
  | _ => False
  end.
Proof.
  intros Hz Hx Hm Px Pm Hw Hne. set (K := Nat.max (size x) (size m)).
  set (rep := fun r a => valid c r /\ 0 <= value r /\ value r mod value m = a mod value m /\ (size r <= K)%nat).
  set (fin := fun r => value r < value m).
  assert (H1 : forall a b x0 y0 r, rep x0 a -> rep y0 b -> valid c r -> value r = Z.rem (value x0 * value y0) (value m) -> (size r <= size m)%nat ->
     rep r (a * b) /\ fin r).
  { intros a b x0 y0 r (Vx & Nx & Ex & Sx) (Vy & Ny & Ey & Sy) Vr Er Sr.
    rewrite Z.rem_mod_nonneg in Er by (try apply Z.mul_nonneg_nonneg; lia).
    pose proof (Z.mod_pos_bound (value x0 * value y0) (value m) Pm). unfold rep, fin. rewrite Er.
    split; [|lia]. split; [exact Vr|]. split; [lia|]. split; [|unfold K; lia].
    rewrite Z.mod_mod by lia. rewrite Z.mul_mod, Ex, Ey, <- Z.mul_mod by lia. reflexivity. }
  assert (H : pow_ok rep fin (~ room c (2 * K)) (value x) (eval ws) (pow_words c (mod_mul c m) (mod_sqr c m) z x ws)).
  { apply pow_words_spec; try assumption.
    - intros u a (Hu & _). apply valid_storage; exact Hu.
    - intros same z0 x0 y0 a b Hz0 Hs Rx Ry. pose proof Rx as (Vx & _ & _ & Sx). pose proof Ry as (Vy & _ & _ & Sy).
      pose proof (mod_mul_spec c m same z0 x0 y0 Hz0 Hs Vx Vy Hm ltac:(lia)) as P.
      unfold gives. destruct (mod_mul c m same z0 x0 y0) as [[r|]| | |]; try contradiction.
      + destruct P as (Vr & Er & Sr). apply (H1 a b x0 y0 r); assumption.
      + intros Hr. apply P. eapply room_le; [exact Hr|]. lia.
    - intros same z0 x0 a Hz0 Hs Rx. pose proof Rx as (Vx & _ & _ & Sx).
      pose proof (mod_sqr_spec c m same z0 x0 Hz0 Hs Vx Hm ltac:(lia)) as P.
      unfold gives. destruct (mod_sqr c m same z0 x0) as [[r|]| | |]; try contradiction.
      + destruct P as (Vr & Er & Sr). apply (H1 a a x0 x0 r); assumption.
      + intros Hr. apply P. eapply room_le; [exact Hr|]. lia.
    - intros z0 Hz0. destruct (assign_one c z0 Hz0 (valid_room1 c x Hx)) as (A & E & S). unfold rep. rewrite E, S.
      pose proof Hx as (_ & ? & _). split; [exact A|]. split; [lia|]. split; [reflexivity|]. unfold K. lia.
    - eapply zero_storage; exact Hx.
    - unfold rep. split; [exact Hx|]. split; [exact Px|]. split; [reflexivity|]. unfold K. lia. }
  unfold pow_ok in H. destruct (pow_words c (mod_mul c m) (mod_sqr c m) z x ws) as [[r|]| | |] eqn:Ep; try contradiction; [|exact H].
  destruct H as ((Vr & Nr & Er & _) & Hf). split; [exact Vr|]. split; [exact Nr|]. split; [exact Er|]. split; [exact Hf|].
  (* special exponents *)
  unfold pow_words in Ep. destruct (get_real_size_spec ws Hne) as (Hn & _ & Hnz & En).
  assert (Hsmall : eval ws < B -> Nat.eqb (get_real_size ws) 1 = true /\ hd 0 (firstn (get_real_size ws) ws) = eval ws).
  { intros Hb. assert (get_real_size ws = 1)%nat as E1.
    { destruct (Nat.eq_dec (get_real_size ws) 1) as [E|E]; [exact E|]. exfalso. specialize (Hnz ltac:(lia)).
      assert (Hwf : all_words (firstn (get_real_size ws) ws)) by (apply words_firstn; exact Hw).
      assert (Hl : length (firstn (get_real_size ws) ws) = get_real_size ws) by (rewrite firstn_length; lia).
      assert (Hne' : firstn (get_real_size ws) ws <> []) by (intros E'; rewrite E' in Hl; cbn in Hl; lia).
      destruct (last_bounds _ Hwf Hne') as (R0 & R1). rewrite Hl in R1.
      assert (El : last (firstn (get_real_size ws) ws) 0 = nth (get_real_size ws - 1) ws 0).
      { destruct (exists_snoc _ Hne') as (l & a & Ea). rewrite Ea, last_snoc.
        assert (Ll : length l = (get_real_size ws - 1)%nat) by (rewrite <- Hl, Ea, app_length; cbn; lia).
        rewrite <- (nth_firstn_lt ws (get_real_size ws)) by lia. rewrite Ea, <- Ll. rewrite app_nth2, Nat.sub_diag by lia. reflexivity. }
      rewrite El in *. rewrite <- En in R1. pose proof (Bn_mono 1 (get_real_size ws - 1) ltac:(lia)) as Hm1. rewrite Bn_1 in Hm1.
      pose proof (Bn_pos (get_real_size ws - 1)). clear - R0 R1 Hm1 Hb Hnz H. nia. }
    rewrite E1. split; [reflexivity|]. rewrite En, E1. destruct ws as [|w t]; [congruence|]. cbn [firstn hd eval]. lia. }
  pose proof B_val. split; intros Ee; destruct (Hsmall ltac:(lia)) as (A1 & A2); rewrite A1, A2, Ee in Ep; cbn [andb Z.eqb Pos.eqb] in Ep.
  - injection Ep as <-. reflexivity.
  - injection Ep as <-. apply (assign_one c z Hz (valid_room1 c x Hx)).
Qed.

Lemma modexp_spec c z x y m : storage_ok c z -> valid c x -> valid c y -> valid c m -> 0 <= value x -> neg y = false -> 0 < value m ->
  match modexp c z x y m with
  | Ok (Some r) => valid c r /\ 0 <= value r /\ value r mod value m = value x ^ value y mod value m /\
      (2 <= value y -> value r < value m) /\ (value y = 1 -> value r = value x) /\ (value y = 0 -> value r = 1)
  | Ok None => ~ room c (2 * Nat.max (size x) (size m))
  | _ => False
  end.
Proof.
  intros Hz Hx Hy Hm Px Hn Pm. unfold modexp. rewrite Hn. destruct (words_ne c y Hy) as (A & N).
  rewrite (value_sgn y), Hn. cbn [sgn]. rewrite magnitude_words. apply pow_words_mod; assumption.
Qed.
Lemma modexp_word_spec c z x w m : storage_ok c z -> valid c x -> 0 <= w < 2 ^ 32 -> valid c m -> 0 <= value x -> 0 < value m ->
  match modexp_word c z x w m with
  | Ok (Some r) => valid c r /\ 0 <= value r /\ value r mod value m = value x ^ w mod value m /\
      (2 <= w -> value r < value m) /\ (w = 1 -> value r = value x) /\ (w = 0 -> value r = 1)
  | Ok None => ~ room c (2 * Nat.max (size x) (size m))
  | _ => False
  end.
Proof.
  intros Hz Hx Hw Hm Px Pm. unfold modexp_word.
  assert (E : eval [w] = w) by (cbn [eval]; lia).
  pose proof (pow_words_mod c z x m [w] Hz Hx Hm Px Pm) as H. rewrite E in H. apply H; [|discriminate]. repeat constructor; apply Hw.
Qed.
