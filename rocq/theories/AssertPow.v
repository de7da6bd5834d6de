(** Builds with assertions: powers and the least common multiple. *)
From Coq Require Import List ZArith Bool Lia PeanoNat Znumtheory.
From Coq Require Import ZifyBool ZifyNat ZifyN.
From Verif Require Import Outcome LoopModel LoopProofs BitLemmas WordsModel WordsSpec WordsProofs DivProofs
  UtilsSpec BigintModel BigintSpec BigintProofs BigintBits BigintBytes BigintClosure BigintClaims NumModel NumProofs NumPow NumLcm NumClaims NumSigned
  AssertModel AssertSpec AssertProofs AssertRefine AssertSim AssertLoops.
Import ListNotations.
Open Scope Z_scope.

(** a stopped run seen as a reported failure, a reported failure as undefined *)
Definition wrap {A} (o : outcome (option A)) : outcome (option A) :=
  match o with Abort => Ok None | Ok None => UB | o => o end.
Lemma wrap_then r f g : (forall z, wrap (f z) = g z) -> wrap (then_ r f) = then_ (wrap r) g.
Proof. intros H. destruct r as [[z|]| | |]; cbn [then_ bind wrap]; try reflexivity. apply H. Qed.

Section WRAP.
Variable c : cap.
Variable dm : bool -> bigint -> bigint -> bigint -> pow_res.
Variable ds : bool -> bigint -> bigint -> pow_res.
Let wm (s : bool) (z x y : bigint) : pow_res := wrap (dm s z x y).
Let ws (s : bool) (z x : bigint) : pow_res := wrap (ds s z x).
Lemma wrap_table x n : forall p, wrap (pow_table c dm x p n) = pow_table c wm x p n.
Proof.
  induction n as [|n IH]; intros p; cbn [pow_table]; [reflexivity|]. unfold wm at 1. destruct (dm false (zero c) p x) as [[t|]| | |]; cbn [bind wrap]; try reflexivity.
  rewrite <- IH. destruct (pow_table c dm x t n) as [[l|]| | |]; reflexivity.
Qed.
Lemma wrap_digit tbl z d : wrap (pow_digit c dm ds tbl z d) = pow_digit c wm ws tbl z d.
Proof.
  unfold pow_digit. do 4 (apply wrap_then; intros ?). destruct (_ =? 0); reflexivity.
Qed.
Lemma wrap_digits tbl l : forall z, wrap (pow_digits c dm ds tbl z l) = pow_digits c wm ws tbl z l.
Proof. induction l as [|d l IH]; intros z; cbn [pow_digits]; [reflexivity|]. rewrite <- wrap_digit. apply wrap_then. exact IH. Qed.
Lemma wrap_words z x y : wrap (pow_words c dm ds z x y) = pow_words c wm ws z x y.
Proof.
  unfold pow_words. do 3 (destruct (_ && _); [reflexivity|]). destruct (_ && _); [apply wrap_then; reflexivity|]. destruct (_ && _); [apply wrap_then; reflexivity|].
  rewrite <- wrap_table. destruct (pow_table c dm x x 14) as [[l|]| | |]; cbn [bind wrap]; try reflexivity. apply wrap_digits.
Qed.
End WRAP.

Lemma d_plain_mul_spec c same z x y : storage_ok c z -> (same = true -> z = x) -> valid c x -> valid c y ->
  match wrap (d_plain_mul c same z x y) with
  | Ok (Some r) => valid c r /\ value r = value x * value y
  | Ok None => ~ room c (size x + size y)
  | _ => False
  end.
Proof.
  intros Hz Hs Hx Hy. destruct (d_mul_ok c same false z x y Hz Hx Hy Hs ltac:(discriminate)) as [H1 H2]. unfold d_plain_mul.
  destruct (room_dec c (size x + size y)) as [R|R]; [destruct (H1 R) as (r & -> & P); exact P|rewrite (H2 R); exact R].
Qed.
Lemma d_plain_sqr_spec c same z x : storage_ok c z -> (same = true -> z = x) -> valid c x ->
  match wrap (d_plain_sqr c same z x) with
  | Ok (Some r) => valid c r /\ value r = value x * value x
  | Ok None => ~ room c (size x + size x)
  | _ => False
  end.
Proof.
  intros Hz Hs Hx. destruct (d_mul_ok c same same z x x Hz Hx Hx Hs Hs) as [H1 H2]. unfold d_plain_sqr, d_sqr.
  destruct (room_dec c (size x + size x)) as [R|R]; [destruct (H1 R) as (r & -> & P); exact P|rewrite (H2 R); exact R].
Qed.
Lemma d_pow_exact c z x y : valid c z -> valid c x -> valid c y -> neg y = false ->
  (d_pow c z x y = Abort /\ exists n, ~ room c n) \/ exists r, d_pow c z x y = Ok (Some r) /\ valid c r /\ value r = value x ^ value y.
Proof.
  intros Hz Hx Hy N. unfold d_pow. rewrite N, d_assign_int_ok by (try apply (valid_room1 c x Hx); lia). cbn [bind].
  destruct (words_ne c y Hy) as (Hw & Hne).
  assert (H' : pow_ok (fun r a => valid c r /\ value r = a) (fun _ => True) (exists n, ~ room c n) (value x) (eval (words y)) (wrap (pow_words c (d_plain_mul c) (d_plain_sqr c) z x (words y)))).
  { rewrite wrap_words. apply (pow_words_spec c); try assumption.
    - intros u a (Hu & _). apply valid_storage; exact Hu.
    - intros same z0 x0 y0 a b Hz0 Hs (Hx0 & <-) (Hy0 & <-). pose proof (d_plain_mul_spec c same z0 x0 y0 Hz0 Hs Hx0 Hy0) as P.
      unfold gives. destruct (wrap (d_plain_mul c same z0 x0 y0)) as [[r|]| | |]; try contradiction; [tauto|eauto].
    - intros same z0 x0 a Hz0 Hs (Hx0 & <-). pose proof (d_plain_sqr_spec c same z0 x0 Hz0 Hs Hx0) as P.
      unfold gives. destruct (wrap (d_plain_sqr c same z0 x0)) as [[r|]| | |]; try contradiction; [tauto|eauto].
    - intros z0 Hz0. pose proof (assign_one c z0 Hz0 (valid_room1 c x Hx)). tauto.
    - eapply zero_storage; exact Hx.
    - apply valid_storage; exact Hz.
    - auto. }
  replace (value y) with (eval (words y)) by (rewrite (value_sgn y), N; symmetry; apply magnitude_words).
  unfold pow_ok in H'. destruct (pow_words c (d_plain_mul c) (d_plain_sqr c) z x (words y)) as [[r|]| | |]; cbn [wrap] in H'; try contradiction; [right; exists r; tauto|left; tauto].
Qed.

Lemma d_mod_spec c m z1 a : valid c z1 -> valid c m -> value m <> 0 -> value z1 = a ->
  exists u, d_mod_r c (zero c) z1 m = Ok (true, u) /\ valid c u /\ value u = Z.rem a (value m) /\ (size u <= size m)%nat.
Proof. intros Hr Hm Hnz E. rewrite (d_mod_r_eq c (zero c) z1 m (zero_storage c m Hm) Hr Hm). apply mod_tail; assumption. Qed.
Lemma d_mod_mul_spec c m same z x y : storage_ok c z -> (same = true -> z = x) -> valid c x -> valid c y -> valid c m -> value m <> 0 ->
  match wrap (d_mod_mul c m same z x y) with
  | Ok (Some r) => valid c r /\ value r = Z.rem (value x * value y) (value m) /\ (size r <= size m)%nat
  | Ok None => ~ room c (size x + size y)
  | _ => False
  end.
Proof.
  intros Hz Hs Hx Hy Hm Hnz. destruct (d_mul_ok c same false z x y Hz Hx Hy Hs ltac:(discriminate)) as [H1 H2]. unfold d_mod_mul.
  destruct (room_dec c (size x + size y)) as [R|R]; [destruct (H1 R) as (r & -> & Vr & Er)|rewrite (H2 R); exact R]. cbn [bind].
  destruct (d_mod_spec c m r _ Vr Hm Hnz Er) as (u & -> & P). exact P.
Qed.
Lemma d_mod_sqr_spec c m same z x : storage_ok c z -> (same = true -> z = x) -> valid c x -> valid c m -> value m <> 0 ->
  match wrap (d_mod_sqr c m same z x) with
  | Ok (Some r) => valid c r /\ value r = Z.rem (value x * value x) (value m) /\ (size r <= size m)%nat
  | Ok None => ~ room c (size x + size x)
  | _ => False
  end.
Proof.
  intros Hz Hs Hx Hm Hnz. destruct (d_mul_ok c same same z x x Hz Hx Hx Hs Hs) as [H1 H2]. unfold d_mod_sqr, d_sqr.
  destruct (room_dec c (size x + size x)) as [R|R]; [destruct (H1 R) as (r & -> & Vr & Er)|rewrite (H2 R); exact R]. cbn [bind].
  destruct (d_mod_spec c m r _ Vr Hm Hnz Er) as (u & -> & P). exact P.
Qed.
(** modexp never reports failure: it stops or returns *)
Lemma d_modexp_runs c z x y m : valid c z -> valid c x -> valid c y -> valid c m -> 0 <= value x -> neg y = false -> 0 < value m ->
  (d_modexp c z x y m = Abort /\ ~ room c (2 * Nat.max (size x) (size m))) \/ exists r, d_modexp c z x y m = Ok (Some r).
Proof.
  intros Hz Hx Hy Hm Px N Pm. unfold d_modexp. rewrite N, d_assign_int_ok by (try apply (valid_room1 c x Hx); lia). cbn [bind].
  destruct (words_ne c y Hy) as (Hw & Hne). set (K := Nat.max (size x) (size m)).
  set (rep := fun r (a : Z) => valid c r /\ (size r <= K)%nat).
  assert (H : pow_ok rep (fun _ => True) (~ room c (2 * K)) (value x) (eval (words y)) (wrap (pow_words c (d_mod_mul c m) (d_mod_sqr c m) z x (words y)))).
  { rewrite wrap_words. apply (pow_words_spec c); try assumption.
    - intros u a (Hu & _). apply valid_storage; exact Hu.
    - intros same z0 x0 y0 a b Hz0 Hs (Vx & Sx) (Vy & Sy).
      pose proof (d_mod_mul_spec c m same z0 x0 y0 Hz0 Hs Vx Vy Hm ltac:(lia)) as P.
      unfold gives. destruct (wrap (d_mod_mul c m same z0 x0 y0)) as [[r|]| | |]; try contradiction.
      + destruct P as (Vr & Er & Sr). split; [|exact I]. split; [exact Vr|unfold K; lia].
      + intros Hr. apply P. eapply room_le; [exact Hr|]. lia.
    - intros same z0 x0 a Hz0 Hs (Vx & Sx).
      pose proof (d_mod_sqr_spec c m same z0 x0 Hz0 Hs Vx Hm ltac:(lia)) as P.
      unfold gives. destruct (wrap (d_mod_sqr c m same z0 x0)) as [[r|]| | |]; try contradiction.
      + destruct P as (Vr & Er & Sr). split; [|exact I]. split; [exact Vr|unfold K; lia].
      + intros Hr. apply P. eapply room_le; [exact Hr|]. lia.
    - intros z0 Hz0. destruct (assign_one c z0 Hz0 (valid_room1 c x Hx)) as (A & E & S). split; [exact A|]. rewrite S. pose proof Hx as (_ & ? & _). unfold K. lia.
    - eapply zero_storage; exact Hx.
    - apply valid_storage; exact Hz.
    - split; [exact Hx|unfold K; lia]. }
  unfold pow_ok in H. destruct (pow_words c (d_mod_mul c m) (d_mod_sqr c m) z x (words y)) as [[r|]| | |]; cbn [wrap] in H; try contradiction; [right; eauto|left; auto].
Qed.
Lemma d_modexp_exact c z x y m : valid c z -> valid c x -> valid c y -> valid c m -> 0 <= value x -> neg y = false -> 0 < value m ->
  2 <= value y \/ (value x < value m /\ 1 < value m) ->
  (d_modexp c z x y m = Abort /\ ~ room c (2 * Nat.max (size x) (size m))) \/
  exists r, d_modexp c z x y m = Ok (Some r) /\ valid c r /\ value r = value x ^ value y mod value m.
Proof.
  intros Hz Hx Hy Hm Px N Pm Cond. destruct (d_modexp_runs c z x y m Hz Hx Hy Hm Px N Pm) as [H|(r & E)]; [left; exact H|right]. exists r. split; [exact E|].
  destruct (b_modexp c z x y m) as [E'|E']; [congruence|]. pose proof (modexp_spec c z x y m (valid_storage _ _ Hz) Hx Hy Hm Px N Pm) as P. rewrite <- E', E in P.
  destruct P as (V & P0 & Pc & P2 & P1 & Pz). split; [exact V|]. rewrite <- Pc. symmetry. apply Z.mod_small. split; [exact P0|].
  pose proof (magnitude_range c y Hy). assert (Py : 0 <= value y) by (rewrite value_sgn, N; cbn [sgn]; lia).
  destruct (Z_le_gt_dec 2 (value y)) as [L|L]; [apply P2; exact L|]. destruct Cond as [Cond|(C1 & C2)]; [lia|].
  assert (value y = 0 \/ value y = 1) as [E0|E1] by lia; [rewrite (Pz E0); exact C2|rewrite (P1 E1); exact C1].
Qed.

(** *** lcm: the case in which the divisor's own array is overwritten is caught by the assertion in line 532 *)
Lemma shares_clobbers c x y : valid c x -> valid c y -> shares_divisor (words x) (words y) = clobbers x y.
Proof.
  intros Hx Hy. destruct (words_valid c y Hy) as (_ & L & _). unfold shares_divisor, clobbers. rewrite L, (real_words c x Hx), (nth_last_words c y Hy). reflexivity.
Qed.
Lemma d_lcm_exact c z x y : valid c z -> valid c x -> valid c y -> value x <> 0 \/ value y <> 0 ->
  let g := Z.gcd (value x) (value y) in
  let own := 2 ^ 32 <= g /\ (Z.log2 g + 1) mod 32 = 0 /\ 2 ^ (Z.log2 g + 1) <= Z.abs (value x) in
  (own -> d_lcm c z x y = Abort) /\
  (~ own -> (d_lcm c z x y = Abort /\ ~ room c (size x + size y)) \/ exists r, d_lcm c z x y = Ok r /\ valid c r /\ Z.abs (value r) = Z.lcm (value x) (value y)).
Proof.
  intros Hz Hx Hy Hnz gg own. unfold d_lcm. rewrite (d_gcd_eq c x y Hx Hy). destruct (gcd_spec c x y Hx Hy) as (g & Eg' & Hg & Eg & _). rewrite Eg'. cbn [bind].
  assert (Hg0 : value g <> 0). { intros H. rewrite H in Eg. symmetry in Eg. apply Z.gcd_eq_0 in Eg. lia. }
  assert (Own : clobbers x g = true <-> own) by (rewrite (clobbers_value c x g Hx Hg), Eg; reflexivity).
  unfold d_div_in_place. rewrite (shares_clobbers c x g Hx Hg).
  assert (Rq : can_resize c (size x - size g + 1) = true). { apply can_true. pose proof Hg as (_ & ? & _). eapply room_le; [apply (valid_size_room c x Hx)|]. pose proof Hx as (_ & ? & _). lia. }
  rewrite Rq. split.
  - intros O. apply Own in O. rewrite O. assert (L : Nat.ltb (size x) (size g) = false). { unfold clobbers in O. apply andb_true_iff in O. destruct O as (O & _). apply andb_true_iff in O. destruct O as (_ & O). apply Nat.ltb_lt in O. apply Nat.ltb_ge. lia. }
    rewrite L. reflexivity.
  - intros O. assert (Cl : clobbers x g = false) by (destruct (clobbers x g); [elim O; apply Own; reflexivity|reflexivity]). rewrite Cl.
    destruct (div_q_spec c g x g (valid_storage _ _ Hg) Hx Hg Hg0) as (q & Eq & Hq & Evq).
    pose proof (div_in_place_harmless c x g q Hx Hg Cl Eq) as Ed.
    assert (Ed' : (if Nat.ltb (size x) (size g) then div_in_place c x g else let* _ := check true in let* _ := check (negb false) in div_in_place c x g) = Ok q) by (cbn [negb check bind]; destruct (Nat.ltb _ _); exact Ed).
    rewrite Ed'. cbn [bind]. destruct (d_mul_ok c false false z q y (valid_storage _ _ Hz) Hq Hy ltac:(discriminate) ltac:(discriminate)) as (M1 & M2).
    assert (Dx : exists k, value x = k * value g).
    { destruct (Z.gcd_divide_l (value x) (value y)) as (k & Ek). rewrite <- Eg in Ek. destruct (Z.abs_spec (value g)) as [[_ A]|[_ A]]; rewrite A in Ek; [exists k; exact Ek|exists (- k); lia]. }
    destruct Dx as (k & Ek). assert (Eqk : value q = k). { rewrite Evq, Ek. apply Z.quot_mul. exact Hg0. }
    assert (Sq : (size q <= size x)%nat). { apply (size_le c); [assumption|assumption|]. rewrite Eqk, Ek, Z.abs_mul. rewrite <- (Z.mul_1_r (Z.abs k)) at 1. apply Z.mul_le_mono_nonneg_l; lia. }
    destruct (room_dec c (size q + size y)) as [R|R].
    + right. destruct (M1 R) as (r & -> & Vr & Er). exists r. split; [reflexivity|]. split; [exact Vr|].
      assert (Eqn : value g * value r = value x * value y) by (rewrite Er, Eqk, Ek; ring).
      assert (P : Z.gcd (value x) (value y) * Z.lcm (value x) (value y) = Z.abs (value x * value y)).
      { unfold Z.lcm. destruct (Z.gcd_divide_r (value x) (value y)) as (j & Ej).
        remember (Z.gcd (value x) (value y)) as d eqn:Ed2. assert (Dp : 0 < d) by lia. clear - Ej Dp. rewrite Ej, Z.div_mul by lia. rewrite !Z.abs_mul. rewrite (Z.abs_eq d) by lia. ring. }
      rewrite <- Eqn, Z.abs_mul, Eg in P. apply Z.mul_reg_l with (2 := eq_sym P). lia.
    + left. rewrite (M2 R). split; [reflexivity|]. intros R'. apply R. eapply room_le; [exact R'|lia].
Qed.
