(** What the operations do at every capacity, with or without room for the result, and the sign a zero result carries. *)
From Coq Require Import List ZArith Bool Lia PeanoNat.
From Coq Require Import ZifyBool ZifyNat ZifyN.
From Verif Require Import Outcome LoopModel WordsModel WordsSpec WordsProofs DivProofs BigintModel BigintSpec BigintProofs BigintClosure BigintClaims.
Import ListNotations.
Open Scope Z_scope.

Lemma clear_value c z : storage_ok c z -> room c 1 -> value (clear z) = 0 /\ magnitude (clear z) = 0 /\ neg (clear z) = false.
Proof. intros Hz R1. destruct (clear_spec c z Hz R1) as (_ & ? & ? & ? & ?). auto. Qed.
Lemma sgn0 s : sgn s 0 = 0. Proof. destruct s; reflexivity. Qed.

Lemma add_signed_exact c z x xN y yN : valid c z -> valid c x -> valid c y ->
  value (add_signed c z x xN y yN) =
    (if eqb xN yN && negb (can_resize c (Nat.max (size x) (size y) + 1)) then 0 else sgn xN (magnitude x) + sgn yN (magnitude y)).
Proof.
  intros Hz Hx Hy. pose proof (valid_room1 c x Hx) as R1. apply valid_stor in Hz.
  destruct (eqb xN yN) eqn:Eq; cbn [andb].
  - apply eqb_prop in Eq. subst yN. destruct (can_resize c _) eqn:R; cbn [negb].
    + apply add_signed_spec; auto. intros _. apply room_can. exact R.
    + unfold add_signed. rewrite xorb_nilpotent. cbn [negb]. unfold uadd. rewrite R, set_neg_value.
      destruct (clear_value c z Hz R1) as (_ & -> & _). apply sgn0.
  - apply eqb_false_iff in Eq. apply add_signed_spec; auto. congruence.
Qed.
Lemma add_signed_zero c z x xN y yN : valid c z -> valid c x -> valid c y ->
  value (add_signed c z x xN y yN) = 0 -> neg (add_signed c z x xN y yN) = xN.
Proof.
  intros Hz Hx Hy E. pose proof (ucompare_spec c x y Hx Hy) as Hu. unfold cmp_result in Hu.
  unfold add_signed in *. destruct (xorb xN yN) eqn:Ex; cbn [negb] in *; [|reflexivity].
  destruct (Z.leb_spec 0 (ucompare x y)); [reflexivity|].
  destruct (usub_spec c z y x (valid_stor _ _ Hz) Hy Hx ltac:(lia)) as (_ & Hm & _).
  rewrite set_neg_value, Hm in E. destruct yN; cbn [sgn] in E; lia.
Qed.
Lemma add_exact c z x y : valid c z -> valid c x -> valid c y ->
  value (add c z x y) = (if eqb (neg x) (neg y) && negb (can_resize c (Nat.max (size x) (size y) + 1)) then 0 else value x + value y) /\
  value (sub c z x y) = (if negb (eqb (neg x) (neg y)) && negb (can_resize c (Nat.max (size x) (size y) + 1)) then 0 else value x - value y).
Proof.
  intros Hz Hx Hy. split; [exact (add_signed_exact c z x (neg x) y (neg y) Hz Hx Hy)|].
  unfold sub. rewrite (add_signed_exact c z x (neg x) y (negb (neg y)) Hz Hx Hy), sgn_negb.
  replace (eqb (neg x) (negb (neg y))) with (negb (eqb (neg x) (neg y))) by (destruct (neg x), (neg y); reflexivity). reflexivity.
Qed.

Lemma add1_exact c same z x w yN : valid c z -> valid c x -> 0 <= w < B -> (same = true -> z = x) ->
  value (add1_signed c same z x w yN) = (if eqb (neg x) yN && negb (can_resize c (size x + 1)) then 0 else value x + sgn yN w).
Proof.
  intros Hz Hx Hw Hs. pose proof (valid_room1 c x Hx) as R1. apply valid_stor in Hz.
  destruct (eqb (neg x) yN) eqn:Eq; cbn [andb].
  - apply eqb_prop in Eq. destruct (can_resize c _) eqn:R; cbn [negb].
    + apply add1_signed_spec; auto. intros _. apply room_can. exact R.
    + unfold add1_signed. rewrite Eq, xorb_nilpotent. cbn [negb]. unfold uadd1. rewrite R, set_neg_value.
      destruct (clear_value c z Hz R1) as (_ & -> & _). apply sgn0.
  - apply eqb_false_iff in Eq. apply add1_signed_spec; auto. congruence.
Qed.
Lemma word_ops_exact c same z x w : valid c z -> valid c x -> 0 <= w < 2 ^ 32 -> (same = true -> z = x) ->
  value (addu1 c same z x w) = (if negb (neg x) && negb (can_resize c (size x + 1)) then 0 else value x + w) /\
  value (subu1 c same z x w) = (if neg x && negb (can_resize c (size x + 1)) then 0 else value x - w) /\
  value (mulu1 c z x w) = (if can_resize c (size x + 1) then value x * w else 0).
Proof.
  intros Hz Hx Hw Hs. change (2 ^ 32) with B in Hw. pose proof (valid_room1 c x Hx) as R1.
  unfold addu1, subu1. rewrite !(add1_exact c same z x w) by assumption.
  split; [destruct (neg x); reflexivity|]. split.
  - cbn [sgn]. replace (value x + - w) with (value x - w) by lia. destruct (neg x); reflexivity.
  - destruct (can_resize c (size x + 1)) eqn:R.
    + apply mulu1_spec; auto using valid_stor. apply room_can. exact R.
    + unfold mulu1. rewrite R. apply (clear_value c z (valid_stor _ _ Hz) R1).
Qed.
Lemma int_ops_exact c same z x k : valid c z -> valid c x -> - 2 ^ 31 <= k < 2 ^ 31 -> (same = true -> z = x) ->
  value (adds1 c same z x k) = (if eqb (neg x) (k <? 0) && negb (can_resize c (size x + 1)) then 0 else value x + k) /\
  value (subs1 c same z x k) = (if negb (eqb (neg x) (k <? 0)) && negb (can_resize c (size x + 1)) then 0 else value x - k) /\
  value (muls1 c z x k) = (if can_resize c (size x + 1) then value x * k else 0).
Proof.
  intros Hz Hx Hk Hs. pose proof (valid_room1 c x Hx) as R1. pose proof (int32_abs k Hk) as Ha.
  unfold adds1, subs1. rewrite !cabs32_spec, !(add1_exact c same z x (Z.abs k)) by assumption.
  replace (sgn (k <? 0) (Z.abs k)) with k by (destruct (Z.ltb_spec k 0); cbn [sgn]; lia).
  rewrite sgn_negb. replace (sgn (k <? 0) (Z.abs k)) with k by (destruct (Z.ltb_spec k 0); cbn [sgn]; lia).
  split; [reflexivity|]. split.
  - replace (eqb (neg x) (negb (k <? 0))) with (negb (eqb (neg x) (k <? 0))) by (destruct (neg x), (k <? 0); reflexivity). reflexivity.
  - destruct (can_resize c (size x + 1)) eqn:R.
    + apply muls1_spec; auto using valid_stor. apply room_can. exact R.
    + unfold muls1, mulu1. rewrite R, set_neg_value. destruct (clear_value c z (valid_stor _ _ Hz) R1) as (_ & -> & _). apply sgn0.
Qed.

(** [mul] reports its failure and leaves the destination; the operators ignore the report, so that [a * b] is 0 and [a *= b] leaves a. *)
Lemma mul_exact c sX sY z x y : valid c z -> valid c x -> valid c y -> (sX = true -> z = x) -> (sY = true -> z = y) ->
  fst (mul c sX sY z x y) = can_resize c (size x + size y) /\
  value (snd (mul c sX sY z x y)) = (if can_resize c (size x + size y) then value x * value y else value z).
Proof.
  intros Hz Hx Hy H1 H2. destruct (can_resize c _) eqn:R.
  - destruct (mul_spec c sX sY z x y (valid_stor _ _ Hz) Hx Hy ltac:(apply room_can; exact R) H1 H2) as (r & -> & _ & E). auto.
  - unfold mul. rewrite R. auto.
Qed.
Lemma op_mul_exact c x y : valid c x -> valid c y -> value (op_mul c x y) = (if can_resize c (size x + size y) then value x * value y else 0).
Proof.
  intros Hx Hy. destruct (zero_spec c (valid_room1 c x Hx)) as (Hz & Ez & _). unfold op_mul.
  rewrite (proj2 (mul_exact c false false (zero c) x y Hz Hx Hy ltac:(discriminate) ltac:(discriminate))), Ez. reflexivity.
Qed.

Lemma shl_exact c z x n : valid c z -> valid c x -> 0 <= n ->
  if can_resize c (size x + Z.to_nat ((n + 31) / 32)) then exists r, shl c z x n = Ok r /\ valid c r /\ value r = value x * 2 ^ n
  else shl c z x n = UB.
Proof.
  intros Hz Hx Hn. destruct (can_resize c _) eqn:R.
  - destruct (shl_spec c z x n (valid_stor _ _ Hz) Hx Hn ltac:(apply room_can; exact R)) as (r & E & V & Ev & _). exists r. auto.
  - unfold shl. rewrite R. reflexivity.
Qed.

(** *** which zeros are negative *)
Lemma store_zero_neg c z ws : storage_ok c z -> all_words ws -> ws <> [] -> room c (length ws) -> eval ws = 0 -> neg (store z ws) = false.
Proof. intros Hz W N R E. destruct (store_spec c z ws Hz W N R) as (_ & _ & -> & _). rewrite E. reflexivity. Qed.

Lemma mul_zero_sign c sX sY z x y r : valid c z -> valid c x -> valid c y -> (sX = true -> z = x) -> (sY = true -> z = y) ->
  mul c sX sY z x y = (true, r) -> value r = 0 -> neg r = xorb (negb sX && neg x) (negb sY && neg y).
Proof.
  intros Hz Hx Hy H1 H2 E E0.
  destruct (mul_sound c sX sY z x y r (valid_stor _ _ Hz) Hx Hy H1 H2 E) as (_ & Ev).
  unfold mul in E. destruct (can_resize c (size x + size y)) eqn:R; [|discriminate E]. injection E as <-. cbn [neg set_neg].
  destruct (words_valid c x Hx) as (Wx & Lx & Nx). destruct (words_valid c y Hy) as (Wy & Ly & Ny).
  destruct (mul_nm_spec _ _ Wx Wy Nx Ny) as (W & L & Em). rewrite Lx, Ly in L.
  assert (Z0 : eval (mul_nm (words x) (words y)) = 0).
  { rewrite Em, <- !magnitude_words. rewrite E0, !value_sgn in Ev. destruct (neg x), (neg y); cbn [sgn] in Ev; lia. }
  assert (Ns : neg (store z (mul_nm (words x) (words y))) = false).
  { apply (store_zero_neg c); [apply valid_stor; exact Hz|exact W| |rewrite L; apply room_can; exact R|exact Z0].
    apply nonempty_length. destruct Hx as (_ & ? & _). lia. }
  unfold set_neg. cbn [neg]. rewrite Ns. destruct sX, sY; reflexivity.
Qed.

Lemma zero_sign_claim c sX sY z x y : valid c z -> valid c x -> valid c y -> (sX = true -> z = x) -> (sY = true -> z = y) ->
  (value (add c z x y) = 0 -> neg (add c z x y) = neg x) /\
  (value (sub c z x y) = 0 -> neg (sub c z x y) = neg x) /\
  (forall r, mul c sX sY z x y = (true, r) -> value r = 0 -> neg r = xorb (negb sX && neg x) (negb sY && neg y)) /\
  (forall q r q' r', div_mod c q r x y = Ok (true, q', r') ->
     neg r' = neg x /\ match q' with Some k => neg k = xorb (neg x) (neg y) | None => True end) /\
  neg (neg_op x) = negb (neg x) /\ neg (abs_op x) = false.
Proof.
  intros Hz Hx Hy H1 H2.
  split; [apply add_signed_zero; assumption|]. split; [apply add_signed_zero; assumption|].
  split; [intros r; apply mul_zero_sign; assumption|]. split; [|split; reflexivity].
  intros q r q' r' E. unfold div_mod in E. destruct (udiv c q r x y) as [[[[|] q1] r1]| | |]; try discriminate E.
  cbn in E. injection E as <- <-. split; [reflexivity|]. destruct q1; [reflexivity|exact I].
Qed.

(** *** division by a word *)
Lemma divu1_exact c z x w : valid c z -> valid c x -> 0 <= w < 2 ^ 32 ->
  if w =? 0 then divu1 c z x w = Abort
  else exists q, divu1 c z x w = Ok q /\ valid c q /\ neg q = false /\ value q = Z.abs (value x) / w.
Proof.
  intros Hz Hx Hw. change (2 ^ 32) with B in Hw. destruct (Z.eqb_spec w 0) as [->|Nz].
  - unfold divu1, udiv_modu1_q. rewrite (proj1 (room_can c _) (valid_size_room c x Hx)). unfold div_word. reflexivity.
  - destruct (divu1_spec c z x w (valid_stor _ _ Hz) Hx ltac:(lia)) as (q & E & V & Ev). exists q. repeat (split; [assumption|]). split; [|exact Ev].
    unfold divu1, udiv_modu1_q in E. destruct (can_resize c (size x)).
    + destruct (div_word (words x) w) as [[ws r]| | |]; try discriminate E. cbn in E. injection E as <-. reflexivity.
    + cbn in E. injection E as <-. reflexivity.
Qed.
