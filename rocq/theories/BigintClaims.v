(** Packaged statements used by BigintProperties. *)
From Coq Require Import List ZArith Bool Lia PeanoNat.
From Coq Require Import ZifyBool ZifyNat ZifyN.
From Verif Require Import Outcome LoopModel LoopProofs BitLemmas WordsModel WordsSpec WordsProofs DivProofs
  UtilsSpec BigintModel BigintSpec BigintProofs BigintBits BigintBytes BigintClosure.
Import ListNotations.
Open Scope Z_scope.

Lemma valid_stor c x : valid c x -> storage_ok c x. Proof. apply valid_storage. Qed.

(** C13 *)
Lemma add_claim c z x y : valid c z -> valid c x -> valid c y -> room c (Nat.max (size x) (size y) + 1) ->
  valid c (add c z x y) /\ value (add c z x y) = value x + value y.
Proof. intros. apply add_spec; auto using valid_stor. Qed.
Lemma sub_claim c z x y : valid c z -> valid c x -> valid c y -> room c (Nat.max (size x) (size y) + 1) ->
  valid c (sub c z x y) /\ value (sub c z x y) = value x - value y.
Proof. intros. apply sub_spec; auto using valid_stor. Qed.
Lemma add_opposite_claim c z x y : valid c z -> valid c x -> valid c y -> neg x <> neg y ->
  valid c (add c z x y) /\ value (add c z x y) = value x + value y.
Proof. intros. unfold add. rewrite (value_sgn x), (value_sgn y). apply add_signed_spec; auto using valid_stor. congruence. Qed.
Lemma sub_same_claim c z x y : valid c z -> valid c x -> valid c y -> neg x = neg y ->
  valid c (sub c z x y) /\ value (sub c z x y) = value x - value y.
Proof.
  intros. unfold sub. destruct (add_signed_spec c z x (neg x) y (negb (neg y))) as (Hv & E); auto using valid_stor.
  { intros E. rewrite H2 in E. destruct (neg y); discriminate. }
  split; [assumption|]. rewrite E, sgn_negb, !value_sgn. lia.
Qed.
Lemma compare_claim c x y : valid c x -> valid c y ->
  ((compare x y =? 0) = (value x =? value y)) /\ ((compare x y <? 0) = (value x <? value y)) /\
  ((compare x y <=? 0) = (value x <=? value y)) /\ ((compare x y >? 0) = (value x >? value y)) /\
  ((compare x y >=? 0) = (value x >=? value y)).
Proof.
  intros Hx Hy. pose proof (compare_spec c x y Hx Hy) as H. unfold cmp_result in H. repeat split; lia.
Qed.

(** C14 *)
Lemma mul_claim c sX sY z x y : valid c z -> valid c x -> valid c y -> room c (size x + size y) ->
  (sX = true -> z = x) -> (sY = true -> z = y) ->
  exists r, mul c sX sY z x y = (true, r) /\ valid c r /\ value r = value x * value y.
Proof. intros. apply mul_spec; auto using valid_stor. Qed.
Lemma mul_sound_claim c sX sY z x y r : valid c z -> valid c x -> valid c y ->
  (sX = true -> z = x) -> (sY = true -> z = y) ->
  mul c sX sY z x y = (true, r) -> valid c r /\ value r = value x * value y.
Proof. intros. apply (mul_sound c sX sY z x y r); auto using valid_stor. Qed.
Lemma mulu1_claim c z x w : valid c z -> valid c x -> 0 <= w < 2 ^ 32 -> room c (size x + 1) ->
  valid c (mulu1 c z x w) /\ value (mulu1 c z x w) = value x * w.
Proof. intros. destruct (mulu1_spec c z x w) as (? & ? & _); auto using valid_stor. Qed.
Lemma muls1_claim c z x k : valid c z -> valid c x -> - 2 ^ 31 <= k < 2 ^ 31 -> room c (size x + 1) ->
  valid c (muls1 c z x k) /\ value (muls1 c z x k) = value x * k.
Proof. intros. apply muls1_spec; auto using valid_stor. Qed.

(** C15: truncated division; [q] and [r] may be any objects, in particular x itself *)
Lemma div_mod_claim c q r x y : valid c q -> valid c r -> valid c x -> valid c y -> value y <> 0 ->
  exists q' r', div_mod c (Some q) r x y = Ok (true, Some q', r') /\ valid c q' /\ valid c r' /\
    value x = value q' * value y + value r' /\ Z.abs (value r') < Z.abs (value y) /\
    (value r' = 0 \/ Z.sgn (value r') = Z.sgn (value x)).
Proof.
  intros Hq Hr Hx Hy Hnz.
  destruct (div_mod_spec c (Some q) r x y (valid_stor _ _ Hr) Hx Hy Hnz (valid_stor _ _ Hq)) as (q' & r' & E & Hvr & Er & Hqq).
  destruct q' as [q'|]; [|contradiction]. destruct Hqq as (Hvq & Eq).
  exists q', r'. split; [exact E|]. split; [exact Hvq|]. split; [exact Hvr|]. rewrite Eq, Er.
  pose proof (Z.quot_rem (value x) (value y) Hnz). pose proof (Z.rem_bound_abs (value x) (value y) Hnz).
  split; [lia|]. split; [assumption|].
  destruct (Z.eq_dec (Z.rem (value x) (value y)) 0) as [E0|E0]; [left; assumption|right]. apply Z.rem_sign_nz; assumption.
Qed.
Lemma div_q_claim c q x y : valid c q -> valid c x -> valid c y -> value y <> 0 ->
  exists q', div_q c q x y = Ok (true, q') /\ valid c q' /\ value q' = Z.quot (value x) (value y).
Proof. intros. apply div_q_spec; auto using valid_stor. Qed.
Lemma mod_r_claim c r x y : valid c r -> valid c x -> valid c y -> value y <> 0 ->
  exists r', mod_r c r x y = Ok (true, r') /\ valid c r' /\ value r' = Z.rem (value x) (value y).
Proof. intros. apply mod_r_spec; auto using valid_stor. Qed.
Lemma quot_rem_claim c q r x y : valid c q -> valid c r -> valid c x -> valid c y -> value y <> 0 -> room c (size x + 1) ->
  exists q' r', quot_rem c (Some q) r x y = Ok (Some q', r') /\ valid c q' /\ valid c r' /\
    value x = value q' * value y + value r' /\
    (0 <= value r' < value y \/ value y < value r' <= 0).
Proof.
  intros Hq Hr Hx Hy Hnz Hroom.
  destruct (quot_rem_spec c (Some q) r x y (valid_stor _ _ Hr) Hx Hy Hnz (conj (valid_stor _ _ Hq) Hroom)) as (q' & r' & E & Hvr & Er & Hqq).
  destruct q' as [q'|]; [|contradiction]. destruct Hqq as (Hvq & Eq).
  exists q', r'. split; [exact E|]. split; [exact Hvq|]. split; [exact Hvr|]. rewrite Eq, Er.
  pose proof (Z.div_mod (value x) (value y) Hnz). split; [lia|].
  destruct (Z_lt_le_dec 0 (value y)); [left; apply Z.mod_pos_bound; lia|right; apply Z.mod_neg_bound; lia].
Qed.
Lemma div_zero_claim c q r x y : valid c x -> valid c y -> value y = 0 ->
  div_mod c q r x y = Abort /\ quot_rem c q r x y = Abort.
Proof.
  intros Hx Hy H. split; [apply div_mod_by_zero; assumption|]. unfold quot_rem. rewrite udiv_by_zero; [reflexivity|assumption..|].
  apply value_zero_iff; assumption.
Qed.
Lemma div_word_zero_claim c q x : valid c x ->
  divs1 c q x 0 = Abort /\ mods1 q x 0 = Abort /\ divu1 c q x 0 = Abort.
Proof.
  intros Hx. destruct (div_mods1_zero c q x Hx) as (E1 & E2). unfold divs1, mods1, divu1, udiv_modu1_q.
  rewrite E1, E2, (proj1 (room_can c _) (valid_size_room c x Hx)). repeat split; reflexivity.
Qed.

(** C16 *)
Lemma shl_claim c z x n : valid c z -> valid c x -> 0 <= n -> room c (size x + Z.to_nat ((n + 31) / 32)) ->
  exists r, shl c z x n = Ok r /\ valid c r /\ value r = value x * 2 ^ n.
Proof. intros Hz Hx Hn Hr. destruct (shl_spec c z x n (valid_stor _ _ Hz) Hx Hn Hr) as (r & ? & ? & ? & _). eauto. Qed.
Lemma shr_claim c z x n : valid c z -> valid c x -> 0 <= n ->
  valid c (shr z x n) /\ value (shr z x n) = Z.quot (value x) (2 ^ n).
Proof. intros Hz Hx Hn. destruct (shr_spec c z x n (valid_stor _ _ Hz) Hx Hn) as (? & ? & _). auto. Qed.
Lemma abs_magnitude c x : valid c x -> magnitude x = Z.abs (value x).
Proof. intros H. pose proof (magnitude_range c x H). rewrite value_sgn. destruct (neg x); cbn [sgn]; lia. Qed.
Lemma test_bit_claim c x i : valid c x -> 0 <= i -> test_bit x i = Z.testbit (Z.abs (value x)) i.
Proof. intros. rewrite <- (abs_magnitude c) by assumption. apply (test_bit_spec c); assumption. Qed.
Lemma bit_length_claim c x : valid c x -> value x <> 0 ->
  2 ^ (bit_length x - 1) <= Z.abs (value x) < 2 ^ bit_length x.
Proof.
  intros Hx H. rewrite <- (abs_magnitude c) by assumption. destruct (bit_length_bounds c x Hx) as (H1 & H2 & H3).
  split; [|assumption]. destruct (Z.eq_dec (bit_length x) 1) as [E|E]; [|apply H3; lia]. rewrite E. change (2 ^ (1 - 1)) with 1.
  pose proof (value_zero_iff x). pose proof (magnitude_range c x Hx). lia.
Qed.
Lemma bit_length_zero_claim c x : valid c x -> value x = 0 -> bit_length x = 1.
Proof. intros Hx H. rewrite (bit_length_spec c x Hx), H. reflexivity. Qed.
Lemma set_bit_claim c x i v : valid c x -> 0 <= i < 32 * Z.of_nat (size x) ->
  exists r, set_bit c x i v = Ok r /\ valid c r /\
    (forall j, 0 <= j -> Z.testbit (Z.abs (value r)) j = if j =? i then v else Z.testbit (Z.abs (value x)) j) /\
    (value r <> 0 -> neg r = neg x).
Proof.
  intros Hx Hi. destruct (set_bit_spec c x i v Hx Hi) as (r & E & Hv & Hb & Hn). exists r. split; [exact E|]. split; [exact Hv|].
  rewrite <- !(abs_magnitude c) by assumption. split; [exact Hb|]. rewrite value_zero_iff. exact Hn.
Qed.
(** a stale word above the current size comes back when a bit beyond it is set *)
Lemma set_bit_refute : exists x, produced (Fixed 4) x /\ value x = 1 /\
  exists r, set_bit (Fixed 4) x 33 true = Ok r /\ value r <> 1 + 2 ^ 33.
Proof.
  set (c := Fixed 4).
  (* x = 2^40 >> 40, in place: word 1 still holds 2^8 *)
  assert (Hp : exists a, shl c (of_int c 1) (of_int c 1) 40 = Ok a) by (eexists; reflexivity). destruct Hp as (a & Ha).
  assert (Pa : produced c a) by (apply (P_shl c (of_int c 1) (of_int c 1) 40); [apply P_int; cbn; lia|apply P_int; cbn; lia|lia|assumption]).
  exists (shr a a 40). split; [apply P_shr; [assumption|assumption|lia]|].
  vm_compute in Ha. injection Ha as <-. split; [reflexivity|]. eexists. split; [vm_compute; reflexivity|]. vm_compute. discriminate.
Qed.

(** C17 *)
Lemma of_bytes_claim c d : all_bytes d -> room c (Nat.max 1 ((length d + 3) / 4)) ->
  exists r, of_bytes c d = Ok r /\ canonical c r /\ value r = be_value d.
Proof. apply of_bytes_spec. Qed.
Lemma of_bytes_fail c d : ~ room c ((length d + 3) / 4) -> of_bytes c d = Abort.
Proof.
  intros H. unfold of_bytes. pose proof (set_bytes_fail c (fresh c) d H) as E. destruct (set_bytes c (fresh c) d) as [ok z]. cbn [fst] in E.
  rewrite E. reflexivity.
Qed.
Lemma set_bytes_claim c z d : valid c z -> all_bytes d -> room c (Nat.max 1 ((length d + 3) / 4)) ->
  exists r r', set_bytes c z d = (true, r) /\ set_array_be c z d = (true, r') /\
    canonical c r /\ canonical c r' /\ value r = be_value d /\ value r' = be_value d.
Proof.
  intros Hz Hd Hr. destruct (set_bytes_spec c z d (valid_stor _ _ Hz) Hd Hr) as (r & ? & ? & ?).
  destruct (set_array_be_spec c z d (valid_stor _ _ Hz) Hd Hr) as (r' & ? & ? & ?). exists r, r'. tauto.
Qed.
Lemma to_bytes_claim c x : valid c x ->
  all_bytes (to_bytes x) /\ be_value (to_bytes x) = Z.abs (value x) /\ strip0 (to_bytes x) = to_bytes x.
Proof.
  intros Hx. destruct (bytes_of_spec c x Hx) as (A & L & E & _). split; [exact A|]. split; [rewrite <- (abs_magnitude c) by assumption; exact E|].
  symmetry. apply (to_bytes_of_bytes c); [exact A|exact Hx|]. symmetry. exact E.
Qed.
Lemma bytes_roundtrip_claim c d r : all_bytes d -> room c 1 -> of_bytes c d = Ok r -> to_bytes r = strip0 d.
Proof.
  intros Hd H1 E.
  assert (Hr : room c (Nat.max 1 ((length d + 3) / 4))).
  { destruct (room_dec c ((length d + 3) / 4)) as [H|H].
    - destruct (Nat.max_spec 1 ((length d + 3) / 4)) as [[_ ->]|[_ ->]]; assumption.
    - rewrite of_bytes_fail in E; [discriminate E|]. rewrite room_can. congruence. }
  destruct (of_bytes_spec c d Hd Hr) as (r' & E' & (Hv & _) & Ev). rewrite E in E'. injection E' as ->.
  apply (to_bytes_of_bytes c); [assumption|assumption|]. rewrite (abs_magnitude c) by assumption. rewrite Ev.
  pose proof (be_range d Hd). lia.
Qed.
Lemma value_bytes_roundtrip_claim c x : valid c x -> 0 <= value x ->
  exists r, of_bytes c (to_bytes x) = Ok r /\ value r = value x.
Proof.
  intros Hx Hp. destruct (bytes_of_spec c x Hx) as (A & L & E & _).
  destruct (of_bytes_spec c (to_bytes x) A) as (r & Er & _ & Ev).
  - apply room_le with (size x); [apply valid_size_room; assumption|].
    destruct (byte_length_bounds c x Hx) as (B1 & B2 & B3). unfold to_bytes.
    assert (Hlen : byte_length x <= 4 * Z.of_nat (size x)).
    { destruct (Z_le_gt_dec (byte_length x) (4 * Z.of_nat (size x))) as [|Hgt]; [assumption|].
      pose proof Hx as (_ & Hs & _). specialize (B3 ltac:(lia)). pose proof (magnitude_range c x Hx) as R. rewrite Bn_pow2 in R.
      change 256 with (2 ^ 8) in B3. rewrite <- Z.pow_mul_r in B3 by lia.
      pose proof (Z.pow_le_mono_r 2 (32 * Z.of_nat (size x)) (8 * (byte_length x - 1)) ltac:(lia) ltac:(lia)). lia. }
    pose proof Hx as (_ & Hs & _). pose proof (Nat.div_le_upper_bound (length (bytes_of x) + 3) 4 (size x)).
    destruct (Nat.max_spec 1 ((length (bytes_of x) + 3) / 4)) as [[_ ->]|[_ ->]]; [|lia].
    apply Nat.lt_succ_r. apply Nat.div_lt_upper_bound; lia.
  - exists r. split; [exact Er|]. rewrite Ev. unfold to_bytes. rewrite E. rewrite (abs_magnitude c) by assumption. lia.
Qed.
Lemma get_bytes_claim c x buf : valid c x ->
  (Z.of_nat (length buf) < byte_length x -> get_bytes x buf = None) /\
  (byte_length x <= Z.of_nat (length buf) ->
     get_bytes x buf = Some (to_bytes x ++ skipn (length (to_bytes x)) buf)) /\
  Z.of_nat (length (to_bytes x)) = byte_length x.
Proof.
  intros Hx. destruct (bytes_of_spec c x Hx) as (_ & L & _). pose proof (get_bytes_spec c x buf Hx) as H.
  split; [|split; [|exact L]]; intros; destruct (get_bytes x buf) as [o|]; try reflexivity; try lia.
  destruct H as (_ & -> & _). reflexivity.
Qed.

(** C18 *)
Lemma naf_claim c x : valid c x -> neg x = false -> room c (size x + 1) ->
  exists l, to_naf c x = Ok l /\ to_rnaf c x = Ok (rev l) /\ is_naf l (value x).
Proof.
  intros Hx Hn Hr. destruct (to_naf_spec c x Hx Hn Hr) as (l & E & H). exists l. split; [exact E|]. split; [|exact H].
  unfold to_rnaf. rewrite E. reflexivity.
Qed.
(** full-capacity operand: the digits are wrong *)
Lemma naf_full_refute : exists x l, produced (Fixed 1) x /\ value x = 2 ^ 32 - 1 /\ to_naf (Fixed 1) x = Ok l /\ naf_value l <> value x.
Proof.
  exists (of_word (Fixed 1) (2 ^ 32 - 1)). eexists. split; [apply P_word; cbn; lia|]. split; [reflexivity|]. split; [vm_compute; reflexivity|].
  vm_compute. discriminate.
Qed.
(** NAF digits of a value are unique *)
Lemma naf_unique l : forall m v, is_naf l v -> is_naf m v -> l = m.
Proof.
  assert (Hodd : forall d t, (d = -1 \/ d = 0 \/ d = 1) -> Z.odd (d + 2 * t) = negb (d =? 0)).
  { intros d t H. rewrite Z.add_comm, Z.odd_add_mul_2 || (rewrite Z.odd_add, Z.odd_mul); destruct H as [->|[->| ->]]; reflexivity. }
  assert (Hz : forall k, Forall (fun d => d = -1 \/ d = 0 \/ d = 1) k -> non_adjacent k -> naf_value k = 0 -> k = [] \/ last k 0 = 0).
  { induction k as [|d t IH]; intros F N E; [auto|]. right. pose proof (Forall_inv F) as Hd; cbn beta in Hd; pose proof (Forall_inv_tail F) as Ft; try subst v. cbn [naf_value] in E.
    assert (d = 0). { pose proof (Hodd d (naf_value t) Hd) as Ho. rewrite E in Ho. cbn in Ho. destruct (Z.eqb_spec d 0); [assumption|discriminate]. }
    subst d. assert (Nt : non_adjacent t) by (cbn [non_adjacent] in N; destruct t; [exact I|tauto]).
    destruct (IH Ft Nt ltac:(lia)) as [->|IHl]; [reflexivity|]. destruct t; [reflexivity|exact IHl]. }
  assert (Hstep : forall d t v, is_naf (d :: t) v -> (d = -1 \/ d = 0 \/ d = 1) /\ is_naf t (naf_value t) /\ v = d + 2 * naf_value t /\ (d <> 0 -> exists t', t = 0 :: t' \/ t = [])).
  { intros d t v (E & F & N & L). pose proof (Forall_inv F) as Hd; cbn beta in Hd; pose proof (Forall_inv_tail F) as Ft; try subst v. split; [exact Hd|].
    split; [|split; [reflexivity|]].
    - split; [reflexivity|]. split; [exact Ft|]. split; [cbn [non_adjacent] in N; destruct t; [exact I|tauto]|].
      destruct t as [|e t]; [left; reflexivity|]. right. destruct L as [L|L]; [discriminate L|]. exact L.
    - intros Hne. destruct t as [|e t]; [exists []; auto|]. exists t. left. cbn [non_adjacent] in N. destruct N as [[?| ->] _]; [congruence|reflexivity]. }
  induction l as [|d l IH]; intros m v Hl Hm.
  - destruct Hl as (E & _). cbn in E. subst v. destruct Hm as (E & F & N & L). destruct (Hz m F N E) as [->|Hl]; [reflexivity|].
    destruct L as [->|L]; [reflexivity|congruence].
  - destruct m as [|e m].
    + destruct Hm as (E & _). cbn in E. subst v. destruct Hl as (E & F & N & L). destruct (Hz (d :: l) F N E) as [H|H]; [discriminate H|].
      destruct L as [L|L]; [discriminate L|congruence].
    + destruct (Hstep d l v Hl) as (Hd & Nl & El & Al). destruct (Hstep e m v Hm) as (He & Nm & Em & Am).
      assert (Ede : d = e).
      { pose proof (Hodd d (naf_value l) Hd) as O1. pose proof (Hodd e (naf_value m) He) as O2.
        assert (Heq : (d =? 0) = (e =? 0)) by (rewrite <- El in O1; rewrite <- Em in O2; destruct (d =? 0), (e =? 0); cbn in *; congruence).
        destruct (Z.eqb_spec d 0) as [D0|D0]; destruct (Z.eqb_spec e 0) as [E0|E0]; try discriminate Heq; [lia|].
        destruct (Al D0) as (l' & Hl'). destruct (Am E0) as (m' & Hm').
        assert (exists a, naf_value l = 2 * a) as (a & Ea) by (destruct Hl' as [->| ->]; [exists (naf_value l'); cbn [naf_value]; lia|exists 0; reflexivity]).
        assert (exists b, naf_value m = 2 * b) as (b & Eb) by (destruct Hm' as [->| ->]; [exists (naf_value m'); cbn [naf_value]; lia|exists 0; reflexivity]).
        lia. }
      subst e. f_equal. apply (IH m (naf_value l)); [exact Nl|]. replace (naf_value l) with (naf_value m) by lia. exact Nm.
Qed.

(** C23 *)
Lemma produced_claim c x : room c 1 -> produced c x -> valid c x.
Proof. intros. apply produced_valid; assumption. Qed.
Lemma negative_zero_refute : exists x, produced (Flex 4) x /\ value x = 0 /\ neg x = true.
Proof.
  exists (add (Flex 4) (zero (Flex 4)) (of_int (Flex 4) (-5)) (of_int (Flex 4) 5)).
  split; [|split; reflexivity]. apply P_add; [apply P_zero|apply P_int; cbn; lia|apply P_int; cbn; lia].
Qed.
Lemma negative_zero_unequal_refute : exists x, produced (Flex 4) x /\ value x = 0 /\ compareu1 x 0 <> 0.
Proof.
  exists (add (Flex 4) (zero (Flex 4)) (of_int (Flex 4) (-5)) (of_int (Flex 4) 5)).
  split; [|split; [reflexivity|discriminate]]. apply P_add; [apply P_zero|apply P_int; cbn; lia|apply P_int; cbn; lia].
Qed.
(** operations that never return a negative zero *)
Lemma canonical_ops_claim c z x n w s : canonical c z -> valid c x -> 0 <= n -> 0 <= w < 2 ^ 32 ->
  canonical c (shr z x n) /\ canonical c (abs_op x) /\ canonical c (and_bitu1 z x w) /\
  (room c (size z + 1) -> canonical c (add1_signed c true z z w s)) /\
  (forall r, room c (size x + Z.to_nat ((n + 31) / 32)) -> shl c z x n = Ok r -> canonical c r) /\
  (room c (size x + 1) -> canonical c (mulu1 c z x w)).
Proof.
  intros Hz Hx Hn Hw. pose proof Hz as (Hvz & _). pose proof (valid_stor _ _ Hvz) as Hs. change (2 ^ 32) with B in Hw.
  split; [|split; [|split; [|split; [|split]]]].
  - destruct (shr_spec c z x n Hs Hx Hn) as (? & ? & ? & _). split; assumption.
  - split; [exact Hx|reflexivity].
  - apply and_bitu1_spec; assumption.
  - intros. apply add1_signed_canonical; auto.
  - intros r Hr E. destruct (shl_spec c z x n Hs Hx Hn Hr) as (r' & E' & ? & ? & ? & ?). rewrite E in E'. injection E' as ->. split; assumption.
  - intros Hr. destruct (mulu1_spec c z x w Hs Hx Hw Hr) as (Hv & E & En). split; [exact Hv|]. rewrite E, En. intros ->. reflexivity.
Qed.

(** C24 *)
Lemma or_claim c z x y : valid c z -> valid c x -> valid c y -> 0 <= value x -> 0 <= value y -> neg z = false ->
  valid c (or_bit z x y) /\ value (or_bit z x y) = Z.lor (value x) (value y).
Proof.
  intros Hz Hx Hy Px Py Hn. destruct (or_bit_spec c z x y (valid_stor _ _ Hz) Hx Hy) as (Hv & E & En). split; [exact Hv|].
  assert (En' : neg (or_bit z x y) = false) by (rewrite En, Hn; destruct (magnitude (or_bit z x y) =? 0); reflexivity).
  rewrite value_sgn, En', E. rewrite !(abs_magnitude c) by assumption. rewrite !Z.abs_eq by assumption. reflexivity.
Qed.
Lemma and_claim c z x y : valid c z -> valid c x -> valid c y -> 0 <= value x -> 0 <= value y -> neg z = false ->
  valid c (and_bit z x y) /\ value (and_bit z x y) = Z.land (value x) (value y).
Proof.
  intros Hz Hx Hy Px Py Hn. destruct (and_bit_spec c z x y (valid_stor _ _ Hz) Hx Hy) as (Hv & E & En). split; [exact Hv|].
  assert (En' : neg (and_bit z x y) = false) by (rewrite En, Hn; destruct (magnitude (and_bit z x y) =? 0); reflexivity).
  rewrite value_sgn, En', E. rewrite !(abs_magnitude c) by assumption. rewrite !Z.abs_eq by assumption. reflexivity.
Qed.
Lemma or1_claim c x w : valid c x -> 0 <= value x -> 0 <= w < 2 ^ 32 ->
  valid c (or_bitu1 x w) /\ (neg x = false -> value (or_bitu1 x w) = Z.lor (value x) w).
Proof.
  intros Hx Px Hw. destruct (or_bitu1_spec c x w Hx Hw) as (Hv & E & En). split; [exact Hv|]. intros Hn.
  rewrite (value_sgn (or_bitu1 x w)), En, E, Hn. rewrite (abs_magnitude c) by assumption. rewrite Z.abs_eq by assumption. reflexivity.
Qed.
Lemma and1_claim c z x w : valid c z -> valid c x -> 0 <= value x -> 0 <= w < 2 ^ 32 ->
  canonical c (and_bitu1 z x w) /\ value (and_bitu1 z x w) = Z.land (value x) w.
Proof.
  intros Hz Hx Px Hw. destruct (and_bitu1_spec c z x w (valid_stor _ _ Hz) Hx Hw) as (Hv & E). split; [exact Hv|].
  rewrite E. rewrite (abs_magnitude c) by assumption. rewrite Z.abs_eq by assumption. reflexivity.
Qed.

(** C25 *)
Lemma add_exact_or_zero c z x y : valid c z -> valid c x -> valid c y ->
  (value (add c z x y) = value x + value y \/
   value (add c z x y) = 0 /\ can_resize c (Nat.max (size x) (size y) + 1) = false) /\
  (value (sub c z x y) = value x - value y \/
   value (sub c z x y) = 0 /\ can_resize c (Nat.max (size x) (size y) + 1) = false).
Proof.
  intros Hz Hx Hy. pose proof (valid_room1 c x Hx) as R1.
  destruct (add_signed_valid c R1 z x (neg x) y (neg y) (valid_stor _ _ Hz) Hx Hy) as (_ & H1).
  destruct (add_signed_valid c R1 z x (neg x) y (negb (neg y)) (valid_stor _ _ Hz) Hx Hy) as (_ & H2).
  rewrite sgn_negb in H2. rewrite !(value_sgn x), !(value_sgn y). split; [exact H1|].
  destruct H2 as [H2|H2]; [left; unfold sub; rewrite H2; lia|right; exact H2].
Qed.
Lemma capacity_add_refute : exists x y, produced (Fixed 1) x /\ produced (Fixed 1) y /\
  0 <= value x + value y < 2 ^ 32 /\ value (op_add (Fixed 1) x y) <> value x + value y.
Proof.
  exists (of_int (Fixed 1) 1), (of_int (Fixed 1) 2). split; [apply P_int; cbn; lia|]. split; [apply P_int; cbn; lia|].
  vm_compute. repeat split; congruence.
Qed.
Lemma capacity_mul_refute : exists x y, produced (Fixed 1) x /\ produced (Fixed 1) y /\
  0 <= value x * value y < 2 ^ 32 /\ value (op_mul (Fixed 1) x y) <> value x * value y.
Proof.
  exists (of_int (Fixed 1) 3), (of_int (Fixed 1) 5). split; [apply P_int; cbn; lia|]. split; [apply P_int; cbn; lia|].
  vm_compute. repeat split; congruence.
Qed.
Lemma capacity_shl_refute : exists x, produced (Fixed 1) x /\ 0 <= value x * 2 < 2 ^ 32 /\ op_shl (Fixed 1) x 1 = UB.
Proof.
  exists (of_int (Fixed 1) 3). split; [apply P_int; cbn; lia|]. vm_compute. repeat split; congruence.
Qed.
Lemma capacity_flex_claim n m : room (Flex n) m. Proof. exact I. Qed.

(** C26 *)
Lemma of_int_value c k : room c 1 -> Z.abs k < 2 ^ 32 -> canonical c (of_int c k) /\ value (of_int c k) = k.
Proof. intros Hr Hk. destruct (assign_int_spec c (fresh c) k (storage0_ok c) Hr Hk) as (? & ? & ? & _). auto. Qed.
Lemma of_word_value c w : room c 1 -> 0 <= w < 2 ^ 32 -> canonical c (of_word c w) /\ value (of_word c w) = w.
Proof.
  intros Hr Hk. destruct (assign_word_spec c (fresh c) w (storage0_ok c) Hr Hk) as (? & E & En & _).
  split; [split; [assumption|intros; exact En]|]. unfold of_word. rewrite value_sgn, E, En. reflexivity.
Qed.
Lemma of_64_value c w : room c 2 ->
  (0 <= w < 2 ^ 64 -> exists r, of_u64 c w = Ok r /\ canonical c r /\ value r = w) /\
  (- 2 ^ 63 <= w < 2 ^ 63 -> exists r, of_i64 c w = Ok r /\ canonical c r /\ value r = w).
Proof.
  intros Hr. split; intros Hw.
  - destruct (assign_u64_spec c (fresh c) w (storage0_ok c) Hr) as (r & E & Hv & Ev & En & _); [rewrite W64_val; exact Hw|].
    exists r. split; [exact E|]. split; [split; [exact Hv|auto]|exact Ev].
  - destruct (assign_i64_spec c (fresh c) w (storage0_ok c) Hr Hw) as (r & E & Hv & Ev & En & _).
    exists r. split; [exact E|]. split; [split; [exact Hv|]|exact Ev]. rewrite Ev, En. intros ->. reflexivity.
Qed.
Lemma signed_ops_claim c same z x k : valid c z -> valid c x -> - 2 ^ 31 <= k < 2 ^ 31 -> room c (size x + 1) -> (same = true -> z = x) ->
  value (adds1 c same z x k) = value (op_add c x (of_int c k)) /\
  value (subs1 c same z x k) = value (op_sub c x (of_int c k)) /\
  value (muls1 c z x k) = value x * k /\
  cmp_result (compares1 x k) (value x) k /\
  (k <> 0 -> (exists q, divs1 c z x k = Ok q /\ value q = Z.quot (value x) k) /\
             (exists r, mods1 z x k = Ok r /\ value r = Z.rem (value x) k)).
Proof.
  intros Hz Hx Hk Hr Hs. pose proof (valid_room1 c x Hx) as R1. pose proof (int32_abs k Hk) as Ha.
  destruct (of_int_value c k R1 ltac:(rewrite B_eq; lia)) as ((Hvk & _) & Ek). destruct (zero_spec c R1) as (Hz0 & _).
  assert (Hsz : size (of_int c k) = 1%nat) by reflexivity. pose proof Hx as (_ & Hsx & _).
  assert (Hroom : room c (Nat.max (size x) (size (of_int c k)) + 1)) by (rewrite Hsz, Nat.max_l by lia; assumption).
  unfold op_add, op_sub.
  rewrite (proj2 (adds1_spec c same z x k (valid_stor _ _ Hz) Hx Hk Hr Hs)), (proj2 (subs1_spec c same z x k (valid_stor _ _ Hz) Hx Hk Hr Hs)).
  rewrite (proj2 (add_spec c _ x _ (valid_stor _ _ Hz0) Hx Hvk Hroom)), (proj2 (sub_spec c _ x _ (valid_stor _ _ Hz0) Hx Hvk Hroom)), Ek.
  rewrite (proj2 (muls1_spec c z x k (valid_stor _ _ Hz) Hx Hk Hr)).
  split; [reflexivity|]. split; [reflexivity|]. split; [reflexivity|]. split; [apply (compares1_spec c); assumption|].
  intros Hnz. split.
  - destruct (divs1_spec c z x k (valid_stor _ _ Hz) Hx Hk Hnz) as (q & ? & _ & ?). eauto.
  - destruct (mods1_spec c z x k (valid_stor _ _ Hz) Hx Hk Hnz) as (q & ? & _ & ? & _). eauto.
Qed.
Lemma unsigned_ops_claim c same z x w : valid c z -> valid c x -> 0 <= w < 2 ^ 32 -> room c (size x + 1) -> (same = true -> z = x) ->
  value (addu1 c same z x w) = value x + w /\
  value (subu1 c same z x w) = value x - w /\
  value (mulu1 c z x w) = value x * w /\
  ((value x = 0 -> neg x = false) -> cmp_result (compareu1 x w) (value x) w) /\
  (w <> 0 -> 0 <= value x -> exists q, divu1 c z x w = Ok q /\ value q = Z.quot (value x) w).
Proof.
  intros Hz Hx Hw Hr Hs. change (2 ^ 32) with B in Hw.
  split; [apply addu1_spec; auto using valid_stor|]. split; [apply subu1_spec; auto using valid_stor|].
  split; [apply mulu1_spec; auto using valid_stor|]. split; [intros; apply (compareu1_spec c); assumption|].
  intros Hnz Hp. destruct (divu1_spec c z x w (valid_stor _ _ Hz) Hx ltac:(lia)) as (q & E & _ & Ev). exists q. split; [exact E|].
  rewrite Ev, Z.abs_eq by assumption. symmetry. apply Z.quot_div_nonneg; lia.
Qed.
Lemma divu1_negative_refute : exists x q, produced (Flex 4) x /\ divu1 (Flex 4) (zero (Flex 4)) x 2 = Ok q /\
  value q <> Z.quot (value x) 2 /\ value q <> value x / 2.
Proof.
  exists (of_int (Flex 4) (-7)). eexists. split; [apply P_int; cbn; lia|]. split; [vm_compute; reflexivity|]. vm_compute. split; discriminate.
Qed.
Lemma modu1_refute r x w : 0 < w -> modu1 r x w = UB.
Proof. intros. unfold modu1, udiv_modu1_null. replace (w =? 0) with false by lia. reflexivity. Qed.

(** decision procedure used by the examples *)
Definition validb (c : cap) (x : bigint) : bool :=
  forallb (fun w => (0 <=? w) && (w <? 2 ^ 32)) (mem x) &&
  match c with Fixed N => Nat.eqb (length (mem x)) N | Flex N => Nat.leb N (length (mem x)) end &&
  Nat.leb 1 (size x) && Nat.leb (size x) (length (mem x)) &&
  (Nat.leb (size x) 1 || negb (nth (size x - 1) (mem x) 0 =? 0)).
Lemma validb_ok c x : validb c x = true -> valid c x.
Proof.
  unfold validb. rewrite !andb_true_iff. intros ((((H1 & H2) & H3) & H4) & H5). split; [split|split].
  - apply Forall_forall. intros w Hw. rewrite forallb_forall in H1. specialize (H1 w Hw). unfold is_word. lia.
  - destruct c; [apply Nat.eqb_eq|apply Nat.leb_le]; assumption.
  - split; apply Nat.leb_le; assumption.
  - intros Hs. apply orb_true_iff in H5. destruct H5 as [H5|H5]; [apply Nat.leb_le in H5; lia|]. lia.
Qed.
