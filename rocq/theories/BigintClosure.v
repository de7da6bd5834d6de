From Coq Require Import List ZArith Bool Lia PeanoNat.
From Coq Require Import ZifyBool ZifyNat ZifyN.
From Verif Require Import Outcome LoopModel LoopProofs BitLemmas WordsModel WordsSpec WordsProofs DivProofs
  UtilsSpec BigintModel BigintSpec BigintProofs BigintBits BigintBytes.
Import ListNotations.
Open Scope Z_scope.

(** results are valid objects even when the capacity does not suffice *)
Section ANYCAP.
  Variable c : cap.
  Hypothesis R1 : room c 1.

  Lemma room_dec n : {room c n} + {can_resize c n = false}.
  Proof. destruct (can_resize c n) eqn:E; [left; apply room_can; assumption|right; reflexivity]. Qed.

  Lemma uadd_valid z x y : storage_ok c z -> valid c x -> valid c y ->
    valid c (uadd c z x y) /\ (magnitude (uadd c z x y) = magnitude x + magnitude y \/ magnitude (uadd c z x y) = 0).
  Proof.
    intros Hz Hx Hy. destruct (room_dec (Nat.max (size x) (size y) + 1)) as [H|H].
    - destruct (uadd_spec c z x y Hz Hx Hy H); auto.
    - unfold uadd. rewrite H. destruct (clear_spec c z Hz R1) as (? & ? & ? & ? & ?). auto.
  Qed.

  Lemma add_signed_valid z x xN y yN : storage_ok c z -> valid c x -> valid c y ->
    valid c (add_signed c z x xN y yN) /\
    (value (add_signed c z x xN y yN) = sgn xN (magnitude x) + sgn yN (magnitude y) \/
     value (add_signed c z x xN y yN) = 0 /\ can_resize c (Nat.max (size x) (size y) + 1) = false).
  Proof.
    intros Hz Hx Hy. destruct (room_dec (Nat.max (size x) (size y) + 1)) as [H|H].
    - destruct (add_signed_spec c z x xN y yN Hz Hx Hy ltac:(auto)); auto.
    - destruct (Bool.bool_dec xN yN) as [E|E].
      + subst yN. unfold add_signed. rewrite xorb_nilpotent. cbn [negb]. unfold uadd. rewrite H.
        destruct (clear_spec c z Hz R1) as (? & ? & ? & ? & ?). split; [assumption|]. right. split; [|reflexivity].
        rewrite set_neg_value, H4. destruct xN; reflexivity.
      + destruct (add_signed_spec c z x xN y yN Hz Hx Hy ltac:(congruence)); auto.
  Qed.

  Lemma uadd1_valid z x w : storage_ok c z -> valid c x -> 0 <= w < B -> valid c (uadd1 c z x w).
  Proof.
    intros Hz Hx Hw. destruct (room_dec (size x + 1)) as [H|H].
    - destruct (uadd1_spec c z x w Hz Hx Hw H); auto.
    - unfold uadd1. rewrite H. apply clear_spec; assumption.
  Qed.

  Lemma add1_signed_valid same z x w s : storage_ok c z -> valid c x -> 0 <= w < B -> (same = true -> z = x) ->
    valid c (add1_signed c same z x w s).
  Proof.
    intros Hz Hx Hw Hs. destruct (room_dec (size x + 1)) as [H|H].
    - apply add1_signed_spec; auto.
    - destruct (Bool.bool_dec (neg x) s) as [E|E].
      + subst s. unfold add1_signed. rewrite xorb_nilpotent. cbn [negb]. rewrite set_neg_valid. apply uadd1_valid; assumption.
      + apply add1_signed_spec; auto. congruence.
  Qed.

  Lemma mul_valid sX sY z x y : valid c z -> valid c x -> valid c y -> (sX = true -> z = x) -> (sY = true -> z = y) ->
    valid c (snd (mul c sX sY z x y)).
  Proof.
    intros Hz Hx Hy H1 H2. destruct (room_dec (size x + size y)) as [H|H].
    - destruct (mul_spec c sX sY z x y (valid_storage _ _ Hz) Hx Hy H H1 H2) as (r & -> & ? & _). assumption.
    - unfold mul. rewrite H. assumption.
  Qed.

  Lemma mulu1_valid z x w : storage_ok c z -> valid c x -> 0 <= w < B -> valid c (mulu1 c z x w).
  Proof.
    intros Hz Hx Hw. destruct (room_dec (size x + 1)) as [H|H].
    - apply mulu1_spec; assumption.
    - unfold mulu1. rewrite H. apply clear_spec; assumption.
  Qed.

  Lemma quot_rem_valid q r x y q' r' : storage_ok c r -> valid c x -> valid c y ->
    (forall q0, q = Some q0 -> storage_ok c q0) ->
    quot_rem c q r x y = Ok (q', r') -> valid c r' /\ (forall q0, q' = Some q0 -> valid c q0).
  Proof.
    intros Hr Hx Hy Hq E.
    destruct (Z.eq_dec (magnitude y) 0) as [E0|E0].
    { unfold quot_rem in E. rewrite (udiv_by_zero c q r x y Hx Hy E0) in E. discriminate E. }
    assert (Hv0 : value y <> 0) by (rewrite value_zero_iff; assumption).
    destruct (quot_rem_spec c None r x y Hr Hx Hy Hv0 I) as (qn & rn & En & Hvn & _ & _).
    unfold quot_rem in E.
    destruct (udiv_spec c q r x y Hr Hx Hy E0) as (q1 & r1 & Eu & Hv & Hm & Hqq).
    { destruct q; auto. }
    rewrite Eu in E. cbn [bind] in E.
    assert (Hq1 : forall q0, q1 = Some q0 -> valid c q0).
    { intros q0 ->. destruct q; [tauto|contradiction]. }
    pose proof (magnitude_range c x Hx). pose proof (magnitude_range c y Hy).
    destruct (negb (is_zero (set_neg r1 (neg y))) && xorb (neg x) (neg y)).
    - injection E as <- <-. split.
      + apply usub_spec; [apply valid_storage; exact Hv|assumption|exact Hv|]. rewrite set_neg_mag, Hm.
        pose proof (Z.mod_pos_bound (magnitude x) (magnitude y) ltac:(lia)). lia.
      + intros q0 Eq. destruct q1 as [q1|]; [|discriminate Eq]. cbn [option_map] in Eq. injection Eq as <-.
        apply uadd1_valid; [apply valid_storage; rewrite set_neg_valid; apply Hq1; reflexivity|rewrite set_neg_valid; apply Hq1; reflexivity|pose proof B_pos; lia].
    - injection E as <- <-. split; [exact Hv|]. intros q0 Eq. destruct q1 as [q1|]; [|discriminate Eq]. cbn [option_map] in Eq. injection Eq as <-.
      rewrite set_neg_valid. apply Hq1. reflexivity.
  Qed.

  Lemma set_bit_valid x i v r : valid c x -> 0 <= i -> set_bit c x i v = Ok r -> valid c r.
  Proof.
    intros Hx Hi E. destruct (Z_lt_le_dec i (32 * Z.of_nat (size x))) as [H|H].
    - destruct (set_bit_spec c x i v Hx ltac:(lia)) as (r' & E' & Hv & _). rewrite E in E'. injection E' as ->. exact Hv.
    - unfold set_bit in E. pose proof Hx as ((Wm & Hc) & Hs & Ht).
      pose proof (Z.mod_pos_bound i 32 ltac:(lia)) as Hm. pose proof (Z.div_le_lower_bound i 32 (Z.of_nat (size x)) ltac:(lia) ltac:(lia)).
      set (q := Z.to_nat (i / 32)) in *.
      destruct (Nat.ltb (size x) (S q) && negb (can_resize c (S q))).
      { injection E as <-. apply clear_spec; [split; assumption|assumption]. }
      destruct (Nat.ltb_spec (length (mem x)) (S q)); [discriminate E|].
      assert (Hinj : forall a b : bigint, Ok a = Ok b -> a = b) by congruence. apply Hinj in E. subst r.
      destruct (Z.leb_spec (bit_length x) (i + 1)) as [Hle|Hgt].
      + refine (proj1 (trim_spec c _ (S q) _ _)).
        * split; cbn [mem].
          -- apply set_word_words; [assumption|]. rewrite mask_spec by assumption. apply set_bit_word; [apply word_nth; assumption|assumption].
          -- destruct c; rewrite set_word_length; assumption.
        * cbn [mem]. rewrite set_word_length. lia.
      + exfalso. destruct (bit_length_bounds c x Hx) as (B1 & B2 & B3). specialize (B3 ltac:(lia)).
        pose proof (magnitude_range c x Hx) as R. rewrite Bn_pow2 in R.
        pose proof (Z.pow_le_mono_r 2 (32 * Z.of_nat (size x)) (bit_length x - 1) ltac:(lia) ltac:(lia)). lia.
  Qed.

  Lemma set_bytes_valid z d : valid c z -> all_bytes d -> valid c (snd (set_bytes c z d)).
  Proof.
    intros Hz Hd. destruct (room_dec (Nat.max 1 ((length d + 3) / 4))) as [H|H].
    - destruct (set_bytes_spec c z d (valid_storage _ _ Hz) Hd H) as (r & -> & (? & _) & _). assumption.
    - unfold set_bytes. destruct (Nat.eqb (length d) 0); cbn [snd]; [apply clear_spec; [exact (valid_storage _ _ Hz)|assumption]|].
      assert (E : can_resize c ((length d + 3) / 4) = false).
      { destruct (can_resize c ((length d + 3) / 4)) eqn:E; [|reflexivity]. apply room_can in E.
        assert (Hn : ~ room c (Nat.max 1 ((length d + 3) / 4))) by (rewrite room_can; congruence).
        exfalso. apply Hn. destruct (Nat.max_spec 1 ((length d + 3) / 4)) as [[_ ->]|[_ ->]]; assumption. }
      rewrite E. cbn [negb snd]. exact Hz.
  Qed.

  Lemma produced_valid x : produced c x -> valid c x.
  Proof.
    assert (HB : 2 ^ 32 = B) by reflexivity.
    induction 1; rewrite ?HB in *.
    - apply zero_spec; assumption.
    - apply (assign_int_spec c (fresh c) k (storage0_ok c) R1 H).
    - apply (assign_word_spec c (fresh c) w (storage0_ok c) R1 H).
    - unfold of_u64, assign_u64 in H0. destruct (can_resize c 2) eqn:Ec; [|discriminate H0].
      apply room_can in Ec. destruct (assign_u64_spec c (fresh c) w (storage0_ok c) Ec) as (r' & E' & Hv & _).
      { rewrite W64_val. change (2 ^ 64) with (2 ^ 32 * 2 ^ 32) in H. rewrite HB in H. exact H. }
      unfold assign_u64 in E'. rewrite (proj1 (room_can c 2) Ec) in E'. rewrite H0 in E'. injection E' as ->. exact Hv.
    - unfold of_i64 in H0. destruct (room_dec 2) as [Ec|Ec].
      + destruct (assign_i64_spec c (fresh c) w (storage0_ok c) Ec H) as (r' & E' & Hv & _). rewrite H0 in E'. injection E' as ->. exact Hv.
      + unfold assign_i64, assign_u64 in H0. rewrite Ec in H0. discriminate H0.
    - apply set_bytes_valid; assumption.
    - apply add_signed_valid; auto using valid_storage.
    - apply add_signed_valid; auto using valid_storage.
    - apply add1_signed_valid; auto using valid_storage. discriminate.
    - apply add1_signed_valid; auto using valid_storage.
    - apply mul_valid; auto.
    - apply mulu1_valid; auto using valid_storage.
    - unfold muls1. rewrite set_neg_valid. apply mulu1_valid; auto using valid_storage.
      rewrite cabs32_spec. apply int32_abs. exact H1.
    - destruct (Z.eq_dec k 0) as [->|Hk].
      + unfold divs1 in H2. rewrite (proj1 (div_mods1_zero c q x IHproduced2)) in H2. discriminate H2.
      + destruct (divs1_spec c q x k (valid_storage _ _ IHproduced1) IHproduced2 H1 Hk) as (r' & E & Hv & _). rewrite H2 in E. injection E as ->. exact Hv.
    - destruct (Z.eq_dec k 0) as [->|Hk].
      + unfold mods1 in H2. rewrite (proj2 (div_mods1_zero c q x IHproduced2)) in H2. discriminate H2.
      + destruct (mods1_spec c q x k (valid_storage _ _ IHproduced1) IHproduced2 H1 Hk) as (r' & E & Hv & _). rewrite H2 in E. injection E as ->. exact Hv.
    - destruct (Z.eq_dec w 0) as [->|Hk].
      + unfold divu1, udiv_modu1_q in H2. rewrite (proj1 (room_can c _) (valid_size_room c x IHproduced2)) in H2. discriminate H2.
      + destruct (divu1_spec c q x w (valid_storage _ _ IHproduced1) IHproduced2 ltac:(lia)) as (r' & E & Hv & _). rewrite H2 in E. injection E as ->. exact Hv.
    - destruct (Z.eq_dec (value y) 0) as [Hk|Hk].
      + rewrite div_mod_by_zero in H3 by assumption. discriminate H3.
      + destruct (div_mod_spec c (Some q) r x y (valid_storage _ _ IHproduced2) IHproduced3 IHproduced4 Hk (valid_storage _ _ IHproduced1)) as (q2 & r2 & E & _ & _ & Hq2).
        rewrite H3 in E. injection E as _ <- _. tauto.
    - destruct (Z.eq_dec (value y) 0) as [Hk|Hk].
      + rewrite div_mod_by_zero in H4 by assumption. discriminate H4.
      + destruct (div_mod_spec c q r x y (valid_storage _ _ IHproduced1) IHproduced2 IHproduced3 Hk) as (q2 & r2 & E & Hv & _).
        * destruct q; [apply valid_storage; auto|exact I].
        * rewrite H4 in E. injection E as _ _ <-. exact Hv.
    - refine (proj2 (quot_rem_valid (Some q) r x y (Some q') r' (valid_storage _ _ IHproduced2) IHproduced3 IHproduced4 _ _) q' eq_refl); [|assumption].
      intros q0 [= <-]. apply valid_storage; assumption.
    - refine (proj1 (quot_rem_valid q r x y q' r' (valid_storage _ _ IHproduced1) IHproduced2 IHproduced3 _ _)); [|assumption].
      intros q0 Eq. apply valid_storage. auto.
    - unfold shl in H2. destruct (can_resize c (size x + Z.to_nat ((n + 31) / 32))) eqn:Ec; [|discriminate H2]. apply room_can in Ec.
      destruct (shl_spec c z x n (valid_storage _ _ IHproduced1) IHproduced2 H1 Ec) as (r' & E & Hv & _).
      unfold shl in E. rewrite (proj1 (room_can c _) Ec) in E. rewrite H2 in E. injection E as ->. exact Hv.
    - apply shr_spec; auto using valid_storage.
    - exact IHproduced.
    - exact IHproduced.
    - apply or_bit_spec; auto using valid_storage.
    - apply and_bit_spec; auto using valid_storage.
    - apply or_bitu1_spec; assumption.
    - apply and_bitu1_spec; auto using valid_storage.
    - eapply set_bit_valid; eassumption.
  Qed.
End ANYCAP.
