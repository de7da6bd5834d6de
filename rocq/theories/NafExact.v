(** [to_naf] of an operand that fills its capacity. *)
From Coq Require Import List ZArith Bool Lia PeanoNat.
From Coq Require Import ZifyBool ZifyNat ZifyN.
From Verif Require Import Outcome LoopModel LoopProofs BitLemmas WordsModel WordsSpec WordsProofs DivProofs
  UtilsSpec BigintModel BigintSpec BigintProofs BigintBits BigintBytes BigintClosure BigintClaims BigintExact NafExactSpec.
Import ListNotations.
Open Scope Z_scope.

Lemma naf_head d t v : is_naf (d :: t) v -> is_naf t (naf_value t) /\ v = d + 2 * naf_value t /\
  (d = 0 \/ (d = 1 /\ exists k, naf_value t = 2 * k) \/ (d = -1 /\ exists k, naf_value t = 2 * k)).
Proof.
  intros (E & F & N & L). pose proof (Forall_inv F) as Hd. cbn beta in Hd. pose proof (Forall_inv_tail F) as Ft.
  assert (Nt : non_adjacent t) by (destruct t; [exact I|apply N]).
  assert (K : d = 0 \/ exists k, naf_value t = 2 * k).
  { destruct t as [|b t]; [right; exists 0; reflexivity|]. cbn [non_adjacent] in N. destruct N as ([N|N] & _); [left; exact N|right; exists (naf_value t); cbn [naf_value]; lia]. }
  split; [|split; [cbn [naf_value] in E; lia|tauto]].
  split; [reflexivity|]. split; [exact Ft|]. split; [exact Nt|].
  destruct L as [L|L]; [discriminate|]. destruct t as [|b t]; [left; reflexivity|right; exact L].
Qed.
Lemma naf_nil v : is_naf [] v -> v = 0. Proof. intros (E & _). cbn in E. lia. Qed.
Lemma naf_zero l : is_naf l 0 -> l = [].
Proof. intros H. apply (naf_unique l [] 0 H). repeat split; auto. Qed.

Lemma to_naf_full c x L : valid c x -> neg x = false -> can_resize c (size x + 1) = false -> is_naf L (value x) ->
  to_naf c x = Ok (naf_cut (2 ^ (32 * (Z.of_nat (size x) - 1))) L).
Proof.
  intros Hx Hneg Hroom HL. unfold to_naf. pose proof (valid_room1 c x Hx) as Hr1.
  pose proof Hx as (_ & Hs & _). set (lim := 2 ^ (32 * (Z.of_nat (size x) - 1))).
  assert (Lim : lim = Bn (size x - 1)) by (rewrite Bn_pow2; unfold lim; f_equal; lia).
  apply (run_loop_ind (naf_step c)
    (fun s => let '(num, acc) := s in valid c num /\ neg num = false /\ 0 <= value num <= value x /\
       exists rest, is_naf rest (value num) /\ acc ++ naf_cut lim rest = naf_cut lim L)
    (fun o => o = Ok (naf_cut lim L))
    (fun s => value (fst s))).
  - intros [num acc] H. cbn [fst]. lia.
  - intros [num acc] (Hv & Hn & Hval & rest & Hrest & Hcut). unfold naf_step.
    pose proof (compareu1_spec c num 0 Hv ltac:(pose proof B_pos; lia) ltac:(intros; assumption)) as Hcmp. unfold cmp_result in Hcmp.
    destruct (Z.gtb_spec (compareu1 num 0) 0) as [Hgt|Hle].
    2:{ assert (E0 : value num = 0) by lia. rewrite E0 in Hrest. rewrite (naf_zero rest Hrest) in Hcut. cbn [naf_cut] in Hcut. rewrite app_nil_r in Hcut. congruence. }
    destruct rest as [|d t]; [apply naf_nil in Hrest; lia|]. pose proof Hrest as (Hnv & _).
    destruct (naf_head d t _ Hrest) as (Ht & Ev & Hd).
    rewrite (is_odd_spec c num Hv). destruct (Z.odd (value num)) eqn:Hodd.
    + destruct (zero_spec c Hr1) as (Hz & _).
      destruct (mods1_spec c (zero c) num 4 (valid_storage _ _ Hz) Hv ltac:(unfold int32; lia) ltac:(lia)) as (m & -> & Hm & Em & _).
      rewrite Z.rem_mod_nonneg in Em by lia. pose proof (Z.mod_pos_bound (value num) 4 ltac:(lia)) as Hmod.
      rewrite (get_int32_spec c m Hm) by (change (2 ^ 31) with 2147483648; lia).
      rewrite Em. set (m4 := value num mod 4) in *.
      pose proof (Z.div_mod (value num) 4 ltac:(lia)) as Edm. fold m4 in Edm.
      assert (Dm : 2 - m4 = d /\ d <> 0).
      { apply Zodd_bool_iff in Hodd. apply Zodd_equiv in Hodd. destruct Hodd as (k & Ek). destruct Hd as [->|[(-> & j & Ej)|(-> & j & Ej)]]; lia. }
      destruct Dm as (Dm & Dz). rewrite Dm. clear Dm.
      assert (D1 : d = 1 \/ d = -1) by (clear - Hd Dz; tauto).
      assert (Tr : 0 <= naf_value t < value num) by (destruct Hd as [->|[(-> & j & Ej)|(-> & j & Ej)]]; lia).
      assert (Sz : lim <=? naf_value (d :: t) = negb (can_resize c (size num + 1))).
      { rewrite Hnv, Lim. pose proof (magnitude_range c x Hx) as Rx.
        assert (Sle : (size num <= size x)%nat).
        { apply (size_le_iff c num _ Hv); [lia|]. rewrite !value_sgn, Hn, Hneg in Hval. cbn [sgn] in Hval. lia. }
        assert (Mv : value num = magnitude num) by (rewrite value_sgn, Hn; reflexivity).
        destruct (Nat.eq_dec (size num) (size x)) as [Es|Es].
        - rewrite Es, Hroom. cbn [negb]. apply Z.leb_le. rewrite Mv, <- Es.
          destruct (Nat.eq_dec (size num) 1) as [E1|E1]; [rewrite E1; cbn [Nat.sub]; rewrite Bn_0; lia|]. apply (magnitude_lower c); [exact Hv|]. destruct Hv as (_ & ? & _). lia.
        - replace (can_resize c (size num + 1)) with true; [cbn [negb]; apply Z.leb_gt; rewrite Mv; apply (size_le_iff c num); [exact Hv| |]; destruct Hv as (_ & ? & _); lia|].
          symmetry. apply room_can. eapply room_le; [apply valid_size_room; exact Hx|lia]. }
      assert (Di : - 2 ^ 31 <= d < 2 ^ 31) by (change (2 ^ 31) with 2147483648; lia).
      destruct (int_ops_exact c true num num d Hv Hv Di ltac:(auto)) as (_ & Es & _). rewrite Hn in Es.
      destruct ((d =? -1) && negb (can_resize c (size num + 1))) eqn:Cut.
      * apply andb_true_iff in Cut. destruct Cut as (C1 & C2). apply Z.eqb_eq in C1. subst d. rewrite C2 in Es. cbn [Z.ltb Z.compare eqb negb andb] in Es.
        set (n1 := subs1 c true num num (-1)) in *.
        assert (Vn : valid c n1) by (unfold n1, subs1; apply add1_signed_valid; auto using valid_storage; rewrite cabs32_spec; pose proof B_val; cbn; lia).
        assert (Nn : neg n1 = false).
        { unfold n1, subs1, add1_signed. rewrite Hn. cbn [Z.ltb Z.compare negb xorb]. reflexivity. }
        destruct (shr1_val c n1 Vn) as (Hv2 & E2 & Hn2). specialize (Hn2 Nn). rewrite Es in E2. cbn in E2.
        split; [|cbn [fst]; lia]. split; [exact Hv2|]. split; [exact Hn2|]. split; [lia|]. exists []. rewrite E2. split; [repeat split; auto|].
        cbn [naf_cut]. rewrite app_nil_r, <- Hcut. cbn [naf_cut]. rewrite Sz, C2. reflexivity.
      * assert (Es' : value (subs1 c true num num d) = value num - d).
        { rewrite Es. destruct D1 as [-> | ->]; [reflexivity|]. cbn [Z.eqb Pos.eqb andb] in Cut. rewrite Cut. cbn. reflexivity. }
        clear Es. set (n1 := subs1 c true num num d) in *.
        assert (Vn : valid c n1) by (unfold n1, subs1; apply add1_signed_valid; auto using valid_storage; rewrite cabs32_spec; pose proof B_val; lia).
        assert (Nn : neg n1 = false).
        { destruct (Z.eq_dec (value n1) 0) as [E0|E0].
          - assert (Hc1 : canonical c n1); [|apply Hc1; exact E0].
            unfold n1, subs1. apply add1_signed_canonical; [split; [exact Hv|auto]|rewrite cabs32_spec; pose proof B_val; lia|].
            rewrite Hn. destruct D1 as [-> | ->]; [discriminate|]. intros _. cbn [Z.eqb Pos.eqb andb] in Cut. apply room_can. destruct (can_resize c (size num + 1)); [reflexivity|discriminate].
          - pose proof (magnitude_range c n1 Vn). rewrite value_sgn in Es', E0. destruct (neg n1); [cbn [sgn] in *; lia|reflexivity]. }
        destruct (shr1_val c n1 Vn) as (Hv2 & E2 & Hn2). specialize (Hn2 Nn).
        assert (E2' : value (shr n1 n1 1) = naf_value t).
        { rewrite E2, Es', Ev. replace (d + 2 * naf_value t - d) with (naf_value t * 2) by lia. apply Z.quot_mul. lia. }
        split; [|cbn [fst]; lia]. split; [exact Hv2|]. split; [exact Hn2|]. split; [lia|]. exists t. rewrite E2'. split; [exact Ht|].
        rewrite <- app_assoc. cbn [app]. rewrite <- Hcut. cbn [naf_cut]. rewrite Sz, Cut. reflexivity.
    + assert (D0 : d = 0).
      { destruct Hd as [->|[(-> & j & Ej)|(-> & j & Ej)]]; [reflexivity| |]; exfalso; rewrite Ev, Z.odd_add_mul_2 in Hodd; discriminate Hodd. }
      subst d. destruct (shr1_val c num Hv) as (Hv2 & E2 & Hn2). specialize (Hn2 Hn).
      assert (E2' : value (shr num num 1) = naf_value t) by (rewrite E2, Ev; replace (0 + 2 * naf_value t) with (naf_value t * 2) by lia; apply Z.quot_mul; lia).
      split; [|cbn [fst]; lia]. split; [exact Hv2|]. split; [exact Hn2|]. split; [lia|]. exists t. rewrite E2'. split; [exact Ht|].
      rewrite <- app_assoc. cbn [app]. rewrite <- Hcut. reflexivity.
  - pose proof (magnitude_range c x Hx). rewrite value_sgn, Hneg. cbn [sgn].
    split; [exact Hx|]. split; [reflexivity|]. split; [lia|]. exists L. split; [|reflexivity]. rewrite value_sgn, Hneg in HL. exact HL.
  - cbn [fst]. rewrite value_sgn, Hneg. cbn [sgn]. pose proof (magnitude_range c x Hx) as R. rewrite Bn_pow2 in R.
    eapply Z.lt_le_trans; [apply R|]. apply Z.pow_le_mono_r; lia.
Qed.
(** a cut sequence has a negative value, so it is never the operand *)
Lemma naf_bound l : Forall (fun d => d = -1 \/ d = 0 \/ d = 1) l -> - 2 ^ Z.of_nat (length l) < naf_value l < 2 ^ Z.of_nat (length l).
Proof.
  induction 1 as [|d t Hd F IH]; [cbn; lia|]. cbn [naf_value length]. rewrite Nat2Z.inj_succ, Z.pow_succ_r by lia. lia.
Qed.
Lemma naf_cut_value lim l : 0 < lim -> Forall (fun d => d = -1 \/ d = 0 \/ d = 1) l -> naf_cut lim l = l \/ (last (naf_cut lim l) 0 = -1 /\ naf_value (naf_cut lim l) < 0).
Proof.
  intros Pl. induction 1 as [|d t Hd F IH]; [left; reflexivity|]. cbn [naf_cut].
  destruct ((d =? -1) && (lim <=? naf_value (d :: t))) eqn:C.
  - right. apply andb_true_iff in C. destruct C as (C & _). cbn. lia.
  - destruct IH as [-> | (L & V)]; [left; reflexivity|]. right. split; [|cbn [naf_value]; lia].
    destruct (naf_cut lim t); [cbn in V; lia|exact L].
Qed.
Lemma naf_cut_right lim l : 0 < lim -> Forall (fun d => d = -1 \/ d = 0 \/ d = 1) l -> 0 <= naf_value l -> (naf_value (naf_cut lim l) = naf_value l <-> naf_cut lim l = l).
Proof. intros Pl F N. split; [|congruence]. intros E. destruct (naf_cut_value lim l Pl F) as [H|(_ & H)]; [exact H|lia]. Qed.
