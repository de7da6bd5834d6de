From Coq Require Import List ZArith Bool Lia PeanoNat Znumtheory.
From Coq Require Import ZifyBool ZifyNat ZifyN.
From Verif Require Import Outcome LoopModel LoopProofs BitLemmas WordsModel WordsSpec WordsProofs DivProofs
  UtilsSpec BigintModel BigintSpec BigintProofs BigintBits BigintClosure BigintClaims NumModel NumProofs.
Import ListNotations.
Open Scope Z_scope.

(** the divisor is overwritten while it is still needed *)
Definition clobbers (x y : bigint) : bool :=
  Nat.ltb 1 (size y) && Nat.ltb (size y) (size x) && (2 ^ 31 <=? nth (size y - 1) (mem y) 0).

Lemma real_words c x : valid c x -> get_real_size (words x) = size x.
Proof.
  intros Hx. destruct (words_valid c x Hx) as (W & L & N). destruct (get_real_size_spec _ N) as (Hn & E & _ & _). rewrite L in *.
  destruct (Nat.eq_dec (get_real_size (words x)) (size x)) as [|Hne]; [assumption|]. exfalso.
  set (k := get_real_size (words x)) in *.
  assert (Hl : last (words x) 0 = 0).
  { rewrite E. replace (size x - k)%nat with (size x - k - 1 + 1)%nat by lia. rewrite repeat_app, app_assoc. cbn [repeat]. apply last_snoc. }
  rewrite (nth_last_words c x Hx) in Hl. destruct Hx as (_ & _ & Ht). apply Ht; [lia|exact Hl].
Qed.

Lemma div_in_place_harmless c x y q : valid c x -> valid c y -> clobbers x y = false ->
  div_q c y x y = Ok (true, q) -> div_in_place c x y = Ok q.
Proof.
  intros Hx Hy Hc. unfold div_q, div_mod, udiv, div_in_place, div_alias.
  destruct (words_valid c x Hx) as (Wx & Lx & Nx). destruct (words_valid c y Hy) as (Wy & Ly & Ny).
  destruct (Nat.ltb (size x) (size y)); cbn [bind option_map negb].
  - intros E. injection E as <-. reflexivity.
  - destruct (can_resize c (size x - size y + 1)); cbn [bind]; [|discriminate].
    rewrite Ly, (real_words c x Hx), firstn_length, Lx, Nat.min_id, (nth_last_words c y Hy).
    unfold clobbers in Hc. rewrite Hc.
    destruct (div (size x - size y + 1) (words x) (words y)) as [[[qw xw] rn]| | |]; cbn [bind]; try discriminate.
    destruct (can_resize c rn); cbn [bind negb option_map]; [|discriminate]. intros E. injection E as <-. reflexivity.
Qed.

Lemma clobbers_value c x y : valid c x -> valid c y ->
  clobbers x y = true <-> (2 ^ 32 <= Z.abs (value y) /\ (Z.log2 (Z.abs (value y)) + 1) mod 32 = 0 /\ 2 ^ (Z.log2 (Z.abs (value y)) + 1) <= Z.abs (value x)).
Proof.
  intros Hx Hy. unfold clobbers. rewrite <- !(abs_magnitude c) by assumption.
  pose proof Hy as (_ & Sy & _). pose proof Hx as (_ & Sx & _).
  pose proof (magnitude_range c x Hx) as Rx. pose proof (magnitude_range c y Hy) as Ry.
  assert (H1 : (1 < size y)%nat <-> 2 ^ 32 <= magnitude y).
  { pose proof (size_le_iff c y 1 Hy ltac:(lia)) as H. rewrite Bn_1, B_val in H. change (2 ^ 32) with 4294967296. lia. }
  destruct (Nat.ltb_spec 1 (size y)) as [L1|L1]; cbn [andb]; [|split; [discriminate|]; intros (? & _); lia].
  assert (Hbl : bit_length y = Z.log2 (magnitude y) + 1).
  { rewrite (bit_length_spec c y Hy). pose proof (value_zero_iff y). destruct (Z.eqb_spec (value y) 0); [|reflexivity]. change (2 ^ 32) with 4294967296 in H1. lia. }
  assert (Hnz : is_zero y = false). { rewrite (is_zero_spec c y Hy). change (2 ^ 32) with 4294967296 in H1. lia. }
  unfold bit_length in Hbl. rewrite Hnz in Hbl. set (w := nth (size y - 1) (mem y) 0) in *.
  assert (Hw : is_word w).
  { destruct Hy as ((Wm & _) & _). unfold w. apply Forall_nth; [exact Wm|lia]. }
  assert (Hw0 : w <> 0) by (destruct Hy as (_ & _ & Ht); apply Ht; lia).
  rewrite <- Hbl. unfold is_word in Hw.
  assert (Hbsr : bsr32 w = Z.log2 w). { unfold bsr32. destruct (Z.eqb_spec w 0); [contradiction|reflexivity]. }
  rewrite Hbsr. pose proof (Z.log2_spec w ltac:(lia)) as (W1 & W2). pose proof (Z.log2_nonneg w).
  assert (Hl31 : Z.log2 w <= 31). { destruct (Z_le_gt_dec (Z.log2 w) 31); [assumption|]. pose proof (Z.pow_le_mono_r 2 32 (Z.log2 w) ltac:(lia) ltac:(lia)). lia. }
  assert (Htop : 2 ^ 31 <= w <-> Z.log2 w = 31).
  { split; intros H2.
    - destruct (Z.eq_dec (Z.log2 w) 31); [assumption|]. pose proof (Z.pow_le_mono_r 2 (Z.succ (Z.log2 w)) 31 ltac:(lia) ltac:(lia)). lia.
    - rewrite H2 in W1. exact W1. }
  assert (Hmod : ((Z.of_nat (size y) - 1) * 32 + 1 + Z.log2 w) mod 32 = 0 <-> Z.log2 w = 31).
  { replace ((Z.of_nat (size y) - 1) * 32 + 1 + Z.log2 w) with (1 + Z.log2 w + (Z.of_nat (size y) - 1) * 32) by lia. rewrite Z_mod_plus_full.
    split; intros H2; [|rewrite H2; reflexivity]. destruct (Z.eq_dec (Z.log2 w) 31); [assumption|]. rewrite Z.mod_small in H2 by lia. lia. }
  assert (Hsz : (size y < size x)%nat <-> Bn (size y) <= magnitude x).
  { pose proof (size_le_iff c x (size y) Hx ltac:(lia)) as H2. split; intros H3; lia. }
  rewrite andb_true_iff, Nat.ltb_lt, Z.leb_le, Hsz, Htop, Hmod, Bn_pow2. split.
  - intros (A & C). split; [tauto|]. split; [exact C|]. rewrite C. replace ((Z.of_nat (size y) - 1) * 32 + 1 + 31) with (32 * Z.of_nat (size y)) by lia. exact A.
  - intros (_ & C & A). split; [|exact C]. rewrite C in A. replace ((Z.of_nat (size y) - 1) * 32 + 1 + 31) with (32 * Z.of_nat (size y)) in A by lia. exact A.
Qed.

Lemma lcm_spec c z x y : storage_ok c z -> valid c x -> valid c y -> 0 <= value x -> 0 <= value y ->
  (value x <> 0 \/ value y <> 0) -> room c (size x + size y) ->
  ~ (2 ^ 32 <= Z.gcd (value x) (value y) /\ (Z.log2 (Z.gcd (value x) (value y)) + 1) mod 32 = 0 /\
     2 ^ (Z.log2 (Z.gcd (value x) (value y)) + 1) <= value x) ->
  exists r, lcm c z x y = Ok r /\ valid c r /\ value r = Z.lcm (value x) (value y).
Proof.
  intros Hz Hx Hy Px Py Hnz Hroom Hcl. unfold lcm.
  destruct (gcd_spec c x y Hx Hy) as (g & -> & Hg & Eg & Pg). specialize (Pg Px Py). cbn [bind].
  assert (Hg0 : value g <> 0). { intros H. rewrite H in Eg. symmetry in Eg. apply Z.gcd_eq_0 in Eg. lia. }
  destruct (div_q_spec c g x g (valid_storage _ _ Hg) Hx Hg Hg0) as (q & Eq & Hq & Evq).
  rewrite (div_in_place_harmless c x g q Hx Hg); [| |exact Eq].
  2: { destruct (clobbers x g) eqn:E; [|reflexivity]. exfalso. apply Hcl. apply (clobbers_value c x g Hx Hg) in E. rewrite Eg in E. rewrite (Z.abs_eq (value x)) in E by lia. exact E. }
  cbn [bind]. rewrite Z.abs_eq in Eg by lia. rewrite Z.quot_div_nonneg in Evq by lia.
  assert (Sq : (size q <= size x)%nat).
  { apply (size_le c); [assumption|assumption|]. rewrite Evq. pose proof (Z.div_pos (value x) (value g) ltac:(lia) ltac:(lia)).
    pose proof (Z.div_le_upper_bound (value x) (value g) (value x) ltac:(lia) ltac:(nia)). lia. }
  destruct (mul_spec c false false z q y Hz Hq Hy) as (r & -> & Hr & Er); try discriminate.
  { eapply room_le; [exact Hroom|]. lia. }
  exists r. split; [reflexivity|]. split; [exact Hr|]. rewrite Er, Evq, Eg. unfold Z.lcm.
  rewrite Z.abs_eq.
  - pose proof (Z.gcd_divide_l (value x) (value y)) as (k & Ek). pose proof (Z.gcd_divide_r (value x) (value y)) as (j & Ej).
    rewrite Ek at 1. rewrite Z.div_mul by lia. rewrite Ej at 2. rewrite Z.div_mul by lia. rewrite Ej at 1. rewrite Ek at 2. ring.
  - apply Z.mul_nonneg_nonneg; [lia|]. apply Z.div_pos; lia.
Qed.

Lemma lcm_refute : exists x y r, valid (Flex 4) x /\ valid (Flex 4) y /\ 0 < value x /\ 0 < value y /\
  lcm (Flex 4) (zero (Flex 4)) x y = Ok r /\ value r <> Z.lcm (value x) (value y).
Proof.
  exists (mk [2; 0; 1; 0] 3 false), (mk [3; 2147483648; 1; 0] 3 false). eexists.
  split; [apply validb_ok; reflexivity|]. split; [apply validb_ok; reflexivity|]. split; [reflexivity|]. split; [reflexivity|].
  split; [vm_compute; reflexivity|]. vm_compute. discriminate.
Qed.
