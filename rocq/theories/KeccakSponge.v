(** The sponge of keccak.hpp computes the sponge of FIPS 202. *)
From Coq Require Import List ZArith Bool Lia.
From Verif Require Import Outcome UtilsModel UtilsSpec UtilsProofs RsaModel RsaSpec RsaProofs ShaModel ShaSpec ShaProofs KeccakModel KeccakSpec KeccakProofs.
Import ListNotations.
Open Scope Z_scope.
Global Opaque Keccak_f KeccakModel.F.

(** ** Strings made of equal pieces *)
Lemma pieces_length {A} (f : A -> list bool) n l : (forall a, length (f a) = n) -> length (flat_map f l) = (n * length l)%nat.
Proof. intros H. induction l as [|a l IH]; [cbn; lia|]. cbn [flat_map length]. rewrite app_length, H, IH. lia. Qed.
Lemma pieces_nth {A} (f : A -> list bool) n l da : (forall a, length (f a) = n) -> forall k j, (k < length l)%nat -> (j < n)%nat ->
  nth (n * k + j) (flat_map f l) false = nth j (f (nth k l da)) false.
Proof.
  intros H. induction l as [|a l IH]; intros k j Hk Hj; [cbn in Hk; lia|]. cbn [flat_map]. destruct k as [|k].
  - rewrite app_nth1 by (rewrite H; lia). cbn [nth]. f_equal. lia.
  - rewrite app_nth2 by (rewrite H; nia). rewrite H. replace (n * S k + j - n)%nat with (n * k + j)%nat by lia. cbn [nth]. apply IH; [cbn in Hk; lia|exact Hj].
Qed.
Lemma string_length s : is_state s -> length (string_of s) = 1600%nat.
Proof. intros [L _]. unfold string_of. rewrite (pieces_length _ 64); [rewrite L; reflexivity|]. intros a. rewrite map_length. apply seq_length. Qed.
Lemma string_nth s k z : is_state s -> (k < 25)%nat -> (z < 64)%nat -> nth (64 * k + z) (string_of s) false = Z.testbit (nth k s 0) (Z.of_nat z).
Proof.
  intros [L _] Hk Hz. unfold string_of. rewrite (pieces_nth _ 64 s 0); [|intros a; rewrite map_length; apply seq_length|lia|exact Hz].
  exact (nth_map_seq (fun z => Z.testbit (nth k s 0) (Z.of_nat z)) 64 false z Hz).
Qed.
Lemma bits_length m : length (bits_of m) = (8 * length m)%nat.
Proof. unfold bits_of. apply pieces_length. intros a. reflexivity. Qed.
Lemma bits_nth m k z : (k < length m)%nat -> (z < 8)%nat -> nth (8 * k + z) (bits_of m) false = Z.testbit (nth k m 0) (Z.of_nat z).
Proof.
  intros Hk Hz. unfold bits_of. rewrite (pieces_nth _ 8 m 0); [|intros a; reflexivity|exact Hk|exact Hz].
  exact (nth_map_seq (fun z => Z.testbit (nth k m 0) (Z.of_nat z)) 8 false z Hz).
Qed.
Lemma bits_app a b : bits_of (a ++ b) = bits_of a ++ bits_of b.
Proof. unfold bits_of. apply flat_map_app. Qed.
Lemma state_string s : is_state s -> state_of (string_of s) = s.
Proof.
  intros Hs. symmetry. unfold state_of. apply make_ext; [exact Hs|]. intros k z Hk Hz.
  assert (E : (5 * (k / 5) + k mod 5 = k)%nat) by (symmetry; apply Nat.div_mod; lia). rewrite E. symmetry. apply string_nth; assumption.
Qed.
Lemma f_string_ok s : is_state s -> f_string (string_of s) = string_of (Keccak_f s).
Proof. intros Hs. unfold f_string. rewrite state_string by exact Hs. reflexivity. Qed.
Lemma xor_bits_length a b : length (xor_bits a b) = Nat.min (length a) (length b).
Proof. unfold xor_bits. rewrite map_length. apply combine_length. Qed.
Lemma xor_bits_nth a : forall b i, length a = length b -> nth i (xor_bits a b) false = xorb (nth i a false) (nth i b false).
Proof.
  induction a as [|x a IH]; intros b i L; destruct b as [|y b]; try discriminate L; [destruct i; reflexivity|]. injection L as L.
  destruct i as [|i]; [reflexivity|]. cbn. apply (IH b i L).
Qed.
Lemma nth_repeat_false i n : nth i (repeat false n) false = false.
Proof. revert i. induction n; intros [|i]; cbn; auto. Qed.

(** ** Absorbing a block *)
Lemma put_ok s k v : (k < length s)%nat -> put s k v = Ok (firstn k s ++ v :: skipn (k + 1) s).
Proof. intros H. unfold put. rewrite (proj2 (Nat.ltb_lt _ _) H). reflexivity. Qed.
Lemma nth_put (s : list Z) k v q : (k < length s)%nat -> nth q (firstn k s ++ v :: skipn (k + 1) s) 0 = if Nat.eqb q k then v else nth q s 0.
Proof.
  intros H. assert (L : length (firstn k s) = k) by (rewrite firstn_length; lia). destruct (Nat.eqb_spec q k) as [E|N].
  - subst q. rewrite app_nth2 by lia. rewrite L, Nat.sub_diag. reflexivity.
  - assert (ES : s = firstn k s ++ nth k s 0 :: skipn (S k) s) by (rewrite <- (skipn_cons k s 0 H); symmetry; apply firstn_skipn).
    destruct (Nat.lt_ge_cases q k) as [Q|Q].
    + rewrite app_nth1 by lia. rewrite ES at 2. rewrite app_nth1 by lia. reflexivity.
    + rewrite app_nth2 by lia. rewrite ES at 3. rewrite app_nth2 by lia. rewrite L. destruct (q - k)%nat as [|j] eqn:J; [lia|]. cbn [nth]. rewrite Nat.add_1_r. reflexivity.
Qed.
Lemma put_state s k v : is_state s -> (k < 25)%nat -> is_w v -> is_state (firstn k s ++ v :: skipn (k + 1) s).
Proof.
  intros [L W] Hk Hv. split.
  - rewrite app_length. cbn [length]. rewrite firstn_length, skipn_length. lia.
  - apply Forall_app. split; [apply Forall_firstn; exact W|]. constructor; [exact Hv|]. apply Forall_skipn. exact W.
Qed.
Definition absorbed (m : list Z) (o i : nat) (s s' : list Z) : Prop := is_state s' /\ forall q z, (q < 25)%nat -> (z < 64)%nat ->
  Z.testbit (nth q s' 0) (Z.of_nat z) = xorb (Z.testbit (nth q s 0) (Z.of_nat z))
    (if Nat.ltb (64 * q + z) (8 * i) then Z.testbit (nth (o + (64 * q + z) / 8) m 0) (Z.of_nat ((64 * q + z) mod 8)) else false).
Lemma shl_byte b k z : is_byte b -> (k < 8)%nat -> (z < 64)%nat ->
  Z.testbit (shl64 b (Z.of_nat (k * 8))) (Z.of_nat z) = if Nat.eqb (z / 8) k then Z.testbit b (Z.of_nat (z mod 8)) else false.
Proof.
  intros Hb Hk Hz. unfold shl64. rewrite Z.mod_pow2_bits_low by lia. rewrite Z.shiftl_spec by lia.
  pose proof (Nat.div_mod z 8 ltac:(lia)) as D. pose proof (Nat.mod_upper_bound z 8 ltac:(lia)) as M.
  destruct (Nat.eqb_spec (z / 8) k) as [E|N].
  - f_equal. subst k. lia.
  - destruct (Nat.lt_ge_cases z (k * 8)) as [Lz|Gz]; [apply Z.testbit_neg_r; lia|]. apply (bits_small b 8); [exact Hb|].
    assert (z / 8 <> k)%nat by exact N. nia.
Qed.
Lemma absorb_step m o i s s' : all_bytes m -> (o + i < length m)%nat -> (i < 200)%nat -> is_state s -> absorbed m o i s s' ->
  exists s'', (let* b := at_ m (o + i) in xor_at s' (i / 8) (shl64 b (Z.of_nat (i mod 8 * 8)))) = Ok s'' /\ absorbed m o (S i) s s''.
Proof.
  intros Hm Ho Hi Hs [Hs' B]. rewrite at_ok by exact Ho. cbn [bind]. unfold xor_at.
  assert (I25 : (i / 8 < 25)%nat) by (apply Nat.div_lt_upper_bound; lia). pose proof (proj1 Hs') as L'.
  rewrite at_ok by lia. cbn [bind]. rewrite put_ok by lia. set (v := xor64 _ _). eexists. split; [reflexivity|].
  split; [apply put_state; [exact Hs'|exact I25|]; apply xor_w; [apply nth_w; apply Hs'|apply is_w_shl64]|].
  intros q z Hq Hz. rewrite nth_put by lia.
  pose proof (Nat.div_mod i 8 ltac:(lia)) as Di. pose proof (Nat.mod_upper_bound i 8 ltac:(lia)) as Mi.
  pose proof (Nat.div_mod z 8 ltac:(lia)) as Dz. pose proof (Nat.mod_upper_bound z 8 ltac:(lia)) as Mz.
  assert (Eq8 : ((64 * q + z) / 8 = 8 * q + z / 8)%nat) by (symmetry; apply (Nat.div_unique _ _ _ (z mod 8)); lia).
  assert (Em8 : ((64 * q + z) mod 8 = z mod 8)%nat) by (symmetry; apply (Nat.mod_unique _ _ (8 * q + z / 8)); lia).
  destruct (Nat.eqb_spec q (i / 8)) as [E|N].
  - subst v. rewrite xor_bit, <- E, B by assumption. rewrite shl_byte; [|apply nth_byte; exact Hm|exact Mi|exact Hz].
    rewrite xorb_assoc_reverse. f_equal. rewrite Eq8, Em8. destruct (Nat.eqb_spec (z / 8) (i mod 8)) as [Ez|Nz].
    + rewrite (proj2 (Nat.ltb_ge _ _)) by lia. rewrite (proj2 (Nat.ltb_lt _ _)) by lia. rewrite xorb_false_l. f_equal. f_equal. lia.
    + rewrite xorb_false_r. destruct (Nat.ltb_spec (64 * q + z) (8 * i)).
      * rewrite (proj2 (Nat.ltb_lt _ _)) by lia. reflexivity.
      * rewrite (proj2 (Nat.ltb_ge _ _)) by lia. reflexivity.
  - rewrite B by assumption. f_equal. destruct (Nat.ltb_spec (64 * q + z) (8 * i)).
    + rewrite (proj2 (Nat.ltb_lt _ _)) by lia. reflexivity.
    + rewrite (proj2 (Nat.ltb_ge _ _)); [reflexivity|]. assert (z / 8 < 8)%nat by (apply Nat.div_lt_upper_bound; lia). lia.
Qed.
Lemma absorb_loop m o s : all_bytes m -> is_state s -> forall n i s', (o + i + n <= length m)%nat -> (i + n <= 200)%nat -> absorbed m o i s s' ->
  exists s'', for_each (fun i s => let* b := at_ m (o + i) in xor_at s (i / 8) (shl64 b (Z.of_nat (i mod 8 * 8)))) (seq i n) s' = Ok s'' /\ absorbed m o (i + n) s s''.
Proof.
  intros Hm Hs. induction n as [|n IH]; intros i s' Ho Hi A; [exists s'; rewrite Nat.add_0_r; split; [reflexivity|exact A]|].
  cbn [seq for_each]. destruct (absorb_step m o i s s') as (s1 & E1 & A1); [assumption|lia|lia|assumption|assumption|]. rewrite E1. cbn [bind].
  destruct (IH (S i) s1) as (s2 & E2 & A2); [lia|lia|exact A1|]. exists s2. split; [exact E2|]. replace (i + S n)%nat with (S i + n)%nat by lia. exact A2.
Qed.
Lemma absorb_ok r m o s : all_bytes m -> is_state s -> (o + r <= length m)%nat -> (r <= 200)%nat ->
  exists s', absorb r m o s = Ok s' /\ is_state s' /\
    string_of s' = xor_bits (string_of s) (bits_of (firstn r (skipn o m)) ++ repeat false (1600 - 8 * r)).
Proof.
  intros Hm Hs Ho Hr. destruct (absorb_loop m o s Hm Hs r 0%nat s) as (s' & E & Hs' & B); [lia|lia| |].
  { split; [exact Hs|]. intros q z _ _. cbn [Nat.mul]. rewrite xorb_false_r. reflexivity. }
  exists s'. split; [exact E|]. split; [exact Hs'|]. cbn [Nat.add] in B.
  assert (LB : length (firstn r (skipn o m)) = r) by (rewrite firstn_length, skipn_length; lia).
  assert (LX : length (bits_of (firstn r (skipn o m)) ++ repeat false (1600 - 8 * r)) = 1600%nat) by (rewrite app_length, bits_length, LB, repeat_length; lia).
  apply nth_ext with (d := false) (d' := false).
  - rewrite xor_bits_length, LX, !string_length by assumption. reflexivity.
  - intros i Hi. rewrite string_length in Hi by exact Hs'. rewrite xor_bits_nth by (rewrite LX, string_length by exact Hs; reflexivity).
    pose proof (Nat.div_mod i 64 ltac:(lia)) as D. pose proof (Nat.mod_upper_bound i 64 ltac:(lia)) as M.
    assert (Q : (i / 64 < 25)%nat) by (apply Nat.div_lt_upper_bound; lia).
    rewrite D at 1 2. rewrite !string_nth by assumption. rewrite B by assumption. f_equal. rewrite <- D.
    pose proof (Nat.div_mod i 8 ltac:(lia)) as D8. pose proof (Nat.mod_upper_bound i 8 ltac:(lia)) as M8.
    destruct (Nat.ltb_spec i (8 * r)) as [Lt|Ge].
    + rewrite app_nth1 by (rewrite bits_length, LB; lia). rewrite D8 at 3. rewrite bits_nth; [|rewrite LB; lia|exact M8]. f_equal.
      assert (G : nth (i / 8) (firstn r (skipn o m)) 0 = nth (i / 8) (skipn o m) 0).
      { rewrite <- (firstn_skipn r (skipn o m)) at 2. symmetry. apply app_nth1. rewrite LB. lia. }
      rewrite G, nth_skipn'. reflexivity.
    + rewrite app_nth2 by (rewrite bits_length, LB; lia). rewrite nth_repeat_false. reflexivity.
Qed.

(** ** Whole blocks *)
Lemma skipn_bits k m : skipn (8 * k) (bits_of m) = bits_of (skipn k m).
Proof.
  destruct (Nat.lt_ge_cases k (length m)) as [H|H].
  - rewrite <- (firstn_skipn k m) at 1. rewrite bits_app, skipn_app, skipn_all2 by (rewrite bits_length, firstn_length; lia).
    rewrite bits_length, firstn_length. replace (8 * k - 8 * Nat.min k (length m))%nat with 0%nat by lia. reflexivity.
  - rewrite (skipn_all2 m) by lia. rewrite skipn_all2 by (rewrite bits_length; lia). reflexivity.
Qed.
Lemma firstn_bits k m : firstn (8 * k) (bits_of m) = bits_of (firstn k m).
Proof.
  destruct (Nat.lt_ge_cases k (length m)) as [H|H].
  - rewrite <- (firstn_skipn k m) at 1. rewrite bits_app, firstn_app, firstn_all2 by (rewrite bits_length, firstn_length; lia).
    rewrite bits_length, firstn_length. replace (8 * k - 8 * Nat.min k (length m))%nat with 0%nat by lia. cbn [firstn]. apply app_nil_r.
  - rewrite (firstn_all2 m) by lia. apply firstn_all2. rewrite bits_length. lia.
Qed.
Definition sponge_step (r : nat) (S P : list bool) : list bool := f_string (xor_bits S (P ++ repeat false (1600 - r))).
Lemma absorb_blocks_0 fuel r m o n s : (n < r)%nat -> absorb_blocks fuel r m o n s = Ok (o, n, s).
Proof. intros H. destruct fuel; cbn [absorb_blocks]; rewrite (proj2 (Nat.leb_gt _ _)) by lia; reflexivity. Qed.
Lemma absorb_blocks_S fuel r m o n s : (r <= n)%nat -> absorb_blocks (S fuel) r m o n s =
  (let* s := absorb r m o s in let* s := KeccakModel.F s in absorb_blocks fuel r m (o + r) (n - r) s).
Proof. intros H. cbn [absorb_blocks]. rewrite (proj2 (Nat.leb_le _ _)) by lia. reflexivity. Qed.
Lemma split_S r n P : split_blocks r (S n) P = firstn r P :: split_blocks r n (skipn r P).
Proof. reflexivity. Qed.
Lemma blocks_ok r m : all_bytes m -> (0 < r <= 200)%nat -> forall k fuel o n s, (k * r <= n < k * r + r)%nat -> (k <= fuel)%nat -> (o + n = length m)%nat -> is_state s ->
  exists s', absorb_blocks fuel r m o n s = Ok ((o + k * r)%nat, (n - k * r)%nat, s') /\ is_state s' /\
    string_of s' = fold_left (sponge_step (8 * r)) (split_blocks (8 * r) k (bits_of (skipn o m))) (string_of s).
Proof.
  intros Hm Hr. induction k as [|k IH]; intros fuel o n s Hn Hf Ho Hs.
  - rewrite absorb_blocks_0 by lia. exists s. split; [do 3 f_equal; lia|]. split; [exact Hs|reflexivity].
  - destruct fuel as [|fuel]; [lia|]. rewrite absorb_blocks_S by lia.
    destruct (absorb_ok r m o s Hm Hs) as (s1 & E1 & H1 & B1); [lia|lia|]. rewrite E1. cbn [bind]. rewrite F_ok by exact H1. cbn [bind].
    destruct (IH fuel (o + r)%nat (n - r)%nat (Keccak_f s1)) as (s2 & E2 & H2 & B2); [lia|lia|lia|apply Keccak_f_state; exact H1|].
    exists s2. rewrite E2. split; [do 3 f_equal; lia|]. split; [exact H2|]. rewrite split_S, fold_cons, skipn_bits, skipn_skipn', firstn_bits.
    rewrite (Nat.add_comm r o), B2. apply (f_equal (fold_left _ _)). unfold sponge_step. rewrite <- B1. symmetry. apply f_string_ok. exact H1.
Qed.

(** ** The last block *)
Definition suffix_of (p : Z) (suf : list bool) : Prop :=
  is_byte p /\ (length suf + 2 <= 8)%nat /\ map (fun z => Z.testbit p (Z.of_nat z)) (seq 0 8) = suf ++ [true] ++ repeat false (7 - length suf).
Lemma suffix_6 : suffix_of 6 [false; true].
Proof. split; [unfold is_byte; lia|]. split; [cbn; lia|reflexivity]. Qed.
Lemma suffix_31 : suffix_of 31 [true; true; true; true].
Proof. split; [unfold is_byte; lia|]. split; [cbn; lia|reflexivity]. Qed.
Lemma bits_zeros n : bits_of (repeat 0 n) = repeat false (8 * n).
Proof. induction n as [|n IH]; [reflexivity|]. replace (8 * S n)%nat with (8 + 8 * n)%nat by lia. rewrite repeat_app, <- IH. reflexivity. Qed.
Lemma lor128 p suf : suffix_of p suf -> bits_of [Z.lor p 128] = suf ++ [true] ++ repeat false (6 - length suf) ++ [true].
Proof.
  intros (Hp & Hl & E). apply nth_ext with (d := false) (d' := false).
  - rewrite !app_length, repeat_length. cbn [length bits_of flat_map map seq app]. lia.
  - intros i Hi. change (length (bits_of [Z.lor p 128])) with 8%nat in Hi. change (nth i (bits_of [Z.lor p 128]) false) with (nth i (map (fun z => Z.testbit (Z.lor p 128) (Z.of_nat z)) (seq 0 8)) false).
    rewrite (nth_map_seq (fun z => Z.testbit (Z.lor p 128) (Z.of_nat z)) 8 false i Hi). rewrite Z.lor_spec. change 128 with (2 ^ 7). rewrite Z.pow2_bits_eqb by lia.
    assert (E7 : Z.testbit p (Z.of_nat i) = nth i (suf ++ [true] ++ repeat false (7 - length suf)) false).
    { rewrite <- E. symmetry. exact (nth_map_seq (fun z => Z.testbit p (Z.of_nat z)) 8 false i Hi). }
    rewrite E7. replace (7 - length suf)%nat with (6 - length suf + 1)%nat by lia. rewrite repeat_app. cbn [repeat].
    replace (suf ++ [true] ++ repeat false (6 - length suf) ++ [false]) with ((suf ++ [true] ++ repeat false (6 - length suf)) ++ [false]) by (rewrite <- !app_assoc; reflexivity).
    replace (suf ++ [true] ++ repeat false (6 - length suf) ++ [true]) with ((suf ++ [true] ++ repeat false (6 - length suf)) ++ [true]) by (rewrite <- !app_assoc; reflexivity).
    assert (L7 : length (suf ++ [true] ++ repeat false (6 - length suf)) = 7%nat) by (rewrite !app_length, repeat_length; cbn [length]; lia).
    destruct (Nat.eq_dec i 7) as [->|N].
    + rewrite !app_nth2 by lia. rewrite L7. reflexivity.
    + rewrite (app_nth1 _ [false]), (app_nth1 _ [true]) by lia. replace (7 =? Z.of_nat i) with false by (symmetry; apply Z.eqb_neq; lia). apply orb_false_r.
Qed.
(** the last block as the code builds it *)
Definition last_block (r : nat) (p : Z) (tail : list Z) : list Z :=
  if Nat.eqb (length tail) (r - 1) then tail ++ [Z.lor p 128] else tail ++ [p] ++ repeat 0 (r - 2 - length tail) ++ [128].
Lemma last_length r p tail : (length tail < r)%nat -> length (last_block r p tail) = r.
Proof. intros H. unfold last_block. destruct (Nat.eqb_spec (length tail) (r - 1)); rewrite !app_length, ?repeat_length; cbn [length]; lia. Qed.
Lemma pad_count x k n : (0 < n <= x)%nat -> ((x * (k * x + n) - (k * x + n)) mod x = x - n)%nat.
Proof.
  intros H. destruct x as [|x]; [lia|]. symmetry. apply (Nat.mod_unique _ _ (S x * k + n - k - 1)); [lia|]. nia.
Qed.
Lemma last_bits r p suf tail k L : suffix_of p suf -> (length tail < r)%nat -> L = (8 * (k * r + length tail) + length suf)%nat ->
  bits_of (last_block r p tail) = bits_of tail ++ suf ++ pad10s1 (8 * r) L.
Proof.
  intros S Ht ->. pose proof S as (Hp & Hl & E). unfold pad10s1.
  replace (8 * (k * r + length tail) + length suf + 2)%nat with (k * (8 * r) + (8 * length tail + length suf + 2))%nat by lia.
  rewrite pad_count by lia. unfold last_block. destruct (Nat.eqb_spec (length tail) (r - 1)) as [Et|Nt].
  - rewrite bits_app, (lor128 p suf S). replace (8 * r - (8 * length tail + length suf + 2))%nat with (6 - length suf)%nat by lia. reflexivity.
  - rewrite !bits_app, bits_zeros. change (bits_of [p]) with (map (fun z => Z.testbit p (Z.of_nat z)) (seq 0 8)). rewrite E.
    change (bits_of [128]) with (repeat false 7 ++ [true]).
    replace (8 * r - (8 * length tail + length suf + 2))%nat with ((7 - length suf) + (8 * (r - 2 - length tail) + 7))%nat by lia.
    rewrite !repeat_app. rewrite <- !app_assoc. reflexivity.
Qed.
Lemma last_built r p m o n : all_bytes m -> (n < r)%nat -> (r <= 200)%nat -> (o + n = length m)%nat ->
  exists t, (let* t := for_each (fun i t => let* b := at_ m (o + i) in put t i b) (seq 0 n) (repeat 0 200) in
    let* t := put t n p in let* b := at_ t (r - 1) in put t (r - 1) (Z.lor b 128)) = Ok t /\
    t = last_block r p (skipn o m) ++ repeat 0 (200 - r).
Proof.
  intros Hm Hn Hr Ho. set (tail := skipn o m). assert (LT : length tail = n) by (subst tail; rewrite skipn_length; lia).
  assert (E : for_each (fun i t => let* b := at_ m (o + i) in put t i b) (seq 0 n) (repeat 0 200) = Ok (tail ++ repeat 0 (200 - n))).
  { assert (G : forall k i P R, (o + i + k <= length m)%nat -> length P = i -> (k <= length R)%nat ->
      for_each (fun i t => let* b := at_ m (o + i) in put t i b) (seq i k) (P ++ R) = Ok (P ++ map (fun i => nth (o + i) m 0) (seq i k) ++ skipn k R)).
    { induction k as [|k IH]; intros i P R H1 H2 H3; [reflexivity|]. destruct R as [|v R]; [cbn in H3; lia|]. cbn [seq for_each map].
      rewrite at_ok by lia. cbn [bind]. rewrite <- H2 at 1. rewrite put_mid. cbn [bind].
      replace (P ++ nth (o + i) m 0 :: R) with ((P ++ [nth (o + i) m 0]) ++ R) by (rewrite <- app_assoc; reflexivity).
      rewrite IH; [|lia|rewrite app_length; cbn; lia|cbn in H3; lia]. rewrite <- app_assoc. reflexivity. }
    pose proof (G n 0%nat [] (repeat 0 200) ltac:(lia) eq_refl ltac:(rewrite repeat_length; lia)) as G0. cbn [app] in G0. rewrite G0. clear G G0. f_equal. f_equal.
    - apply nth_ext with (d := 0) (d' := 0); [rewrite map_length, seq_length; lia|]. intros i Hi. rewrite map_length, seq_length in Hi.
      rewrite (nth_map_seq (fun i => nth (o + i) m 0) n 0 i Hi). subst tail. symmetry. apply nth_skipn'.
    - assert (R2 : repeat 0 200 = repeat 0 n ++ repeat 0 (200 - n)) by (rewrite <- repeat_app; f_equal; lia). rewrite R2, skipn_app, skipn_all2, repeat_length, Nat.sub_diag by (rewrite repeat_length; lia). reflexivity. }
  rewrite E. cbn [bind]. replace (200 - n)%nat with (S (199 - n)) by lia. cbn [repeat].
  assert (PM : put (tail ++ 0 :: repeat 0 (199 - n)) n p = Ok (tail ++ p :: repeat 0 (199 - n))) by (rewrite <- LT; apply put_mid). rewrite PM. cbn [bind].
  unfold last_block. rewrite LT. destruct (Nat.eqb_spec n (r - 1)) as [En|Nn].
  - assert (A : at_ (tail ++ p :: repeat 0 (199 - n)) (r - 1) = Ok p).
    { rewrite at_ok by (rewrite app_length; cbn [length]; lia). rewrite app_nth2 by lia. replace (r - 1 - length tail)%nat with 0%nat by lia. reflexivity. }
    rewrite A. cbn [bind]. replace (r - 1)%nat with (length tail) by lia. rewrite put_mid. eexists. split; [reflexivity|]. rewrite <- app_assoc. cbn [app]. do 2 f_equal. f_equal. lia.
  - assert (EQ : tail ++ p :: repeat 0 (199 - n) = (tail ++ p :: repeat 0 (r - 2 - n)) ++ 0 :: repeat 0 (200 - r)).
    { rewrite <- app_assoc. cbn [app]. do 2 f_equal. replace (199 - n)%nat with ((r - 2 - n) + S (200 - r))%nat by lia. rewrite repeat_app. reflexivity. }
    rewrite EQ. assert (LQ : length (tail ++ p :: repeat 0 (r - 2 - n)) = (r - 1)%nat) by (rewrite app_length; cbn [length]; rewrite repeat_length; lia).
    assert (A : at_ ((tail ++ p :: repeat 0 (r - 2 - n)) ++ 0 :: repeat 0 (200 - r)) (r - 1) = Ok 0).
    { rewrite at_ok by (rewrite app_length; cbn [length]; lia). rewrite app_nth2 by lia. rewrite LQ, Nat.sub_diag. reflexivity. }
    rewrite A. cbn [bind]. rewrite <- LQ. rewrite put_mid. eexists. split; [reflexivity|]. rewrite <- !app_assoc. reflexivity.
Qed.

(** ** Squeezing *)
Definition out_byte (s : list Z) (j : nat) : Z := Z.shiftr (nth (j / 8) s 0) (8 * Z.of_nat (j mod 8)) mod 256.
Lemma iter_state n : forall s, is_state s -> is_state (Nat.iter n Keccak_f s).
Proof. induction n as [|n IH]; intros s Hs; [exact Hs|]. cbn. apply Keccak_f_state. apply IH. exact Hs. Qed.
Lemma divmod_S i r : (0 < r)%nat -> (i mod r = 0 -> (i + r - 1) / r = i / r)%nat /\ (i mod r <> 0 -> (i + r - 1) / r = S (i / r))%nat.
Proof.
  intros Hr. pose proof (Nat.div_mod i r ltac:(lia)) as D. pose proof (Nat.mod_upper_bound i r ltac:(lia)) as M. split; intros H.
  - symmetry. apply (Nat.div_unique _ _ _ (r - 1)); lia.
  - symmetry. apply (Nat.div_unique _ _ _ (i mod r - 1)); lia.
Qed.
Lemma mod8 r i : (0 < r)%nat -> (r mod 8 = 0)%nat -> (i mod 8 = (i mod r) mod 8)%nat.
Proof.
  intros Hr H8. pose proof (Nat.div_mod i r ltac:(lia)) as D. pose proof (Nat.div_mod r 8 ltac:(lia)) as D8.
  pose proof (Nat.div_mod (i mod r) 8 ltac:(lia)) as D3. pose proof (Nat.mod_upper_bound (i mod r) 8 ltac:(lia)).
  symmetry. apply (Nat.mod_unique _ _ (r / 8 * (i / r) + (i mod r) / 8)); [lia|]. nia.
Qed.
Lemma squeeze_loop r s0 : (0 < r <= 200)%nat -> (r mod 8 = 0)%nat -> is_state s0 -> forall n i P R, length P = i -> (n <= length R)%nat ->
  exists s', for_each (fun i sh =>
    let* s := (if Nat.eqb (i mod r) 0 then KeccakModel.F (fst sh) else Ok (fst sh)) in
    let* w := at_ s (i mod r / 8) in
    let* h := put (snd sh) i (Z.shiftr w (8 * Z.of_nat (i mod 8)) mod 256) in
    Ok (s, h)) (seq i n) (Nat.iter ((i + r - 1) / r) Keccak_f s0, P ++ R) =
  Ok (s', P ++ map (fun i => out_byte (Nat.iter (i / r + 1) Keccak_f s0) (i mod r)) (seq i n) ++ skipn n R).
Proof.
  intros Hr H8 Hs. induction n as [|n IH]; intros i P R HP HR; [eexists; reflexivity|]. destruct R as [|v R]; [cbn in HR; lia|].
  cbn [seq for_each map]. cbn [fst snd].
  assert (E : (if Nat.eqb (i mod r) 0 then KeccakModel.F (Nat.iter ((i + r - 1) / r) Keccak_f s0) else Ok (Nat.iter ((i + r - 1) / r) Keccak_f s0)) = Ok (Nat.iter (i / r + 1) Keccak_f s0)).
  { destruct (divmod_S i r ltac:(lia)) as [Z1 Z2]. rewrite Nat.add_1_r. destruct (Nat.eqb_spec (i mod r) 0) as [E0|N0].
    - rewrite Z1 by exact E0. rewrite F_ok by (apply iter_state; exact Hs). reflexivity.
    - rewrite Z2 by exact N0. reflexivity. }
  rewrite E. cbn [bind]. pose proof (iter_state (i / r + 1) s0 Hs) as HS. pose proof (Nat.mod_upper_bound i r ltac:(lia)) as M.
  assert (IL : (i mod r / 8 < 25)%nat) by (apply Nat.div_lt_upper_bound; lia).
  rewrite at_ok by (rewrite (proj1 HS); exact IL). cbn [bind].
  assert (PM : forall b, put (P ++ v :: R) i b = Ok (P ++ b :: R)) by (intros b; rewrite <- HP; apply put_mid). rewrite PM. cbn [bind].
  assert (EO : Z.shiftr (nth (i mod r / 8) (Nat.iter (i / r + 1) Keccak_f s0) 0) (8 * Z.of_nat (i mod 8)) mod 256 = out_byte (Nat.iter (i / r + 1) Keccak_f s0) (i mod r)).
  { unfold out_byte. rewrite (mod8 r i) by (try lia; exact H8). reflexivity. }
  rewrite EO. set (b := out_byte _ _). replace (P ++ b :: R) with ((P ++ [b]) ++ R) by (rewrite <- app_assoc; reflexivity).
  replace (Nat.iter (i / r + 1) Keccak_f s0) with (Nat.iter ((S i + r - 1) / r) Keccak_f s0).
  2:{ f_equal. replace (S i + r - 1)%nat with (i + 1 * r)%nat by lia. rewrite Nat.div_add by lia. reflexivity. }
  destruct (IH (S i) (P ++ [b]) R) as [s' E2]; [rewrite app_length; cbn; lia|cbn in HR; lia|]. exists s'. rewrite E2. rewrite <- app_assoc. reflexivity.
Qed.
Lemma squeeze_ok r s0 junk : (0 < r <= 200)%nat -> (r mod 8 = 0)%nat -> is_state s0 ->
  squeeze r (length junk) s0 junk = Ok (map (fun i => out_byte (Nat.iter (i / r + 1) Keccak_f s0) (i mod r)) (seq 0 (length junk))).
Proof.
  intros Hr H8 Hs. unfold squeeze. destruct (squeeze_loop r s0 Hr H8 Hs (length junk) 0%nat [] junk eq_refl ltac:(lia)) as [s' E].
  replace ((0 + r - 1) / r)%nat with 0%nat in E by (symmetry; apply Nat.div_small; lia). cbn [Nat.iter nat_rect app] in E. rewrite E. cbn [bind snd].
  rewrite skipn_all, app_nil_r. reflexivity.
Qed.
Lemma iter_string n : forall s, is_state s -> Nat.iter n f_string (string_of s) = string_of (Nat.iter n Keccak_f s).
Proof. induction n as [|n IH]; intros s Hs; [reflexivity|]. change (f_string (Nat.iter n f_string (string_of s)) = string_of (Keccak_f (Nat.iter n Keccak_f s))). rewrite IH by exact Hs. apply f_string_ok. apply iter_state. exact Hs. Qed.
Lemma iter_S {A} n (f : A -> A) a : Nat.iter n f (f a) = f (Nat.iter n f a).
Proof. induction n as [|n IH]; [reflexivity|]. change (f (Nat.iter n f (f a)) = f (f (Nat.iter n f a))). rewrite IH. reflexivity. Qed.
Lemma squeeze_bits_ok r s : (0 < r <= 1600)%nat -> is_state s -> forall fuel n d, (d <= fuel * r)%nat -> (0 < fuel)%nat ->
  length (squeeze_bits fuel r d (string_of (Nat.iter n Keccak_f s))) = d /\
  forall k, (k < d)%nat -> nth k (squeeze_bits fuel r d (string_of (Nat.iter n Keccak_f s))) false = nth (k mod r) (string_of (Nat.iter (k / r + n) Keccak_f s)) false.
Proof.
  intros Hr Hs. induction fuel as [|fuel IH]; intros n d Hd Hf; [lia|]. cbn [squeeze_bits].
  pose proof (string_length _ (iter_state n s Hs)) as LS.
  assert (FN : forall a k, (k < a)%nat -> (a <= 1600)%nat -> nth k (firstn a (string_of (Nat.iter n Keccak_f s))) false = nth k (string_of (Nat.iter n Keccak_f s)) false).
  { intros a k H1 H2. rewrite <- (firstn_skipn a (string_of (Nat.iter n Keccak_f s))) at 2. symmetry. apply app_nth1. rewrite firstn_length, LS. lia. }
  destruct (Nat.leb_spec d r) as [L|G].
  - split; [rewrite firstn_length, LS; lia|]. intros k Hk. rewrite FN by lia. rewrite Nat.mod_small, Nat.div_small by lia. reflexivity.
  - rewrite f_string_ok by (apply iter_state; exact Hs). change (Keccak_f (Nat.iter n Keccak_f s)) with (Nat.iter (S n) Keccak_f s).
    destruct (IH (S n) (d - r)%nat) as [L2 N2]; [nia|nia|].
    assert (LF : length (firstn r (string_of (Nat.iter n Keccak_f s))) = r) by (rewrite firstn_length, LS; lia).
    split; [rewrite app_length, L2, LF; lia|]. intros k Hk. destruct (Nat.lt_ge_cases k r) as [Lk|Gk].
    + rewrite app_nth1 by lia. rewrite FN by lia. rewrite Nat.mod_small, Nat.div_small by lia. reflexivity.
    + rewrite app_nth2 by lia. rewrite LF, N2 by lia. assert (Em : (k mod r = (k - r) mod r)%nat) by (replace k with (k - r + 1 * r)%nat at 1 by lia; apply Nat.mod_add; lia).
      assert (Ed : (k / r = (k - r) / r + 1)%nat) by (replace k with (k - r + 1 * r)%nat at 1 by lia; apply Nat.div_add; lia).
      rewrite Em, Ed. do 3 f_equal. lia.
Qed.
Lemma out_byte_bit s j z : (z < 8)%nat -> Z.testbit (out_byte s j) (Z.of_nat z) = Z.testbit (nth (j / 8) s 0) (Z.of_nat (8 * (j mod 8) + z)).
Proof. intros Hz. unfold out_byte. change 256 with (2 ^ 8). rewrite Z.mod_pow2_bits_low by lia. rewrite Z.shiftr_spec by lia. f_equal. lia. Qed.
Lemma squeeze_match r s0 n : (0 < r <= 200)%nat -> (r mod 8 = 0)%nat -> is_state s0 ->
  bits_of (map (fun i => out_byte (Nat.iter (i / r + 1) Keccak_f s0) (i mod r)) (seq 0 n)) = squeeze_bits (8 * n + 1) (8 * r) (8 * n) (f_string (string_of s0)).
Proof.
  intros Hr H8 Hs. rewrite f_string_ok by exact Hs. change (Keccak_f s0) with (Nat.iter 1 Keccak_f s0).
  destruct (squeeze_bits_ok (8 * r) s0 ltac:(lia) Hs (8 * n + 1) 1 (8 * n)) as [L N]; [nia|lia|].
  apply nth_ext with (d := false) (d' := false); [rewrite bits_length, map_length, seq_length; symmetry; exact L|].
  intros k Hk. rewrite bits_length, map_length, seq_length in Hk. rewrite N by exact Hk. clear N L.
  pose proof (Nat.div_mod k 8 ltac:(lia)) as D. pose proof (Nat.mod_upper_bound k 8 ltac:(lia)) as M.
  set (b := (k / 8)%nat) in *. set (c := (k mod 8)%nat) in *.
  rewrite D at 1. rewrite bits_nth; [|rewrite map_length, seq_length; lia|exact M].
  rewrite (nth_map_seq (fun i => out_byte (Nat.iter (i / r + 1) Keccak_f s0) (i mod r)) n 0 b ltac:(lia)). rewrite out_byte_bit by exact M.
  pose proof (Nat.div_mod b r ltac:(lia)) as Db. pose proof (Nat.mod_upper_bound b r ltac:(lia)) as Mb.
  set (a := (b / r)%nat) in *. set (j := (b mod r)%nat) in *.
  replace (k / (8 * r))%nat with a by (apply (Nat.div_unique _ _ _ (8 * j + c)); nia).
  replace (k mod (8 * r))%nat with (8 * j + c)%nat by (apply (Nat.mod_unique _ _ a); nia).
  pose proof (Nat.div_mod j 8 ltac:(lia)) as Dj. pose proof (Nat.mod_upper_bound j 8 ltac:(lia)) as Mj.
  replace (8 * j + c)%nat with (64 * (j / 8) + (8 * (j mod 8) + c))%nat by lia.
  symmetry. apply string_nth; [apply iter_state; exact Hs|apply Nat.div_lt_upper_bound; lia|lia].
Qed.

(** ** The sponge *)
Lemma split_snoc r P k : forall Q, length P = (k * r)%nat -> length Q = r -> split_blocks r (k + 1) (P ++ Q) = split_blocks r k P ++ [Q].
Proof.
  revert P. induction k as [|k IH]; intros P Q HP HQ.
  - destruct P; [|cbn in HP; lia]. cbn. rewrite firstn_all2 by lia. reflexivity.
  - cbn [Nat.add]. rewrite !split_S. cbn [app]. f_equal.
    + rewrite firstn_app. replace (r - length P)%nat with 0%nat by nia. cbn [firstn]. apply app_nil_r.
    + rewrite skipn_app. replace (r - length P)%nat with 0%nat by nia. cbn [skipn]. apply IH; [rewrite skipn_length; nia|exact HQ].
Qed.
Lemma split_firstn r k : forall P m, (k * r <= m)%nat -> split_blocks r k (firstn m P) = split_blocks r k P.
Proof.
  induction k as [|k IH]; intros P m H; [reflexivity|]. rewrite !split_S. rewrite firstn_firstn. replace (Nat.min r m) with r by lia. f_equal.
  rewrite skipn_firstn_comm. apply IH. lia.
Qed.
Lemma zero_state : is_state (repeat 0 25).
Proof. split; [reflexivity|]. apply Forall_forall. intros x Hx. apply repeat_spec in Hx. subst x. apply zero_w. Qed.
Lemma zero_string : string_of (repeat 0 25) = repeat false 1600.
Proof. vm_compute. reflexivity. Qed.
Lemma keccak_ok r p suf m junk : (0 < r <= 200)%nat -> (r mod 8 = 0)%nat -> suffix_of p suf -> all_bytes m ->
  exists h, keccak r p m junk = Ok h /\ length h = length junk /\ all_bytes h /\ bits_of h = sponge (8 * r) (bits_of m ++ suf) (8 * length junk).
Proof.
  intros Hr H8 Hsuf Hm. set (n := length m). set (k := (n / r)%nat).
  pose proof (Nat.div_mod n r ltac:(lia)) as D. pose proof (Nat.mod_upper_bound n r ltac:(lia)) as M. fold k in D.
  assert (Kn : (k <= n)%nat) by nia.
  destruct (blocks_ok r m Hm Hr k n 0%nat n (repeat 0 25)) as (s1 & E1 & H1 & B1); [nia|exact Kn|reflexivity|exact zero_state|].
  rewrite zero_string in B1. cbn [skipn Nat.add] in B1, E1.
  assert (TL : (n - k * r < r)%nat) by nia.
  destruct (last_built r p m (k * r) (n - k * r) Hm TL) as (t & E2 & Et); [lia|fold n; nia|].
  assert (Lt : length (skipn (k * r) m) = (n - k * r)%nat) by (rewrite skipn_length; reflexivity).
  assert (LL : length (last_block r p (skipn (k * r) m)) = r) by (apply last_length; lia).
  assert (Ht : all_bytes t).
  { subst t. apply Forall_app. split.
    - unfold last_block. destruct (Nat.eqb _ _); repeat (apply Forall_app; split); try (apply Forall_skipn; exact Hm).
      + constructor; [|constructor]. split; [apply Z.lor_nonneg; split; [apply Hsuf|lia]|].
        destruct (Z.eq_dec (Z.lor p 128) 0) as [->|]; [lia|]. change 256 with (2 ^ 8). apply Z.log2_lt_pow2; [assert (0 <= Z.lor p 128) by (apply Z.lor_nonneg; split; [apply Hsuf|lia]); lia|].
        rewrite Z.log2_lor by (try lia; apply Hsuf). apply Z.max_lub_lt; [|cbn; lia]. destruct (Z.eq_dec p 0) as [->|]; [cbn; lia|]. apply Z.log2_lt_pow2; [|apply Hsuf]. pose proof (proj1 Hsuf) as Q. unfold is_byte in Q. lia.
      + constructor; [apply Hsuf|constructor].
      + apply Forall_forall. intros x Hx. apply repeat_spec in Hx. subst x. unfold is_byte. lia.
      + constructor; [unfold is_byte; lia|constructor].
    - apply Forall_forall. intros x Hx. apply repeat_spec in Hx. subst x. unfold is_byte. lia. }
  destruct (absorb_ok r t 0 s1 Ht H1) as (s2 & E3 & H2 & B2); [rewrite Et, app_length, LL; lia|lia|].
  assert (FT : firstn r (skipn 0 t) = last_block r p (skipn (k * r) m)).
  { cbn [skipn]. rewrite Et, firstn_app, LL, Nat.sub_diag. cbn [firstn]. rewrite app_nil_r. apply firstn_all2. lia. }
  rewrite FT in B2.
  eexists. split; [|split; [|split]].
  - unfold keccak. fold n. rewrite E1. cbn [bind].
    etransitivity; [|exact (squeeze_ok r s2 junk Hr H8 H2)].
    destruct (for_each _ (seq 0 (n - k * r)) (repeat 0 200)) as [t1| | |]; cbn [bind] in E2 |- *; try discriminate E2.
    destruct (put t1 _ p) as [t2| | |]; cbn [bind] in E2 |- *; try discriminate E2.
    destruct (at_ t2 _) as [b| | |]; cbn [bind] in E2 |- *; try discriminate E2.
    rewrite E2. cbn [bind]. rewrite E3. reflexivity.
  - rewrite map_length. apply seq_length.
  - apply Forall_forall. intros x Hx. apply in_map_iff in Hx. destruct Hx as (i & <- & _). unfold out_byte, is_byte. apply Z.mod_pos_bound. lia.
  - rewrite squeeze_match by assumption. unfold sponge. cbv zeta.
    assert (EP : (bits_of m ++ suf) ++ pad10s1 (8 * r) (length (bits_of m ++ suf)) = bits_of (firstn (k * r) m) ++ bits_of (last_block r p (skipn (k * r) m))).
    { rewrite (last_bits r p suf _ k (length (bits_of m ++ suf)) Hsuf); [|lia|rewrite app_length, bits_length, Lt; fold n; lia].
      rewrite <- (firstn_skipn (k * r) m) at 1. rewrite bits_app, <- !app_assoc. reflexivity. }
    rewrite EP. assert (L1 : length (bits_of (firstn (k * r) m)) = (k * (8 * r))%nat) by (rewrite bits_length, firstn_length; fold n; nia).
    assert (L2 : length (bits_of (last_block r p (skipn (k * r) m))) = (8 * r)%nat) by (rewrite bits_length, LL; reflexivity).
    replace (length (bits_of (firstn (k * r) m) ++ bits_of (last_block r p (skipn (k * r) m))) / (8 * r))%nat with (k + 1)%nat
      by (rewrite app_length, L1, L2; symmetry; replace (k * (8 * r) + 8 * r)%nat with ((k + 1) * (8 * r))%nat by lia; apply Nat.div_mul; lia).
    rewrite split_snoc by assumption. rewrite fold_left_app. cbn [fold_left].
    rewrite <- firstn_bits. rewrite split_firstn by lia.
    change (fun S P : list bool => f_string (xor_bits S (P ++ repeat false (1600 - 8 * r)))) with (sponge_step (8 * r)). rewrite <- B1.
    rewrite <- B2. reflexivity.
Qed.

(** ** The hash functions *)
Definition digest_of (f : list Z -> list Z -> outcome (list Z)) (m : list Z) (n : nat) (bits : list bool) : Prop :=
  forall junk, length junk = n -> exists h, f junk m = Ok h /\ length h = n /\ all_bytes h /\ bits_of h = bits.
Lemma sha3_256_ok m : all_bytes m -> digest_of sha3_256 m 32 (SHA3 256 (bits_of m)).
Proof.
  intros Hm junk L. destruct (keccak_ok (17 * 8) 6 _ m junk ltac:(lia) eq_refl suffix_6 Hm) as (h & E & L' & B & X). rewrite L in *.
  exists h. split; [exact E|]. split; [exact L'|]. split; [exact B|exact X].
Qed.
Lemma sha3_384_ok m : all_bytes m -> digest_of sha3_384 m 48 (SHA3 384 (bits_of m)).
Proof.
  intros Hm junk L. destruct (keccak_ok (13 * 8) 6 _ m junk ltac:(lia) eq_refl suffix_6 Hm) as (h & E & L' & B & X). rewrite L in *.
  exists h. split; [exact E|]. split; [exact L'|]. split; [exact B|exact X].
Qed.
Lemma sha3_512_ok m : all_bytes m -> digest_of sha3_512 m 64 (SHA3 512 (bits_of m)).
Proof.
  intros Hm junk L. destruct (keccak_ok (9 * 8) 6 _ m junk ltac:(lia) eq_refl suffix_6 Hm) as (h & E & L' & B & X). rewrite L in *.
  exists h. split; [exact E|]. split; [exact L'|]. split; [exact B|exact X].
Qed.
Lemma shake128_ok m n : all_bytes m -> digest_of shake128 m n (SHAKE 256 (8 * n) (bits_of m)).
Proof.
  intros Hm junk L. destruct (keccak_ok (21 * 8) 31 _ m junk ltac:(lia) eq_refl suffix_31 Hm) as (h & E & L' & B & X). rewrite L in *.
  exists h. split; [exact E|]. split; [exact L'|]. split; [exact B|exact X].
Qed.
Lemma shake256_ok m n : all_bytes m -> digest_of shake256 m n (SHAKE 512 (8 * n) (bits_of m)).
Proof.
  intros Hm junk L. destruct (keccak_ok (17 * 8) 31 _ m junk ltac:(lia) eq_refl suffix_31 Hm) as (h & E & L' & B & X). rewrite L in *.
  exists h. split; [exact E|]. split; [exact L'|]. split; [exact B|exact X].
Qed.
