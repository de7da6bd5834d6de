(** Proofs for C06: the permutation. *)
From Coq Require Import List ZArith Bool Lia.
From Verif Require Import Outcome UtilsModel UtilsSpec UtilsProofs RsaModel RsaSpec RsaProofs ShaModel ShaSpec ShaProofs KeccakModel KeccakSpec.
Import ListNotations.
Open Scope Z_scope.

Definition is_state (s : list Z) : Prop := length s = 25%nat /\ words s.

Lemma make_state f : is_state (make f).
Proof. split; [reflexivity|]. unfold words, make. apply Forall_forall. intros x Hx. apply in_map_iff in Hx. destruct Hx as (k & <- & _). apply word_w. Qed.
Lemma nth_map_seq {A} (g : nat -> A) n d k : (k < n)%nat -> nth k (map g (seq 0 n)) d = g k.
Proof. intros H. rewrite (nth_indep _ d (g 0%nat)) by (rewrite map_length, seq_length; exact H). rewrite map_nth, seq_nth by exact H. reflexivity. Qed.
Lemma make_ext l f : is_state l -> (forall k z, (k < 25)%nat -> (z < 64)%nat -> Z.testbit (nth k l 0) (Z.of_nat z) = f (k mod 5)%nat (k / 5)%nat z) -> l = make f.
Proof.
  intros [L W] H. apply (nth_ext _ _ 0 0); [exact L|]. intros k Hk. rewrite L in Hk. unfold make. rewrite nth_map_seq by exact Hk.
  apply word_ext; [apply nth_w; exact W|]. intros i Hi. rewrite <- H by lia. rewrite Z2Nat.id by lia. reflexivity.
Qed.
Lemma bit_make f x y z : (x < 5)%nat -> (y < 5)%nat -> (z < 64)%nat -> bit (make f) x y z = f x y z.
Proof.
  intros Hx Hy Hz. unfold bit, make. rewrite nth_map_seq by lia. rewrite word_bit by lia. rewrite Nat2Z.id.
  f_equal; [symmetry; apply Nat.mod_unique with y; lia|symmetry; apply Nat.div_unique with x; lia].
Qed.
Lemma bit_lane l k z : bit l (k mod 5) (k / 5) z = Z.testbit (nth k l 0) (Z.of_nat z).
Proof. unfold bit. rewrite <- (Nat.div_mod k 5) by lia. reflexivity. Qed.
Lemma back_lt z n : (back z n < 64)%nat.
Proof. apply Nat.mod_upper_bound. lia. Qed.

Lemma rotl_w a n : is_w a -> 0 < n < 64 -> is_w (rotl a n).
Proof. intros Ha Hn. apply is_w_lxor; [apply is_w_shl64|apply is_w_shiftr; [exact Ha|lia]]. Qed.
Lemma rotl_bit a n z : is_w a -> 0 < n < 64 -> (z < 64)%nat -> Z.testbit (rotl a n) (Z.of_nat z) = Z.testbit a (Z.of_nat (back z (Z.to_nat n))).
Proof.
  intros Ha Hn Hz. unfold rotl, xor64. rewrite Z.lxor_spec. unfold shl64. rewrite Z.mod_pow2_bits_low by lia. rewrite Z.shiftl_spec by lia. rewrite Z.shiftr_spec by lia.
  destruct (Z.lt_ge_cases (Z.of_nat z) n) as [H|H].
  - rewrite Z.testbit_neg_r by lia. rewrite xorb_false_l. f_equal. unfold back.
    replace (z + 384 - Z.to_nat n)%nat with (z + 64 - Z.to_nat n + 5 * 64)%nat by lia. rewrite Nat.mod_add by lia. rewrite Nat.mod_small by lia. lia.
  - rewrite (bits_small a 64 (Z.of_nat z + (64 - n))) by (try exact Ha; lia). rewrite xorb_false_r. f_equal. unfold back.
    replace (z + 384 - Z.to_nat n)%nat with (z - Z.to_nat n + 6 * 64)%nat by lia. rewrite Nat.mod_add by lia. rewrite Nat.mod_small by lia. lia.
Qed.
Lemma back_mod z n m : (n <= 384)%nat -> (m <= 384)%nat -> (n mod 64 = m mod 64)%nat -> back z n = back z m.
Proof.
  intros Hn Hm E. unfold back. pose proof (Nat.div_mod n 64 ltac:(lia)). pose proof (Nat.div_mod m 64 ltac:(lia)).
  assert (A : forall q r, (64 * q + r <= 384)%nat -> (r < 64)%nat -> ((z + 384 - (64 * q + r)) mod 64 = (z + 64 - r) mod 64)%nat).
  { intros q r Hq Hr. assert (q <= 5 \/ (q = 6 /\ r = 0))%nat as [C|[-> ->]] by lia.
    - replace (z + 384 - (64 * q + r))%nat with (z + 64 - r + (5 - q) * 64)%nat by lia. apply Nat.mod_add. lia.
    - replace (z + 384 - (64 * 6 + 0))%nat with z by lia. replace (z + 64 - 0)%nat with (z + 1 * 64)%nat by lia. symmetry. apply Nat.mod_add. lia. }
  pose proof (A (n / 64)%nat (n mod 64)%nat ltac:(lia) ltac:(apply Nat.mod_upper_bound; lia)) as A1.
  pose proof (A (m / 64)%nat (m mod 64)%nat ltac:(lia) ltac:(apply Nat.mod_upper_bound; lia)) as A2.
  rewrite <- H in A1. rewrite <- H0 in A2. rewrite A1, A2, E. reflexivity.
Qed.
Lemma xor_bit a b i : Z.testbit (xor64 a b) i = xorb (Z.testbit a i) (Z.testbit b i).
Proof. apply Z.lxor_spec. Qed.
Lemma xor_w a b : is_w a -> is_w b -> is_w (xor64 a b).
Proof. apply is_w_lxor. Qed.
Lemma zero_w : is_w 0.
Proof. unfold is_w. lia. Qed.
Lemma and_w a b : is_w a -> is_w b -> is_w (and64 a b).
Proof. apply is_w_land. Qed.
Lemma not_bit a i : is_w a -> 0 <= i < 64 -> Z.testbit (not64 a) i = negb (Z.testbit a i).
Proof.
  intros Ha Hi. replace (not64 a) with (Z.lnot a mod 2 ^ 64).
  2:{ unfold not64, Z.lnot. unfold is_w in Ha. symmetry. apply Z.mod_unique with (-1); lia. }
  rewrite Z.mod_pow2_bits_low by lia. apply Z.lnot_spec. lia.
Qed.
Lemma and_bit a b i : Z.testbit (and64 a b) i = andb (Z.testbit a i) (Z.testbit b i).
Proof. apply Z.land_spec. Qed.

Lemma list25 (s : list Z) : length s = 25%nat -> exists s0 s1 s2 s3 s4 s5 s6 s7 s8 s9 s10 s11 s12 s13 s14 s15 s16 s17 s18 s19 s20 s21 s22 s23 s24,
  s = [s0; s1; s2; s3; s4; s5; s6; s7; s8; s9; s10; s11; s12; s13; s14; s15; s16; s17; s18; s19; s20; s21; s22; s23; s24].
Proof.
  intros L. do 25 (destruct s as [|? s]; [discriminate L|]). destruct s; [|discriminate L]. repeat eexists.
Qed.
Lemma list5 (s : list Z) : length s = 5%nat -> exists s0 s1 s2 s3 s4, s = [s0; s1; s2; s3; s4].
Proof. intros L. do 5 (destruct s as [|? s]; [discriminate L|]). destruct s; [|discriminate L]. repeat eexists. Qed.

Ltac inv_words F := unfold words in F;
  repeat match type of F with Forall _ (_ :: _) => let H := fresh "Hw" in pose proof (Forall_inv F) as H; apply Forall_inv_tail in F end; clear F.
Ltac wtac := first [assumption | apply zero_w | apply xor_w; wtac | apply and_w; wtac | apply is_w_not64; wtac | apply rotl_w; [wtac|lia] ].
Ltac words_tac := repeat (apply Forall_cons; [wtac|]); apply Forall_nil.
Ltac cases25 k Hk := do 25 (destruct k as [|k]; [|]); [..|exfalso; lia].

Lemma theta_ok s B : is_state s -> length B = 5%nat ->
  exists B', parities s B = Ok B' /\ length B' = 5%nat /\ theta_step s B' = Ok (theta s).
Proof.
  intros [L W] LB. destruct (list25 s L) as (s0 & s1 & s2 & s3 & s4 & s5 & s6 & s7 & s8 & s9 & s10 & s11 & s12 & s13 & s14 & s15 & s16 & s17 & s18 & s19 & s20 & s21 & s22 & s23 & s24 & E).
  destruct (list5 B LB) as (b0 & b1 & b2 & b3 & b4 & ->). rewrite E in W. inv_words W.
  eexists. split; [rewrite E; cbv -[xor64 rotl]; reflexivity|]. split; [reflexivity|].
  match goal with |- theta_step _ ?b = _ => set (BB := b) end.
  assert (R : theta_step s BB = Ok (match theta_step s BB with Ok v => v | _ => [] end) ) by (rewrite E; unfold BB; cbv -[xor64 rotl]; reflexivity).
  rewrite R. f_equal. clear R. unfold theta. apply make_ext.
  - split; [rewrite E; unfold BB; cbv -[xor64 rotl]; reflexivity|]. rewrite E; unfold BB; cbv -[xor64 rotl words]. words_tac.
  - intros k z Hk Hz. rewrite E. unfold BB. clear E L BB LB.
    do 25 (destruct k as [|k];
      [cbv -[xor64 rotl Z.testbit xorb back Z.of_nat]; repeat first [rewrite xor_bit | rewrite rotl_bit by (first [wtac|lia])]; change (Z.to_nat 1) with 1%nat; rewrite ?Z.bits_0, ?xorb_false_l, ?xorb_assoc; reflexivity|]). lia.
Qed.
Lemma leb_le' a b : Nat.leb a b = true -> (a <= b)%nat.
Proof. apply Nat.leb_le. Qed.
Lemma back_0 z : (z < 64)%nat -> back z 0 = z.
Proof. intros H. unfold back. replace (z + 384 - 0)%nat with (z + 6 * 64)%nat by lia. rewrite Nat.mod_add, Nat.mod_small by lia. reflexivity. Qed.
Lemma rotl_bit' a n m z : is_w a -> 0 < n < 64 -> (z < 64)%nat -> (m <= 384)%nat -> (Z.to_nat n mod 64 = m mod 64)%nat ->
  Z.testbit (rotl a n) (Z.of_nat z) = Z.testbit a (Z.of_nat (back z m)).
Proof. intros. rewrite rotl_bit by assumption. rewrite (back_mod z (Z.to_nat n) m) by (try assumption; lia). reflexivity. Qed.
Lemma rho_pi_ok s : is_state s -> rho_pi_step s = Ok (pi (rho s)).
Proof.
  intros [L W]. destruct (list25 s L) as (s0 & s1 & s2 & s3 & s4 & s5 & s6 & s7 & s8 & s9 & s10 & s11 & s12 & s13 & s14 & s15 & s16 & s17 & s18 & s19 & s20 & s21 & s22 & s23 & s24 & E).
  rewrite E in W. inv_words W.
  eassert (R : rho_pi_step s = Ok _) by (rewrite E; cbv -[xor64 rotl]; reflexivity).
  rewrite R. clear R. f_equal. unfold pi. apply make_ext.
  - split; [reflexivity|]. words_tac.
  - intros k z Hk Hz. unfold rho. rewrite bit_make; [|apply Nat.mod_upper_bound; lia|apply Nat.mod_upper_bound; lia|exact Hz]. rewrite E. clear E L.
    do 25 (destruct k as [|k];
      [cbv -[rotl Z.testbit back Z.of_nat Z.to_nat]; first [apply rotl_bit'; [assumption|lia|exact Hz|apply leb_le'; vm_compute; reflexivity|vm_compute; reflexivity]
       |rewrite back_0 by exact Hz; reflexivity]|]). lia.
Qed.
Lemma chi_ok s B : is_state s -> length B = 5%nat -> exists B', chi_step s B = Ok (chi s, B') /\ length B' = 5%nat.
Proof.
  intros [L W] LB. destruct (list25 s L) as (s0 & s1 & s2 & s3 & s4 & s5 & s6 & s7 & s8 & s9 & s10 & s11 & s12 & s13 & s14 & s15 & s16 & s17 & s18 & s19 & s20 & s21 & s22 & s23 & s24 & E).
  destruct (list5 B LB) as (b0 & b1 & b2 & b3 & b4 & ->). rewrite E in W. inv_words W.
  exists [s20; s21; s22; s23; s24]. split; [|reflexivity].
  assert (R : chi_step s [b0; b1; b2; b3; b4] = Ok (match chi_step s [b0; b1; b2; b3; b4] with Ok v => fst v | _ => [] end, [s20; s21; s22; s23; s24])) by (rewrite E; cbv -[xor64 and64 not64]; reflexivity).
  rewrite R. f_equal. f_equal. clear R. unfold chi. apply make_ext.
  - split; [rewrite E; cbv -[xor64 and64 not64]; reflexivity|]. rewrite E; cbv -[xor64 and64 not64 words]. words_tac.
  - intros k z Hk Hz. rewrite E. clear E L.
    do 25 (destruct k as [|k];
      [cbv -[xor64 and64 not64 Z.testbit xorb andb Z.of_nat]; rewrite xor_bit, and_bit, not_bit by (first [assumption|lia]); rewrite xorb_true_r; reflexivity|]). lia.
Qed.

(** ** iota *)
Fixpoint iconst (js : list nat) (R : Z) : Z :=
  match js with
  | [] => 0
  | j :: js => Z.lxor (if negb (Z.land (next_R R) 2 =? 0) then Z.shiftl 1 (2 ^ Z.of_nat j - 1) else 0) (iconst js (next_R R))
  end.
Fixpoint iterR (n : nat) (R : Z) : Z := match n with O => R | S n => iterR n (next_R R) end.
Lemma iota_loop js : forall s0 t R,
  for_each (fun j sR => let R := next_R (snd sR) in
    if negb (Z.land R 2 =? 0) then let* s := xor_at (fst sR) 0 (Z.shiftl 1 (2 ^ Z.of_nat j - 1)) in Ok (s, R) else Ok (fst sR, R)) js (s0 :: t, R) =
  Ok (Z.lxor s0 (iconst js R) :: t, iterR (length js) R).
Proof.
  induction js as [|j js IH]; intros s0 t R; [cbn [for_each iconst]; rewrite Z.lxor_0_r; reflexivity|].
  cbn [for_each iconst length iterR fst snd]. cbv zeta. destruct (negb (Z.land (next_R R) 2 =? 0)).
  - change (xor_at (s0 :: t) 0 (Z.shiftl 1 (2 ^ Z.of_nat j - 1))) with (Ok (xor64 s0 (Z.shiftl 1 (2 ^ Z.of_nat j - 1)) :: t)). cbn [bind]. rewrite IH. unfold xor64. rewrite Z.lxor_assoc. reflexivity.
  - cbn [bind]. rewrite IH. rewrite Z.lxor_0_l. reflexivity.
Qed.
Definition R_at (n : nat) : Z := iterR (7 * n) 1.
Lemma iterR_add a b R : iterR (a + b) R = iterR b (iterR a R).
Proof. revert R. induction a; intros R; [reflexivity|]. cbn. apply IHa. Qed.
Lemma rc_table n : (n < 24)%nat -> iconst (seq 0 7) (R_at n) = word (fun z => RC_bit n (Z.to_nat z)).
Proof.
  intros H. assert (T : forallb (fun n => iconst (seq 0 7) (R_at n) =? word (fun z => RC_bit n (Z.to_nat z))) (seq 0 24) = true) by (vm_compute; reflexivity).
  rewrite forallb_forall in T. apply Z.eqb_eq. apply T. apply in_seq. lia.
Qed.
Lemma iota_ok s n : is_state s -> (n < 24)%nat -> iota_step s (R_at n) = Ok (iota n s, R_at (S n)).
Proof.
  intros [L W] Hn. unfold iota_step. destruct s as [|s0 t]; [discriminate L|]. rewrite iota_loop. rewrite seq_length.
  replace (R_at (S n)) with (iterR 7 (R_at n)) by (unfold R_at; rewrite <- iterR_add; f_equal; lia). do 2 f_equal.
  rewrite rc_table by exact Hn. pose proof (Forall_inv W) as W0. unfold iota. apply make_ext.
  - split; [exact L|]. constructor; [apply is_w_lxor; [exact W0|apply word_w]|exact (Forall_inv_tail W)].
  - intros k z Hk Hz. rewrite bit_lane. destruct k as [|k].
    + cbn [nth]. rewrite Z.lxor_spec, word_bit by lia. rewrite Nat2Z.id. reflexivity.
    + assert (E : Nat.eqb (S k mod 5) 0 && Nat.eqb (S k / 5) 0 = false).
      { destruct (Nat.eqb_spec (S k mod 5) 0) as [E1|]; [|reflexivity]. destruct (Nat.eqb_spec (S k / 5) 0) as [E2|]; [|reflexivity].
        pose proof (Nat.div_mod (S k) 5 ltac:(lia)). lia. }
      rewrite E. reflexivity.
Qed.
Lemma round_ok s B n : is_state s -> length B = 5%nat -> (n < 24)%nat ->
  exists B', round_step (s, B, R_at n) = Ok (Rnd s n, B', R_at (S n)) /\ length B' = 5%nat.
Proof.
  intros Hs LB Hn. unfold round_step. destruct (theta_ok s B Hs LB) as (B1 & E1 & L1 & E2). rewrite E1. cbn [bind]. rewrite E2. cbn [bind].
  rewrite rho_pi_ok by apply make_state. cbn [bind]. destruct (chi_ok (pi (rho (theta s))) B1 (make_state _) L1) as (B2 & E3 & L2). rewrite E3. cbn [bind].
  rewrite iota_ok; [|apply make_state|exact Hn]. cbn [bind]. exists B2. split; [reflexivity|exact L2].
Qed.
Lemma Rnd_state s n : is_state (Rnd s n).
Proof. apply make_state. Qed.
Lemma F_ok s : is_state s -> KeccakModel.F s = Ok (Keccak_f s).
Proof.
  intros Hs. unfold KeccakModel.F, Keccak_f.
  assert (G : forall n k s B, (n + k = 24)%nat -> is_state s -> length B = 5%nat ->
    exists B', for_each (fun _ st => round_step st) (seq k n) (s, B, R_at k) = Ok (fold_left Rnd (seq k n) s, B', R_at 24)).
  { induction n as [|n IH]; intros k s' B Hk Hs' LB; [exists B; replace k with 24%nat by lia; reflexivity|].
    cbn [seq for_each fold_left]. destruct (round_ok s' B k Hs' LB ltac:(lia)) as (B1 & E1 & L1). rewrite E1. cbn [bind]. apply IH; [lia|apply Rnd_state|exact L1]. }
  destruct (G 24%nat 0%nat s (repeat 0 5) eq_refl Hs eq_refl) as (B' & E). change (R_at 0) with 1 in E. rewrite E. reflexivity.
Qed.
Lemma fold_state l : forall s, is_state s -> is_state (fold_left Rnd l s).
Proof. induction l as [|n l IH]; intros s Hs; [exact Hs|]. cbn [fold_left]. apply IH. apply Rnd_state. Qed.
Lemma Keccak_f_state s : is_state s -> is_state (Keccak_f s).
Proof. apply fold_state. Qed.
