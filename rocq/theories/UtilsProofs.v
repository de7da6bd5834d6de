From Coq Require Import List ZArith Bool Lia PeanoNat Znumtheory.
From Coq Require Import ZifyBool ZifyNat ZifyN.
From Verif Require Import Outcome BitLemmas UtilsModel UtilsSpec.
Import ListNotations.
Open Scope Z_scope.
Ltac Zify.zify_post_hook ::= Z.div_mod_to_equations.

(** *** list helpers *)
Lemma strip_nul_nonul s : Forall (fun c => c <> 0) s -> strip_nul s = s.
Proof.
  unfold strip_nul; intros H.
  destruct (rev s) as [|c t] eqn:E; [reflexivity|].
  assert (In c s) by (apply in_rev; rewrite E; left; reflexivity).
  rewrite Forall_forall in H. specialize (H _ H0).
  destruct c; [contradiction| |]; reflexivity.
Qed.

Lemma strip_nul_snoc s : strip_nul (s ++ [0]) = s.
Proof. unfold strip_nul; rewrite rev_app_distr; cbn. apply rev_involutive. Qed.

(** *** hex digits *)
Lemma hex_digit_char c d : hex_digit c d -> from_hex_char c = Ok d.
Proof.
  intros H; inversion H as [d' Hd|d' Hd|d' Hd]; subst; unfold from_hex_char.
  - replace ((48 <=? 48 + d) && (48 + d <=? 57)) with true by lia. f_equal; lia.
  - replace ((48 <=? 97 + (d - 10)) && (97 + (d - 10) <=? 57)) with false by lia.
    replace ((97 <=? 97 + (d - 10)) && (97 + (d - 10) <=? 102)) with true by lia. f_equal; lia.
  - replace ((48 <=? 65 + (d - 10)) && (65 + (d - 10) <=? 57)) with false by lia.
    replace ((97 <=? 65 + (d - 10)) && (65 + (d - 10) <=? 102)) with false by lia.
    replace ((65 <=? 65 + (d - 10)) && (65 + (d - 10) <=? 70)) with true by lia. f_equal; lia.
Qed.

Lemma char_hex_digit c d : from_hex_char c = Ok d -> hex_digit c d.
Proof.
  unfold from_hex_char.
  destruct ((48 <=? c) && (c <=? 57)) eqn:E1.
  { intros H; injection H as <-. replace c with (48 + (c - 48)) at 1 by lia. constructor; lia. }
  destruct ((97 <=? c) && (c <=? 102)) eqn:E2.
  { intros H; injection H as <-. replace c with (97 + ((c - 97 + 10) - 10)) at 1 by lia. constructor; lia. }
  destruct ((65 <=? c) && (c <=? 70)) eqn:E3.
  { intros H; injection H as <-. replace c with (65 + ((c - 65 + 10) - 10)) at 1 by lia. constructor; lia. }
  discriminate.
Qed.

Lemma from_hex_char_cases c : (exists d, from_hex_char c = Ok d) \/ from_hex_char c = Abort.
Proof. unfold from_hex_char; repeat (destruct (_ && _); [left; eexists; reflexivity|]). right; reflexivity. Qed.

Lemma hex_digit_range c d : hex_digit c d -> 0 <= d < 16 /\ c <> 0.
Proof. intros H; inversion H; subst; lia. Qed.

Lemma not_hex_abort c : ~ is_hex_char c -> from_hex_char c = Abort.
Proof.
  intros H; destruct (from_hex_char_cases c) as [[d E]|E]; [|exact E].
  exfalso; apply H; exists d; apply char_hex_digit; exact E.
Qed.

Lemma lor_nibbles h l : 0 <= h < 16 -> 0 <= l < 16 -> Z.lor ((16 * h) mod 256) l = 16 * h + l.
Proof.
  intros Hh Hl. rewrite Z.mod_small by lia. replace (16 * h) with (h * 2 ^ 4) by (change (2 ^ 4) with 16; lia).
  rewrite lor_mul_add by (change (2 ^ 4) with 16; lia). reflexivity.
Qed.

Lemma hex_loop_ok s b : hex_text s b -> forall room, (length b <= room)%nat -> from_hex_loop s room = Ok b.
Proof.
  induction 1 as [|c d h l s b Hc Hd Hs IH]; intros room Hr; cbn [length] in *.
  - reflexivity.
  - destruct room as [|room]; [lia|]. cbn [from_hex_loop].
    rewrite (hex_digit_char _ _ Hc), (hex_digit_char _ _ Hd); cbn [bind].
    rewrite IH by lia; cbn [bind].
    apply hex_digit_range in Hc; apply hex_digit_range in Hd.
    rewrite lor_nibbles by lia. reflexivity.
Qed.

Lemma hex_text_length s b : hex_text s b -> length s = (2 * length b)%nat.
Proof. induction 1; cbn [length]; lia. Qed.
Lemma hex_text_nonul s b : hex_text s b -> Forall (fun c => c <> 0) s.
Proof.
  induction 1; constructor; [|constructor; [|assumption]];
  match goal with H : hex_digit ?c _ |- ?c <> 0 => apply hex_digit_range in H; lia end.
Qed.
Lemma hex_text_bytes s b : hex_text s b -> all_bytes b.
Proof.
  induction 1; constructor; [|assumption].
  apply hex_digit_range in H; apply hex_digit_range in H0; unfold is_byte; lia.
Qed.

(** every byte string has a text *)
Lemma hex_digit_of d : 0 <= d < 16 -> exists c, hex_digit c d.
Proof. intros; destruct (Z_lt_le_dec d 10); eexists; [apply hex_dec|apply hex_lower]; lia. Qed.
Lemma hex_text_of b : all_bytes b -> exists s, hex_text s b.
Proof.
  induction 1 as [|x l Hx Hl [s IH]].
  - eexists; constructor.
  - destruct (hex_digit_of (x / 16)) as [c Hc]; [unfold is_byte in Hx; lia|].
    destruct (hex_digit_of (x mod 16)) as [d Hd]; [lia|].
    exists (c :: d :: s). replace x with (16 * (x / 16) + x mod 16) by lia. constructor; assumption.
Qed.

(** the text determines the bytes *)
Lemma from_hex_size_nonul s : Forall (fun c => c <> 0) s -> s <> [] -> from_hex_size s = ((length s + 1) / 2)%nat.
Proof. intros H Hn; unfold from_hex_size. rewrite strip_nul_nonul by assumption. destruct s; congruence. Qed.

Lemma from_hex_into_even s b n : hex_text s b -> (length b <= n)%nat -> from_hex_into s n = Ok b.
Proof.
  intros H Hn. pose proof (hex_text_length _ _ H) as HL. pose proof (hex_text_nonul _ _ H) as HN.
  unfold from_hex_into. destruct s as [|c s]; [inversion H; reflexivity|].
  rewrite strip_nul_nonul by assumption.
  replace (Nat.leb ((length (c :: s) + 1) / 2) n) with true by (symmetry; apply Nat.leb_le; lia).
  cbn [check bind].
  replace (Nat.odd (length (c :: s))) with false.
  2:{ rewrite HL. symmetry. rewrite <- Nat.negb_even, Nat.even_mul. reflexivity. }
  apply hex_loop_ok; assumption.
Qed.

Lemma from_hex_into_odd s b n : hex_text_odd s b -> (length b <= n)%nat -> from_hex_into s n = Ok b.
Proof.
  intros H Hn. inversion H as [c h s' b' Hc Hs]; subst.
  pose proof (hex_text_length _ _ Hs) as HL. pose proof (hex_text_nonul _ _ Hs) as HN.
  assert (HN' : Forall (fun c => c <> 0) (c :: s')) by (constructor; [apply hex_digit_range in Hc; lia|assumption]).
  unfold from_hex_into. rewrite strip_nul_nonul by assumption.
  cbn [length] in *.
  replace (Nat.leb ((S (length s') + 1) / 2) n) with true by (symmetry; apply Nat.leb_le; lia).
  cbn [check bind].
  replace (Nat.odd (S (length s'))) with true.
  2:{ rewrite HL. symmetry. rewrite Nat.odd_succ, Nat.even_mul. reflexivity. }
  rewrite (hex_digit_char _ _ Hc); cbn [bind].
  rewrite (hex_loop_ok _ _ Hs) by lia. reflexivity.
Qed.

Lemma from_hex_text s b : hex_text s b -> from_hex s = Ok b.
Proof.
  intros H. pose proof (hex_text_length _ _ H) as HL. pose proof (hex_text_nonul _ _ H) as HN.
  unfold from_hex. destruct b as [|x b].
  - destruct s; [reflexivity|cbn in HL; lia].
  - rewrite from_hex_size_nonul by (first [assumption | destruct s; [cbn in HL; lia | congruence]]).
    replace ((length s + 1) / 2)%nat with (length (x :: b)) by lia. cbn [length].
    rewrite (from_hex_into_even _ _ _ H) by (cbn; lia). cbn [bind length].
    rewrite Nat.eqb_refl. reflexivity.
Qed.

Lemma from_hex_text_odd s b : hex_text_odd s b -> from_hex s = Ok b.
Proof.
  intros H. pose proof H as H0. inversion H as [c h s' b' Hc Hs]; subst.
  pose proof (hex_text_length _ _ Hs) as HL. pose proof (hex_text_nonul _ _ Hs) as HN.
  assert (HN' : Forall (fun c => c <> 0) (c :: s')) by (constructor; [apply hex_digit_range in Hc; lia|assumption]).
  unfold from_hex. rewrite from_hex_size_nonul by (try assumption; congruence).
  cbn [length]. replace ((S (length s') + 1) / 2)%nat with (S (length b')) by lia.
  rewrite (from_hex_into_odd _ _ _ H0) by (cbn; lia). cbn [bind length].
  rewrite Nat.eqb_refl. reflexivity.
Qed.

(** a trailing NUL changes nothing *)
Lemma from_hex_nul s : Forall (fun c => c <> 0) s -> from_hex (s ++ [0]) = from_hex s.
Proof.
  intros H. unfold from_hex, from_hex_size, from_hex_into.
  destruct s as [|c s]; [reflexivity|].
  rewrite strip_nul_snoc, strip_nul_nonul by assumption.
  change ((c :: s) ++ [0]) with (c :: (s ++ [0])). reflexivity.
Qed.

(** bad characters abort *)
Lemma hex_loop_bad s : forall room, (exists c, In c s /\ ~ is_hex_char c) -> (length s <= 2 * room)%nat ->
  from_hex_loop s room = Abort.
Proof.
  revert s. fix IH 1. intros [|c [|d t]] room [x [Hin Hx]] Hr.
  - destruct Hin.
  - destruct room; [cbn in Hr; lia|]. destruct Hin as [-> |[]]. cbn. rewrite not_hex_abort by assumption. reflexivity.
  - destruct room as [|room]; [cbn in Hr; lia|]. cbn [from_hex_loop].
    destruct (from_hex_char_cases c) as [[h Eh]| ->]; [|reflexivity].
    rewrite Eh; cbn [bind].
    destruct (from_hex_char_cases d) as [[l El]| ->]; [|reflexivity].
    rewrite El; cbn [bind].
    destruct Hin as [-> |[-> |Hin]].
    + exfalso; apply Hx; exists h; apply char_hex_digit; assumption.
    + exfalso; apply Hx; exists l; apply char_hex_digit; assumption.
    + rewrite (IH t room); [reflexivity| |cbn in Hr; lia]. exists x; split; assumption.
Qed.

Lemma from_hex_into_bad s n : (exists c, In c (strip_nul s) /\ ~ is_hex_char c) -> from_hex_into s n = Abort.
Proof.
  intros Hbad. unfold from_hex_into. destruct s as [|c0 s0] eqn:Es.
  { destruct Hbad as [c [[] _]]. }
  rewrite <- Es in *. clear Es c0 s0. set (t := strip_nul s) in *.
  destruct (Nat.leb ((length t + 1) / 2) n) eqn:E; [|reflexivity]. cbn [check bind].
  apply Nat.leb_le in E.
  destruct (Nat.odd (length t)) eqn:Eo.
  - destruct t as [|c t']; [discriminate Eo|].
    destruct Hbad as [x [[-> |Hin] Hx]].
    + rewrite not_hex_abort by assumption. reflexivity.
    + destruct (from_hex_char_cases c) as [[h ->]| ->]; [|reflexivity]. cbn [bind].
      rewrite hex_loop_bad; [reflexivity|exists x; tauto|].
      apply Nat.odd_spec in Eo; destruct Eo as [q Eo].
      cbn [length] in *. lia.
  - apply hex_loop_bad; [assumption|]. lia.
Qed.

Lemma from_hex_bad s : (exists c, In c (strip_nul s) /\ ~ is_hex_char c) -> from_hex s = Abort.
Proof.
  intros Hbad. unfold from_hex.
  destruct (from_hex_size s) as [|n] eqn:E.
  - exfalso. unfold from_hex_size in E. destruct s; [destruct Hbad as [? [[] _]]|].
    destruct Hbad as [x [Hin _]]. destruct (strip_nul (z :: s)); [destruct Hin|]. cbn [length] in E. lia.
  - rewrite from_hex_into_bad by assumption. reflexivity.
Qed.

(** destination too small aborts *)
Lemma from_hex_into_small s n : (n < (length (strip_nul s) + 1) / 2)%nat -> from_hex_into s n = Abort.
Proof.
  intros H. unfold from_hex_into. destruct s.
  - cbn in H. lia.
  - replace (Nat.leb ((length (strip_nul (z :: s)) + 1) / 2) n) with false; [reflexivity|].
    symmetry; apply Nat.leb_gt; assumption.
Qed.

Lemma from_hex_into_nofail s n r : from_hex_into s n = Ok r -> (length r <= n)%nat.
Proof.
  assert (HL : forall s room r, from_hex_loop s room = Ok r -> (length r <= room)%nat).
  { clear. fix IH 1. intros [|c [|d t]] [|room] r; cbn; try (intros H; injection H as <-; cbn; lia).
    - destruct (from_hex_char c); cbn; intros H; try discriminate. injection H as <-; cbn; lia.
    - destruct (from_hex_char c); cbn; intros H; try discriminate.
      destruct (from_hex_char d); cbn in H; try discriminate.
      destruct (from_hex_loop t room) eqn:E; cbn in H; try discriminate.
      injection H as <-. apply IH in E. clear IH. cbn; lia. }
  unfold from_hex_into. destruct s as [|c s]; [intros H; injection H as <-; cbn; lia|].
  set (t := strip_nul (c :: s)). clearbody t.
  destruct (Nat.leb ((length t + 1) / 2) n) eqn:E; [|discriminate]. cbn [check bind].
  apply Nat.leb_le in E.
  destruct (Nat.odd (length t)) eqn:Eo.
  - destruct t as [|x t]; [discriminate|].
    destruct (from_hex_char x); cbn [bind]; try discriminate.
    destruct (from_hex_loop t (n - 1)) eqn:EL; cbn [bind]; try discriminate.
    intros H; injection H as <-. apply HL in EL. cbn [length] in *. lia.
  - apply HL.
Qed.

(** fixed-size variant *)
Lemma from_hex_fixed_text N s b : hex_text s b \/ hex_text_odd s b -> (length b <= N)%nat ->
  from_hex_fixed N s = Ok (b ++ repeat 0 (N - length b)).
Proof.
  intros H HN. unfold from_hex_fixed. destruct s as [|c s].
  { destruct H as [H|H]; inversion H; subst; cbn [length app]. rewrite Nat.sub_0_r. reflexivity. }
  assert (HI : forall n, (length b <= n)%nat -> from_hex_into (c :: s) n = Ok b).
  { intros n Hn; destruct H; [apply from_hex_into_even|apply from_hex_into_odd]; assumption. }
  assert (Hs : from_hex_size (c :: s) = length b).
  { destruct H as [H|H].
    - rewrite from_hex_size_nonul by (try congruence; eapply hex_text_nonul; eassumption).
      apply hex_text_length in H. lia.
    - inversion H as [c' h s' b' Hc Hs]; subst.
      rewrite from_hex_size_nonul; try congruence.
      + apply hex_text_length in Hs. cbn [length]. lia.
      + constructor; [apply hex_digit_range in Hc; lia|eapply hex_text_nonul; eassumption]. }
  rewrite Hs. replace (Nat.leb (length b) N) with true by (symmetry; apply Nat.leb_le; assumption).
  cbn [check bind]. destruct N as [|N].
  - destruct b; [reflexivity|cbn in HN; lia].
  - rewrite HI by assumption. cbn [bind]. rewrite Nat.eqb_refl. reflexivity.
Qed.

Lemma from_hex_literal_text s b : hex_text s b -> from_hex_literal s = Ok b.
Proof.
  intros H. unfold from_hex_literal. pose proof (hex_text_length _ _ H).
  replace ((length s + 1) / 2)%nat with (length b) by lia.
  rewrite from_hex_fixed_text with (b := b) by (auto; lia).
  rewrite Nat.sub_diag. cbn. rewrite app_nil_r. reflexivity.
Qed.

(** *** memxor *)
Lemma lxor_byte a b : is_byte a -> is_byte b -> is_byte (Z.lxor a b).
Proof. intros Ha Hb. exact (lxor_range a b 8 ltac:(lia) Ha Hb). Qed.

Lemma lxor_cat a b x y : 0 <= a < 256 -> 0 <= b < 256 ->
  Z.lxor (a + 256 * x) (b + 256 * y) = Z.lxor a b + 256 * Z.lxor x y.
Proof. intros Ha Hb. exact (lxor_split a b x y 8 ltac:(lia) Ha Hb). Qed.

Lemma word_le_lxor a0 a1 a2 a3 b0 b1 b2 b3 :
  is_byte a0 -> is_byte a1 -> is_byte a2 -> is_byte a3 ->
  is_byte b0 -> is_byte b1 -> is_byte b2 -> is_byte b3 ->
  word_le (Z.lxor (le_word a0 a1 a2 a3) (le_word b0 b1 b2 b3)) =
  [Z.lxor a0 b0; Z.lxor a1 b1; Z.lxor a2 b2; Z.lxor a3 b3].
Proof.
  intros. unfold le_word, word_le.
  assert (E : forall a b c d, a + 256 * b + 65536 * c + 16777216 * d = a + 256 * (b + 256 * (c + 256 * d))) by (intros; lia).
  rewrite !E. rewrite !lxor_cat by assumption.
  pose proof (lxor_byte a0 b0); pose proof (lxor_byte a1 b1); pose proof (lxor_byte a2 b2); pose proof (lxor_byte a3 b3).
  unfold is_byte in *. repeat match goal with H : ?A -> ?B -> _ , H1 : ?A, H2 : ?B |- _ => specialize (H H1 H2) end.
  set (x0 := Z.lxor a0 b0) in *; set (x1 := Z.lxor a1 b1) in *; set (x2 := Z.lxor a2 b2) in *; set (x3 := Z.lxor a3 b3) in *.
  clearbody x0 x1 x2 x3. repeat f_equal; lia.
Qed.

Lemma firstn_skipn_cons {A} n (l : list A) : (n <= length l)%nat -> length (firstn n l) = n.
Proof. intros; apply firstn_length_le; assumption. Qed.

(* destruct a list known to have at least 16 elements *)
Lemma map2_app {A B C} (f : A -> B -> C) l1 l2 m1 m2 : length l1 = length l2 ->
  map2 f (l1 ++ m1) (l2 ++ m2) = map2 f l1 l2 ++ map2 f m1 m2.
Proof. revert l2; induction l1; destruct l2; cbn; intros; try lia; [reflexivity|]. rewrite IHl1 by lia. reflexivity. Qed.

Lemma map2_length {A B C} (f : A -> B -> C) l1 l2 : length (map2 f l1 l2) = Nat.min (length l1) (length l2).
Proof. revert l2; induction l1; destruct l2; cbn; auto. Qed.

Lemma load_xor n : forall dst src, (4 * n <= length dst)%nat -> (4 * n <= length src)%nat ->
  all_bytes dst -> all_bytes src ->
  exists x y, load_words n dst = Some x /\ load_words n src = Some y /\
    concat (map word_le (map2 Z.lxor x y)) = map2 Z.lxor (firstn (4 * n) dst) (firstn (4 * n) src).
Proof.
  induction n as [|n IH]; intros dst src Hd Hs Bd Bs.
  - exists [], []; repeat split.
  - destruct dst as [|a0 [|a1 [|a2 [|a3 dst]]]]; try (cbn in Hd; lia).
    destruct src as [|b0 [|b1 [|b2 [|b3 src]]]]; try (cbn in Hs; lia).
    unfold all_bytes in *.
    repeat match goal with H : Forall _ (_ :: _) |- _ => inversion H; subst; clear H end.
    destruct (IH dst src) as (x & y & Ex & Ey & E); try (cbn in Hd, Hs; lia); try assumption.
    cbn [load_words]. rewrite Ex, Ey. eexists _, _; repeat split.
    cbn [map2 map concat]. rewrite word_le_lxor by assumption. rewrite E.
    replace (4 * S n)%nat with (S (S (S (S (4 * n))))) by lia. reflexivity.
Qed.

Lemma Forall_skipn {A} (P : A -> Prop) n l : Forall P l -> Forall P (skipn n l).
Proof. revert l; induction n; intros l H; [exact H|]. destruct l; [constructor|]. inversion H; cbn; auto. Qed.
Lemma Forall_firstn {A} (P : A -> Prop) n l : Forall P l -> Forall P (firstn n l).
Proof. revert l; induction n; intros l H; [constructor|]. destruct l; [constructor|]. inversion H; cbn; constructor; auto. Qed.

Lemma memxor_blocks_ok nb : forall dst src, (16 * nb <= length dst)%nat -> (16 * nb <= length src)%nat ->
  all_bytes dst -> all_bytes src ->
  memxor_blocks nb dst src = Ok (map2 Z.lxor (firstn (16 * nb) dst) (firstn (16 * nb) src)).
Proof.
  induction nb as [|nb IH]; intros dst src Hd Hs Bd Bs; [reflexivity|].
  cbn [memxor_blocks].
  destruct (load_xor 4 dst src) as (x & y & Ex & Ey & E); try lia; try assumption.
  rewrite Ex, Ey, E.
  rewrite IH; cbn [bind]; rewrite ?skipn_length; try lia; try (apply Forall_skipn; assumption).
  change (4 * 4)%nat with 16%nat. replace (16 * S nb)%nat with (16 + 16 * nb)%nat by lia.
  f_equal. rewrite <- map2_app by (rewrite !firstn_length_le by lia; reflexivity).
  assert (Hf : forall (l : list Z), firstn 16 l ++ firstn (16 * nb) (skipn 16 l) = firstn (16 + 16 * nb) l).
  { intros l. rewrite <- (firstn_skipn 16 l) at 3. rewrite firstn_app.
    destruct (Nat.le_ge_cases 16 (length l)).
    - rewrite firstn_length_le by assumption. replace (16 + 16 * nb - 16)%nat with (16 * nb)%nat by lia.
      f_equal. rewrite firstn_firstn. f_equal. lia.
    - rewrite !(skipn_all2 l) by lia. rewrite !firstn_nil, !app_nil_r.
      rewrite firstn_firstn. f_equal. lia. }
  rewrite !Hf. reflexivity.
Qed.

Lemma memxor_tail_ok k : forall dst src, (k <= length dst)%nat -> (k <= length src)%nat ->
  memxor_tail k dst src = Ok (map2 Z.lxor (firstn k dst) (firstn k src) ++ skipn k dst).
Proof.
  induction k as [|k IH]; intros dst src Hd Hs; [reflexivity|].
  destruct dst as [|a dst], src as [|b src]; cbn in Hd, Hs; try lia.
  cbn [memxor_tail]. rewrite IH by lia. reflexivity.
Qed.

Lemma skipn_skipn' {A} a b (l : list A) : skipn a (skipn b l) = skipn (a + b) l.
Proof.
  revert l; induction b as [|b IH]; intros l; [rewrite Nat.add_0_r; reflexivity|].
  destruct l as [|x l]; [rewrite !skipn_nil; reflexivity|].
  rewrite Nat.add_succ_r. cbn [skipn]. apply IH.
Qed.

Lemma memxor_eq dst src num : all_bytes dst -> all_bytes src ->
  let k := Nat.min (Nat.min num (length dst)) (length src) in
  memxor dst src num = Ok (map2 Z.lxor (firstn k dst) (firstn k src) ++ skipn k dst).
Proof.
  intros Bd Bs k. unfold memxor. fold k.
  assert (Hk : (k <= length dst /\ k <= length src)%nat) by lia.
  set (m := (k - k mod 16)%nat).
  assert (Hm : (m = 16 * (k / 16))%nat) by (unfold m; lia).
  assert (Hm16 : (m / 16 = k / 16)%nat) by lia.
  rewrite Hm16.
  rewrite memxor_blocks_ok by (try assumption; lia). rewrite <- Hm. cbn [bind].
  rewrite memxor_tail_ok by (rewrite skipn_length; lia). cbn [bind].
  f_equal. rewrite app_assoc. rewrite <- map2_app by (rewrite !firstn_length_le by lia; reflexivity).
  rewrite skipn_skipn'. replace (k - m + m)%nat with k by lia.
  assert (Hf : forall (l : list Z), (k <= length l)%nat -> firstn m l ++ firstn (k - m) (skipn m l) = firstn k l).
  { intros l Hl. rewrite <- (firstn_skipn m l) at 3. rewrite firstn_app, firstn_length_le by lia.
    rewrite firstn_firstn. rewrite Nat.min_r by lia. reflexivity. }
  rewrite !Hf by lia. reflexivity.
Qed.

Lemma map2_nth {A B C} (f : A -> B -> C) l1 l2 i a b c : (i < length l1)%nat -> (i < length l2)%nat ->
  nth i (map2 f l1 l2) c = f (nth i l1 a) (nth i l2 b).
Proof. revert l2 i; induction l1; destruct l2, i; cbn; intros; try lia; [reflexivity|apply IHl1; lia]. Qed.
Lemma nth_firstn' {A} n (l : list A) i d : (i < n)%nat -> nth i (firstn n l) d = nth i l d.
Proof. revert l i; induction n; destruct l, i; cbn; intros; try lia; try reflexivity. apply IHn; lia. Qed.
Lemma nth_skipn' {A} n (l : list A) i d : nth i (skipn n l) d = nth (n + i) l d.
Proof. revert l; induction n; destruct l; cbn; intros; try reflexivity; [destruct i; reflexivity|apply IHn]. Qed.

Lemma memxor_spec dst src num : all_bytes dst -> all_bytes src ->
  exists out, memxor dst src num = Ok out /\ memxor_result dst src num out.
Proof.
  intros Bd Bs. rewrite memxor_eq by assumption.
  set (k := Nat.min (Nat.min num (length dst)) (length src)).
  assert (Hk : (k <= length dst /\ k <= length src)%nat) by lia.
  eexists; split; [reflexivity|].
  assert (HL : length (map2 Z.lxor (firstn k dst) (firstn k src)) = k).
  { rewrite map2_length, !firstn_length_le by lia. lia. }
  split.
  - rewrite app_length, HL, skipn_length. lia.
  - intros i Hi. destruct (Nat.ltb_spec i (Nat.min num (length src))).
    + rewrite app_nth1 by lia. rewrite map2_nth with (a := 0) (b := 0) by (rewrite firstn_length_le; lia).
      rewrite !nth_firstn' by lia. reflexivity.
    + rewrite app_nth2 by lia. rewrite HL, nth_skipn'. f_equal. lia.
Qed.

Lemma memxor_result_unique dst src num o1 o2 : memxor_result dst src num o1 -> memxor_result dst src num o2 -> o1 = o2.
Proof.
  intros [L1 H1] [L2 H2]. apply nth_ext with (d := 0) (d' := 0); [congruence|].
  intros i Hi. rewrite H1, H2 by lia. reflexivity.
Qed.

Lemma memxor_bytes dst src num out : all_bytes dst -> all_bytes src -> memxor dst src num = Ok out -> all_bytes out.
Proof.
  intros Bd Bs. rewrite memxor_eq by assumption. intros H; injection H as <-.
  apply Forall_app; split; [|apply Forall_skipn; assumption].
  set (k := Nat.min _ _).
  assert (F1 := Forall_firstn is_byte k dst Bd). assert (F2 := Forall_firstn is_byte k src Bs).
  revert F1 F2. generalize (firstn k dst), (firstn k src). clear.
  induction l; intros [|b l0] F1 F2; cbn; try constructor.
  - inversion F1; inversion F2; subst. apply lxor_byte; assumption.
  - inversion F1; inversion F2; subst. apply IHl; assumption.
Qed.

Lemma memxor_involutive dst src num out : all_bytes dst -> all_bytes src ->
  memxor dst src num = Ok out -> memxor out src num = Ok dst.
Proof.
  intros Bd Bs H. pose proof (memxor_bytes _ _ _ _ Bd Bs H) as Bo.
  destruct (memxor_spec dst src num Bd Bs) as (o & E & L & R).
  rewrite H in E; injection E as <-.
  destruct (memxor_spec out src num Bo Bs) as (o2 & E2 & L2 & R2).
  rewrite E2. f_equal. apply nth_ext with (d := 0) (d' := 0); [congruence|].
  intros i Hi. rewrite R2 by lia. rewrite R by lia.
  destruct (Nat.ltb i (Nat.min num (length src))); [|reflexivity].
  rewrite Z.lxor_assoc, Z.lxor_nilpotent, Z.lxor_0_r. reflexivity.
Qed.

(** *** streams *)
Lemma varuint_round fuel : forall v r, 0 <= v < 128 ^ Z.of_nat fuel -> (0 < fuel)%nat ->
  varuint_read fuel (varuint_write fuel v ++ r) = Ok (v, r).
Proof.
  induction fuel as [|f IH]; intros v r Hv Hf; [lia|].
  cbn [varuint_write]. destruct (Z.ltb_spec v 128) as [Hlt|Hge].
  - cbn [app varuint_read]. replace (v <? 128) with true by lia. reflexivity.
  - cbn [app varuint_read]. replace (v mod 128 + 128 <? 128) with false by lia.
    assert (0 < f)%nat.
    { destruct f; [|lia]. exfalso. change (128 ^ Z.of_nat 1) with 128 in Hv. lia. }
    rewrite IH; [cbn [bind]; f_equal; f_equal; lia| |assumption].
    rewrite Nat2Z.inj_succ, Z.pow_succ_r in Hv by lia. split; [lia|]. apply Z.div_lt_upper_bound; lia.
Qed.

Lemma read_write_view b d r : Z.of_nat (length d) < 2 ^ 32 ->
  read_view b (varuint_write 5 (Z.of_nat (length d) mod 2 ^ 32) ++ d ++ r) = Ok (d, r).
Proof.
  intros H. unfold read_view. rewrite Z.mod_small by lia.
  rewrite varuint_round; [|change (128 ^ Z.of_nat 5) with 34359738368; change (2^32) with 4294967296 in *; lia|lia].
  cbn [bind]. rewrite Z.mod_small by lia. rewrite Nat2Z.id.
  rewrite app_length. replace (Nat.leb (length d) (length d + length r)) with true by (symmetry; apply Nat.leb_le; lia).
  rewrite firstn_app, Nat.sub_diag, firstn_all, skipn_app, Nat.sub_diag, skipn_all.
  cbn. rewrite app_nil_r. reflexivity.
Qed.

Lemma write_views_app s ds : exists t, write_views s ds = s ++ t /\ write_views [] ds = t.
Proof.
  revert s. induction ds as [|d ds IH]; intros s.
  - exists []. cbn. rewrite app_nil_r. auto.
  - cbn [write_views]. destruct (IH (write_view s d)) as (t & E & E').
    destruct (IH (write_view [] d)) as (t2 & E2 & E2').
    exists (write_view [] d ++ t). rewrite E2. split; [|congruence].
    rewrite E. unfold write_view. cbn [app]. rewrite <- !app_assoc. reflexivity.
Qed.

Lemma views_round b ds r : Forall (fun d => Z.of_nat (length d) < 2 ^ 32) ds ->
  read_views b (length ds) (write_views [] ds ++ r) = Ok (ds, r).
Proof.
  induction 1 as [|d ds Hd Hds IH]; [reflexivity|].
  cbn [length read_views write_views].
  destruct (write_views_app (write_view [] d) ds) as (t & E & E'). rewrite E. rewrite E' in IH.
  unfold write_view. cbn [app]. rewrite <- !app_assoc. rewrite read_write_view by assumption.
  cbn [bind]. rewrite IH. reflexivity.
Qed.

Lemma read_view_truncated_gen b d k : Z.of_nat (length d) < 2 ^ 32 -> (k < length d)%nat ->
  read_view b (varuint_write 5 (Z.of_nat (length d) mod 2 ^ 32) ++ firstn k d) = if b then Abort else UB.
Proof.
  intros H Hk. unfold read_view. rewrite Z.mod_small by lia.
  rewrite varuint_round; [|change (128 ^ Z.of_nat 5) with 34359738368; change (2^32) with 4294967296 in *; lia|lia].
  cbn [bind]. rewrite Z.mod_small by lia. rewrite Nat2Z.id.
  rewrite firstn_length_le by lia.
  replace (Nat.leb (length d) k) with false by (symmetry; apply Nat.leb_gt; lia). reflexivity.
Qed.

Lemma read_view_consumes b s d r : read_view b s = Ok (d, r) -> exists p, s = p ++ d ++ r.
Proof.
  unfold read_view.
  assert (HV : forall f s v t, varuint_read f s = Ok (v, t) -> exists p, s = p ++ t).
  { clear. induction f; intros s v t; cbn; [discriminate|]. destruct s as [|x s]; [discriminate|].
    destruct (x <? 128).
    - intros H; injection H as <- <-. exists [x]; reflexivity.
    - destruct (varuint_read f s) as [[v' t']| | |] eqn:E; cbn; try discriminate.
      intros H; injection H as <- <-. destruct (IHf _ _ _ E) as [p ->]. exists (x :: p); reflexivity. }
  destruct (varuint_read 5 s) as [[v t]| | |] eqn:E; cbn [bind]; try discriminate.
  destruct (HV _ _ _ _ E) as [p ->].
  destruct (Nat.leb _ _); [|destruct b; discriminate].
  intros H; injection H as <- <-. exists p. rewrite firstn_skipn. reflexivity.
Qed.

Lemma bytes_plus_app a b : bytes_plus a b = a ++ b.
Proof.
  unfold bytes_plus.
  assert (H : forall (l c : list Z), fold_left (fun c x => c ++ [x]) l c = c ++ l).
  { induction l; intros c; cbn; [rewrite app_nil_r; reflexivity|]. rewrite IHl, <- app_assoc. reflexivity. }
  rewrite !H. reflexivity.
Qed.

(** *** equality *)
Lemma std_equal_iff l r : std_equal l r = true <-> l = r.
Proof.
  revert r; induction l as [|a l IH]; destruct r as [|b r]; cbn; try (split; congruence).
  rewrite andb_true_iff, IH, Z.eqb_eq. split; [intros [-> ->]; reflexivity|intros H; injection H; auto].
Qed.

(** spans over one memory: contents are read from the memory at the address *)
Definition span_of (mem : Z -> Z) (s : span) : Prop :=
  forall i, (i < length (sp_data s))%nat -> nth i (sp_data s) 0 = mem (sp_addr s + Z.of_nat i).

Lemma span_eqb_iff mem l r : span_of mem l -> span_of mem r ->
  span_eqb l r = true <-> sp_data l = sp_data r.
Proof.
  intros Hl Hr. unfold span_eqb. destruct (Z.eqb_spec (sp_addr l) (sp_addr r)) as [E|E].
  - rewrite Nat.eqb_eq. split; [|intros ->; reflexivity].
    intros HL. apply nth_ext with (d := 0) (d' := 0); [exact HL|].
    intros i Hi. rewrite Hl, Hr, E by lia. reflexivity.
  - apply std_equal_iff.
Qed.

Lemma rsa_key_eqb_iff mem l r :
  span_of mem (k_mod l) -> span_of mem (k_exp l) -> span_of mem (k_mod r) -> span_of mem (k_exp r) ->
  rsa_key_eqb l r = true <-> sp_data (k_mod l) = sp_data (k_mod r) /\ sp_data (k_exp l) = sp_data (k_exp r).
Proof.
  intros. unfold rsa_key_eqb. rewrite andb_true_iff, !(span_eqb_iff mem) by assumption. tauto.
Qed.

Lemma rsa_pss_key_eqb_iff mem l r :
  span_of mem (pk_mod l) -> span_of mem (pk_exp l) -> span_of mem (pk_mod r) -> span_of mem (pk_exp r) ->
  rsa_pss_key_eqb l r = true <->
  sp_data (pk_mod l) = sp_data (pk_mod r) /\ sp_data (pk_exp l) = sp_data (pk_exp r) /\ pk_salt l = pk_salt r.
Proof.
  intros. unfold rsa_pss_key_eqb. rewrite !andb_true_iff, !(span_eqb_iff mem) by assumption.
  unfold opt_eqb. destruct (pk_salt l), (pk_salt r); rewrite ?Z.eqb_eq; intuition congruence.
Qed.
