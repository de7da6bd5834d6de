From Coq Require Import List ZArith Bool Lia PeanoNat.
From Coq Require Import ZifyBool ZifyNat ZifyN.
From Verif Require Import Outcome LoopModel LoopProofs BitLemmas WordsModel WordsSpec WordsProofs DivProofs
  UtilsSpec BigintModel BigintSpec BigintProofs BigintBits.
Import ListNotations.
Open Scope Z_scope.

(** *** big-endian byte strings *)
Lemma be_acc l : forall acc, be_value_acc acc l = acc * 256 ^ Z.of_nat (length l) + be_value l.
Proof.
  unfold be_value. induction l as [|b t IH]; intros acc; [cbn; lia|].
  cbn [be_value_acc length]. rewrite (IH (256 * acc + b)), (IH (256 * 0 + b)).
  rewrite Nat2Z.inj_succ, Z.pow_succ_r by lia. ring.
Qed.
Lemma be_cons b t : be_value (b :: t) = b * 256 ^ Z.of_nat (length t) + be_value t.
Proof. unfold be_value at 1. cbn [be_value_acc]. rewrite be_acc. reflexivity. Qed.
Lemma be_nil : be_value [] = 0. Proof. reflexivity. Qed.
Lemma be_app a b : be_value (a ++ b) = be_value a * 256 ^ Z.of_nat (length b) + be_value b.
Proof.
  induction a as [|x t IH]; [rewrite be_nil; cbn [app]; lia|].
  cbn [app]. rewrite !be_cons, IH, app_length, Nat2Z.inj_add, Z.pow_add_r by lia. ring.
Qed.
Lemma be_range l : all_bytes l -> 0 <= be_value l < 256 ^ Z.of_nat (length l).
Proof.
  induction l as [|b t IH]; intros H; [rewrite be_nil; cbn; lia|].
  inversion H as [|? ? Hb Ht]; subst. specialize (IH Ht). rewrite be_cons. cbn [length]. rewrite Nat2Z.inj_succ, Z.pow_succ_r by lia.
  unfold is_byte in Hb. nia.
Qed.
Lemma be_inj a b : all_bytes a -> all_bytes b -> length a = length b -> be_value a = be_value b -> a = b.
Proof.
  revert b. induction a as [|x a IH]; intros [|y b] Ha Hb HL E; try discriminate HL; [reflexivity|].
  inversion Ha as [|? ? Hx Ha']; inversion Hb as [|? ? Hy Hb']; subst. cbn [length] in HL. injection HL as HL.
  rewrite !be_cons in E. rewrite HL in E. pose proof (be_range a Ha') as Ra. pose proof (be_range b Hb') as Rb. rewrite HL in Ra.
  assert (x = y) by nia. subst y. f_equal. apply IH; try assumption. lia.
Qed.
Lemma bytes_app a b : all_bytes (a ++ b) <-> all_bytes a /\ all_bytes b.
Proof. apply Forall_app. Qed.

(** *** byte swapping *)
Lemma land_byte_at x k : 0 <= k -> Z.land x (Z.shiftl 255 k) = Z.shiftl (Z.land (Z.shiftr x k) 255) k.
Proof.
  intros Hk. apply Z.bits_inj'; intros n Hn. rewrite Z.land_spec.
  destruct (Z_lt_le_dec n k).
  - rewrite !Z.shiftl_spec_low by lia. apply andb_false_r.
  - rewrite !Z.shiftl_spec, Z.land_spec, Z.shiftr_spec by lia. replace (n - k + k) with n by lia. reflexivity.
Qed.

Lemma bswap_spec a b c d : is_byte a -> is_byte b -> is_byte c -> is_byte d ->
  bswap_word (a + 2 ^ 8 * b + 2 ^ 16 * c + 2 ^ 24 * d) = be_value [a; b; c; d].
Proof.
  unfold is_byte. intros Ha Hb Hc Hd. unfold bswap_word. set (x := a + 2 ^ 8 * b + 2 ^ 16 * c + 2 ^ 24 * d).
  change 65280 with (Z.shiftl 255 8). change 16711680 with (Z.shiftl 255 16). change 4278190080 with (Z.shiftl 255 24).
  rewrite !land_byte_at by lia. change 255 with (Z.ones 8). rewrite !Z.land_ones by lia. rewrite !Z.shiftr_div_pow2 by lia.
  assert (E0 : x mod 2 ^ 8 = a) by (symmetry; apply Z.mod_unique with (b + 2 ^ 8 * c + 2 ^ 16 * d); unfold x; lia).
  assert (E1 : (x / 2 ^ 8) mod 2 ^ 8 = b).
  { replace (x / 2 ^ 8) with (b + 2 ^ 8 * c + 2 ^ 16 * d) by (apply Z.div_unique with a; unfold x; lia).
    symmetry; apply Z.mod_unique with (c + 2 ^ 8 * d); lia. }
  assert (E2 : (x / 2 ^ 16) mod 2 ^ 8 = c).
  { replace (x / 2 ^ 16) with (c + 2 ^ 8 * d) by (apply Z.div_unique with (a + 2 ^ 8 * b); unfold x; lia).
    symmetry; apply Z.mod_unique with d; lia. }
  assert (E3 : (x / 2 ^ 24) mod 2 ^ 8 = d).
  { replace (x / 2 ^ 24) with d by (apply Z.div_unique with (a + 2 ^ 8 * b + 2 ^ 16 * c); unfold x; lia).
    apply Z.mod_small; lia. }
  rewrite E0, E1, E2, E3. rewrite !Z.shiftl_mul_pow2 by lia.
  replace (c * 2 ^ 16 / 2 ^ 8) with (c * 2 ^ 8) by (apply Z.div_unique with 0; lia).
  replace (d * 2 ^ 24 / 2 ^ 24) with d by (apply Z.div_unique with 0; lia).
  replace (b * 2 ^ 8 * 2 ^ 8) with (b * 2 ^ 16) by lia.
  rewrite (lor_mul_add a (b * 2 ^ 16) 24) by lia.
  replace (a * 2 ^ 24 + b * 2 ^ 16) with ((a * 2 ^ 8 + b) * 2 ^ 16) by lia.
  rewrite (lor_mul_add _ (c * 2 ^ 8) 16) by lia.
  replace ((a * 2 ^ 8 + b) * 2 ^ 16 + c * 2 ^ 8) with (((a * 2 ^ 8 + b) * 2 ^ 8 + c) * 2 ^ 8) by lia.
  rewrite (lor_mul_add _ d 8) by lia.
  rewrite !be_cons, be_nil. cbn [length]. change (256 ^ Z.of_nat 3) with 16777216. change (256 ^ Z.of_nat 2) with 65536.
  change (256 ^ Z.of_nat 1) with 256. change (256 ^ Z.of_nat 0) with 1. lia.
Qed.

Lemma bytes_word_spec l : all_bytes l -> length l = 4%nat -> bswap_word (le_word l) = be_value l /\ 0 <= be_value l < B.
Proof.
  intros H HL. destruct l as [|a [|b [|c [|d [|? ?]]]]]; try discriminate HL.
  split.
  - unfold le_word. cbn [nth]. repeat match goal with H : all_bytes (_ :: _) |- _ => inversion H; clear H; subst | H : Forall _ (_ :: _) |- _ => inversion H; clear H; subst end.
    apply bswap_spec; assumption.
  - pose proof (be_range _ H) as R. cbn [length] in R. change (256 ^ Z.of_nat 4) with 4294967296 in R. rewrite B_val. exact R.
Qed.

Lemma left_word_spec l : all_bytes l -> (1 <= length l <= 3)%nat -> left_word 0 l = be_value l /\ 0 <= be_value l < B.
Proof.
  intros H HL. split.
  - destruct l as [|a [|b [|c [|d ?]]]]; cbn [length] in HL; try lia;
    repeat match goal with H : all_bytes (_ :: _) |- _ => inversion H; clear H; subst | H : Forall _ (_ :: _) |- _ => inversion H; clear H; subst end;
    unfold is_byte in *; cbn [left_word length Z.of_nat]; rewrite !be_cons, be_nil; cbn [length]; rewrite Z.lor_0_l.
    + change (8 * (0 mod 4)) with 0. rewrite Z.shiftl_0_r. cbn; lia.
    + change (8 * (Z.pos (Pos.of_succ_nat 0) mod 4)) with 8. change (8 * (0 mod 4)) with 0. rewrite Z.shiftl_0_r.
      rewrite Z.shiftl_mul_pow2, (lor_mul_add a b 8) by lia. change (256 ^ Z.of_nat 1) with 256. change (256 ^ Z.of_nat 0) with 1. lia.
    + change (8 * (Z.pos (Pos.of_succ_nat 1) mod 4)) with 16. change (8 * (Z.pos (Pos.of_succ_nat 0) mod 4)) with 8. change (8 * (0 mod 4)) with 0. rewrite Z.shiftl_0_r.
      rewrite !Z.shiftl_mul_pow2, (lor_mul_add a (b * 2 ^ 8) 16) by lia.
      replace (a * 2 ^ 16 + b * 2 ^ 8) with ((a * 2 ^ 8 + b) * 2 ^ 8) by lia. rewrite (lor_mul_add _ c 8) by lia.
      change (256 ^ Z.of_nat 2) with 65536. change (256 ^ Z.of_nat 1) with 256. change (256 ^ Z.of_nat 0) with 1. lia.
  - pose proof (be_range _ H) as R. rewrite B_val. change 4294967296 with (256 ^ 4).
    pose proof (Z.pow_le_mono_r 256 (Z.of_nat (length l)) 4 ltac:(lia) ltac:(lia)). lia.
Qed.

Lemma bytes_firstn n l : all_bytes l -> all_bytes (firstn n l). Proof. intros H. rewrite <- (firstn_skipn n l) in H. apply bytes_app in H. tauto. Qed.
Lemma bytes_skipn n l : all_bytes l -> all_bytes (skipn n l). Proof. intros H. rewrite <- (firstn_skipn n l) in H. apply bytes_app in H. tauto. Qed.

(** the whole words of [set_bytes] *)
Lemma word_groups k : forall p d, all_bytes d -> all_bytes p -> length d = (4 * k)%nat ->
  let ws := map (bytes_word (p ++ d) (length p) k) (seq 0 k) in
  all_words ws /\ length ws = k /\ eval ws = be_value d.
Proof.
  induction k as [|k IH]; intros p d Hd Hp HL; cbv zeta.
  - destruct d; [|discriminate HL]. cbn [seq map length]. repeat split; constructor.
  - set (d' := firstn (4 * k) d). set (e := skipn (4 * k) d).
    assert (Ed : d = d' ++ e) by (symmetry; apply firstn_skipn).
    assert (Ld : length d' = (4 * k)%nat) by (apply firstn_length_le; lia).
    assert (Le : length e = 4%nat) by (unfold e; rewrite skipn_length; lia).
    assert (Bd : all_bytes d') by (apply bytes_firstn; assumption).
    assert (Be : all_bytes e) by (apply bytes_skipn; assumption).
    destruct (bytes_word_spec e Be Le) as (Ee & Re).
    destruct (IH p d' Bd Hp Ld) as (Wr & Lr & Er). cbv zeta in *.
    cbn [seq map]. rewrite <- seq_shift, map_map.
    assert (E0 : bytes_word (p ++ d) (length p) (S k) 0 = be_value e).
    { unfold bytes_word. replace (length p + 4 * (S k - 0 - 1))%nat with (length (p ++ d')) by (rewrite app_length; lia).
      rewrite Ed, app_assoc, skipn_app, skipn_all, Nat.sub_diag. cbn [app skipn]. rewrite firstn_all2 by lia. exact Ee. }
    assert (Em : map (fun i => bytes_word (p ++ d) (length p) (S k) (S i)) (seq 0 k) = map (bytes_word (p ++ d') (length p) k) (seq 0 k)).
    { apply map_ext_in. intros i Hi. apply in_seq in Hi. unfold bytes_word.
      replace (S k - S i - 1)%nat with (k - i - 1)%nat by lia. do 2 f_equal.
      rewrite Ed, app_assoc, skipn_app.
      assert (Hle : (length p + 4 * (k - i - 1) + 4 <= length (p ++ d'))%nat) by (rewrite app_length; lia).
      rewrite firstn_app, (skipn_length _ (p ++ d')).
      replace (4 - (length (p ++ d') - (length p + 4 * (k - i - 1))))%nat with 0%nat by lia.
      rewrite firstn_O, app_nil_r. reflexivity. }
    rewrite E0, Em. split; [apply words_cons; auto|]. split; [cbn [length]; congruence|].
    rewrite eval_cons, Er, Ed, be_app, Le, B_val. change (256 ^ Z.of_nat 4) with 4294967296. lia.
Qed.

Definition set_words (data : list Z) : list Z :=
  let n_words := Nat.div (length data) 4 in
  let n_left := Nat.modulo (length data) 4 in
  let lo := map (bytes_word data n_left n_words) (seq 0 n_words) in
  if Nat.eqb n_left 0 then lo else lo ++ [left_word 0 (firstn n_left data)].

Lemma set_words_spec d : all_bytes d -> all_words (set_words d) /\ length (set_words d) = Nat.div (length d + 3) 4 /\ eval (set_words d) = be_value d.
Proof.
  intros Hd. unfold set_words. pose proof (Nat.div_mod (length d) 4 ltac:(lia)) as E. pose proof (Nat.mod_upper_bound (length d) 4 ltac:(lia)) as Hm.
  set (k := (length d / 4)%nat) in *. set (r := (length d mod 4)%nat) in *.
  set (p := firstn r d). set (e := skipn r d).
  assert (Ed : d = p ++ e) by (symmetry; apply firstn_skipn).
  assert (Lp : length p = r) by (apply firstn_length_le; lia).
  assert (Le : length e = (4 * k)%nat) by (unfold e; rewrite skipn_length; lia).
  assert (Bp : all_bytes p) by (apply bytes_firstn; assumption).
  assert (Be : all_bytes e) by (apply bytes_skipn; assumption).
  destruct (word_groups k p e Be Bp Le) as (W & L & Ev). cbv zeta in *. rewrite <- Ed, Lp in *.
  assert (Hdiv : ((length d + 3) / 4 = if Nat.eqb r 0 then k else k + 1)%nat).
  { symmetry. destruct (Nat.eqb_spec r 0).
    - apply Nat.div_unique with 3%nat; lia.
    - apply Nat.div_unique with (r - 1)%nat; lia. }
  destruct (Nat.eqb_spec r 0) as [R0|R0].
  - split; [exact W|]. split; [congruence|]. rewrite Ev. assert (H : p = []) by (apply length_zero_iff_nil; lia).
    rewrite Ed, H. reflexivity.
  - destruct (left_word_spec p Bp ltac:(lia)) as (El & Rl). rewrite El.
    split; [apply words_app; split; [exact W|apply words_cons; split; [exact Rl|constructor]]|].
    split; [rewrite app_length; cbn [length]; lia|].
    rewrite eval_snoc, Ev, L, Ed, be_app, Le. rewrite Bn_pow2. change 256 with (2 ^ 8). rewrite <- Z.pow_mul_r by lia.
    replace (8 * Z.of_nat (4 * k)) with (32 * Z.of_nat k) by lia. lia.
Qed.

Lemma set_bytes_spec c z d : storage_ok c z -> all_bytes d -> room c (Nat.max 1 (Nat.div (length d + 3) 4)) ->
  exists r, set_bytes c z d = (true, r) /\ canonical c r /\ value r = be_value d.
Proof.
  intros Hz Hd Hr. unfold set_bytes.
  destruct (Nat.eqb_spec (length d) 0) as [E|E].
  - destruct d; [|discriminate E]. eexists; split; [reflexivity|].
    destruct (clear_spec c (set_neg z false) Hz) as (? & ? & ? & _); [apply room_le with (2 := Hr) || (eapply room_le; [exact Hr|lia])|].
    split; [assumption|]. rewrite be_nil. assumption.
  - assert (Hr' : room c ((length d + 3) / 4)%nat) by (eapply room_le; [exact Hr|lia]).
    rewrite (proj1 (room_can c _) Hr'). cbn [negb].
    eexists; split; [reflexivity|]. fold (set_words d).
    destruct (set_words_spec d Hd) as (W & L & Ev).
    assert (H1 : (1 <= (length d + 3) / 4)%nat) by (apply Nat.div_le_lower_bound; lia).
    destruct (put_trim_spec c z (set_words d) false Hz W) as (Hv & Hm & Hn & _).
    { apply nonempty_length. lia. }
    { rewrite L. assumption. }
    rewrite L in *.
    assert (Hn' : neg (trim (set_neg (put z (set_words d)) false) ((length d + 3) / 4)) = false) by (rewrite Hn; destruct (_ =? 0); reflexivity).
    split; [split; [exact Hv|intros _; exact Hn']|]. rewrite value_sgn, Hn', Hm. exact Ev.
Qed.

Lemma set_bytes_fail c z d : ~ room c (Nat.div (length d + 3) 4) -> fst (set_bytes c z d) = false.
Proof.
  intros Hr. unfold set_bytes. destruct (Nat.eqb_spec (length d) 0) as [E|E].
  - exfalso. apply Hr. rewrite E. change ((0 + 3) / 4)%nat with 0%nat. destruct c; cbn; [lia|exact I].
  - rewrite room_can in Hr. destruct (can_resize c ((length d + 3) / 4)); [congruence|]. reflexivity.
Qed.

Lemma of_bytes_spec c d : all_bytes d -> room c (Nat.max 1 (Nat.div (length d + 3) 4)) ->
  exists r, of_bytes c d = Ok r /\ canonical c r /\ value r = be_value d.
Proof.
  intros Hd Hr. unfold of_bytes. destruct (set_bytes_spec c (fresh c) d (storage0_ok c) Hd Hr) as (r & -> & ? & ?).
  cbn [check bind]. eauto.
Qed.

(** the constant-evaluated path *)
Lemma convert_word a b c d : is_byte a -> is_byte b -> is_byte c -> is_byte d ->
  Z.lor (Z.lor (Z.lor a (Z.shiftl b 8)) (Z.shiftl c 16)) (Z.shiftl d 24) = be_value [d; c; b; a].
Proof.
  unfold is_byte. intros. rewrite !Z.shiftl_mul_pow2 by lia.
  rewrite (lor_add_mul b a 8), (lor_add_mul c (b * 2 ^ 8 + a) 16), (lor_add_mul d (c * 2 ^ 16 + (b * 2 ^ 8 + a)) 24) by lia.
  rewrite !be_cons, be_nil. cbn [length]. change (256 ^ Z.of_nat 3) with 16777216. change (256 ^ Z.of_nat 2) with 65536.
  change (256 ^ Z.of_nat 1) with 256. change (256 ^ Z.of_nat 0) with 1. lia.
Qed.

Lemma byte_nth l n : all_bytes l -> is_byte (nth n l 0).
Proof. intros H. destruct (Nat.lt_ge_cases n (length l)); [apply Forall_nth; assumption|]. rewrite nth_overflow by lia. unfold is_byte. lia. Qed.

Lemma be_repeat0 n l : be_value (repeat 0 n ++ l) = be_value l.
Proof. induction n; [reflexivity|]. cbn [repeat app]. rewrite be_cons, IHn. lia. Qed.

Lemma rev_pad (s : list Z) : rev (firstn 4 s) = skipn (4 - Nat.min 4 (length s)) (rev [nth 0 s 0; nth 1 s 0; nth 2 s 0; nth 3 s 0]) /\
  be_value (rev (firstn 4 s)) = be_value [nth 3 s 0; nth 2 s 0; nth 1 s 0; nth 0 s 0].
Proof.
  destruct s as [|a [|b [|c [|d t]]]]; cbn; split; try reflexivity; unfold be_value; cbn; lia.
Qed.

Lemma convert_words_spec n : forall s, all_bytes s -> (length s <= 4 * n)%nat ->
  all_words (convert_words n s) /\ length (convert_words n s) = n /\ eval (convert_words n s) = be_value (rev s).
Proof.
  induction n as [|n IH]; intros s Hs HL.
  - destruct s; [|cbn in HL; lia]. repeat split; constructor.
  - cbn [convert_words]. rewrite convert_word by (apply byte_nth; assumption).
    destruct (IH (skipn 4 s) (bytes_skipn 4 s Hs)) as (W & L & E). { rewrite skipn_length. lia. }
    destruct (rev_pad s) as (_ & Er).
    assert (Rw : 0 <= be_value [nth 3 s 0; nth 2 s 0; nth 1 s 0; nth 0 s 0] < B).
    { pose proof (be_range [nth 3 s 0; nth 2 s 0; nth 1 s 0; nth 0 s 0]) as R. cbn [length] in R. change (256 ^ Z.of_nat 4) with 4294967296 in R.
      rewrite B_val. apply R. repeat constructor; apply byte_nth; assumption. }
    split; [apply words_cons; auto|]. split; [cbn [length]; congruence|].
    rewrite eval_cons, E. assert (Es : be_value (rev s) = be_value (rev (firstn 4 s ++ skipn 4 s))) by (rewrite firstn_skipn; reflexivity).
    rewrite Es, rev_app_distr, be_app, rev_length, Er, B_val.
    destruct (Nat.le_gt_cases 4 (length s)).
    + rewrite firstn_length_le by lia. change (256 ^ Z.of_nat 4) with 4294967296. lia.
    + rewrite skipn_all2 by lia. cbn [rev]. rewrite be_nil. lia.
Qed.

Lemma set_array_be_spec c z d : storage_ok c z -> all_bytes d -> room c (Nat.max 1 (Nat.div (length d + 3) 4)) ->
  exists r, set_array_be c z d = (true, r) /\ canonical c r /\ value r = be_value d.
Proof.
  intros Hz Hd Hr. unfold set_array_be.
  destruct (Nat.eqb_spec (length d) 0) as [E|E].
  - destruct d; [|discriminate E]. eexists; split; [reflexivity|].
    destruct (clear_spec c (set_neg z false) Hz) as (? & ? & ? & _); [eapply room_le; [exact Hr|lia]|].
    split; [assumption|]. rewrite be_nil. assumption.
  - assert (Hr' : room c ((length d + 3) / 4)%nat) by (eapply room_le; [exact Hr|lia]).
    rewrite (proj1 (room_can c _) Hr'). cbn [negb]. unfold convert_array_be.
    pose proof (Nat.div_mod (length d + 3) 4 ltac:(lia)) as Edm. pose proof (Nat.mod_upper_bound (length d + 3) 4 ltac:(lia)).
    set (k := ((length d + 3) / 4)%nat) in *.
    destruct (Nat.ltb_spec (4 * k) (length d)); [lia|].
    assert (Hrev : all_bytes (rev d)) by (apply Forall_rev; assumption).
    destruct (convert_words_spec k (rev d) Hrev) as (W & L & Ev). { rewrite rev_length. lia. }
    rewrite rev_involutive in Ev. eexists; split; [reflexivity|].
    assert (H1 : (1 <= k)%nat) by lia.
    destruct (put_trim_spec c z (convert_words k (rev d)) false Hz W) as (Hv & Hm & Hn & _).
    { apply nonempty_length. lia. }
    { rewrite L. assumption. }
    rewrite L in *.
    assert (Hn' : neg (trim (set_neg (put z (convert_words k (rev d))) false) k) = false) by (rewrite Hn; destruct (_ =? 0); reflexivity).
    split; [split; [exact Hv|intros _; exact Hn']|]. rewrite value_sgn, Hn', Hm. exact Ev.
Qed.

(** *** export *)
Lemma byte_at_spec c x b : valid c x -> 0 <= b < 4 * Z.of_nat (size x) -> byte_at x b = (magnitude x / 256 ^ b) mod 256.
Proof.
  intros Hx Hb. unfold byte_at. destruct (words_valid c x Hx) as (Wx & Lx & Nx). pose proof Hx as (_ & Hs & _).
  change 256 with (2 ^ 8). rewrite <- Z.pow_mul_r, <- Z.shiftr_div_pow2 by lia. rewrite <- !Z.land_ones by lia.
  pose proof (Z.div_mod b 4 ltac:(lia)) as E. pose proof (Z.mod_pos_bound b 4 ltac:(lia)).
  apply Z.bits_inj'; intros i Hi. rewrite !Z.land_spec.
  destruct (Z_lt_le_dec i 8) as [H8|H8]; [|rewrite Z.ones_spec_high by lia; rewrite !andb_false_r; reflexivity].
  rewrite Z.ones_spec_low by lia. rewrite !andb_true_r. rewrite !Z.shiftr_spec by lia.
  rewrite magnitude_words, eval_testbit by (try assumption; lia).
  replace ((i + 8 * b) / 32) with (b / 4) by (apply Z.div_unique with (8 * (b mod 4) + i); lia).
  replace ((i + 8 * b) mod 32) with (i + 8 * (b mod 4)) by (apply Z.mod_unique with (b / 4); lia).
  rewrite nth_words by lia. reflexivity.
Qed.

Definition digits (m : Z) (n : nat) : list Z := map (fun i => (m / 256 ^ (Z.of_nat n - 1 - Z.of_nat i)) mod 256) (seq 0 n).

Lemma digits_S m n : digits m (S n) = ((m / 256 ^ Z.of_nat n) mod 256) :: digits m n.
Proof.
  unfold digits. cbn [seq map]. f_equal.
  - replace (Z.of_nat (S n) - 1 - Z.of_nat 0) with (Z.of_nat n) by lia. reflexivity.
  - rewrite <- seq_shift, map_map. apply map_ext. intros i. replace (Z.of_nat (S n) - 1 - Z.of_nat (S i)) with (Z.of_nat n - 1 - Z.of_nat i) by lia. reflexivity.
Qed.

Lemma digits_spec m n : all_bytes (digits m n) /\ length (digits m n) = n /\ be_value (digits m n) = m mod 256 ^ Z.of_nat n.
Proof.
  induction n as [|n (IH1 & IH2 & IH3)].
  - repeat split; [constructor|]. cbn. rewrite Z.mod_1_r. reflexivity.
  - rewrite digits_S. split; [constructor; [apply Z.mod_pos_bound; lia|exact IH1]|]. split; [cbn [length]; congruence|].
    rewrite be_cons, IH2, IH3, Nat2Z.inj_succ, Z.pow_succ_r by lia.
    rewrite (Z.mul_comm 256), Z.rem_mul_r by (try lia; apply Z.pow_nonzero; lia). lia.
Qed.

Lemma digits_be l : all_bytes l -> digits (be_value l) (length l) = l.
Proof.
  intros H. destruct (digits_spec (be_value l) (length l)) as (A & L & E). apply be_inj; try assumption.
  rewrite E. apply Z.mod_small. apply be_range; assumption.
Qed.

Lemma bytes_of_spec c x : valid c x ->
  all_bytes (bytes_of x) /\ Z.of_nat (length (bytes_of x)) = byte_length x /\ be_value (bytes_of x) = magnitude x /\
  bytes_of x = digits (magnitude x) (Z.to_nat (byte_length x)).
Proof.
  intros Hx. destruct (byte_length_bounds c x Hx) as (H1 & H2 & H3).
  assert (Hlen : byte_length x <= 4 * Z.of_nat (size x)).
  { destruct (Z_le_gt_dec (byte_length x) (4 * Z.of_nat (size x))) as [|Hgt]; [assumption|].
    pose proof Hx as (_ & Hs & _). specialize (H3 ltac:(lia)). pose proof (magnitude_range c x Hx) as R. rewrite Bn_pow2 in R.
    change 256 with (2 ^ 8) in H3. rewrite <- Z.pow_mul_r in H3 by lia.
    pose proof (Z.pow_le_mono_r 2 (32 * Z.of_nat (size x)) (8 * (byte_length x - 1)) ltac:(lia) ltac:(lia)). lia. }
  assert (E : bytes_of x = digits (magnitude x) (Z.to_nat (byte_length x))).
  { unfold bytes_of, digits. apply map_ext_in. intros i Hi. apply in_seq in Hi.
    rewrite (byte_at_spec c) by (try assumption; lia). rewrite Z2Nat.id by lia. reflexivity. }
  destruct (digits_spec (magnitude x) (Z.to_nat (byte_length x))) as (A & L & Ev).
  rewrite E. split; [exact A|]. split; [rewrite L; lia|]. split; [|reflexivity]. rewrite Ev, Z2Nat.id by lia.
  apply Z.mod_small. pose proof (magnitude_range c x Hx). lia.
Qed.

Lemma strip0_spec d : all_bytes d -> all_bytes (strip0 d) /\ be_value (strip0 d) = be_value d /\
  (length (strip0 d) = 1%nat \/ 256 ^ (Z.of_nat (length (strip0 d)) - 1) <= be_value d) /\ (1 <= length (strip0 d))%nat.
Proof.
  induction d as [|b t IH]; intros H.
  - cbn. repeat split; [constructor; [unfold is_byte; lia|constructor]|auto|lia].
  - inversion H as [|? ? Hb Ht]; subst. specialize (IH Ht). pose proof (be_range t Ht).
    cbn [strip0]. destruct t as [|b' t'].
    + cbn [length]. repeat split; auto.
    + destruct (Z.eqb_spec b 0) as [->|Hne].
      * rewrite be_cons. destruct IH as (A & E & L & L1). repeat split; try assumption; try lia.
      * split; [assumption|]. split; [reflexivity|]. split; [|cbn [length]; lia]. right. unfold is_byte in Hb.
        rewrite be_cons. set (t := b' :: t') in *. replace (Z.of_nat (length (b :: t)) - 1) with (Z.of_nat (length t)) by (cbn [length]; lia). nia.
Qed.

Lemma to_bytes_of_bytes c d r : all_bytes d -> valid c r -> magnitude r = be_value d -> to_bytes r = strip0 d.
Proof.
  intros Hd Hr E. unfold to_bytes. destruct (bytes_of_spec c r Hr) as (A & L & Ev & _). destruct (strip0_spec d Hd) as (A' & E' & L' & L1).
  apply be_inj; try assumption; [|congruence].
  destruct (byte_length_bounds c r Hr) as (H1 & H2 & H3). rewrite <- L in *. rewrite E in *.
  pose proof (be_range _ A') as R. rewrite E' in R.
  assert (Hm : forall a b, 1 < a -> 256 ^ (a - 1) <= be_value d -> be_value d < 256 ^ b -> 0 <= b -> a <= b).
  { intros a b Ha Hl Hu Hb. assert (a - 1 < b); [|lia]. apply (Z.pow_lt_mono_r_iff 256); lia. }
  destruct (Z.eq_dec (Z.of_nat (length (strip0 d))) 1) as [E1|E1]; destruct (Z.eq_dec (Z.of_nat (length (bytes_of r))) 1) as [E2|E2].
  - lia.
  - specialize (Hm (Z.of_nat (length (bytes_of r))) (Z.of_nat (length (strip0 d))) ltac:(lia) ltac:(apply H3; lia) ltac:(lia) ltac:(lia)). lia.
  - destruct L' as [L'|L']; [lia|]. specialize (Hm (Z.of_nat (length (strip0 d))) (Z.of_nat (length (bytes_of r))) ltac:(lia) ltac:(lia) ltac:(lia) ltac:(lia)). lia.
  - destruct L' as [L'|L']; [lia|].
    pose proof (Hm (Z.of_nat (length (strip0 d))) (Z.of_nat (length (bytes_of r))) ltac:(lia) ltac:(lia) ltac:(lia) ltac:(lia)).
    pose proof (Hm (Z.of_nat (length (bytes_of r))) (Z.of_nat (length (strip0 d))) ltac:(lia) ltac:(apply H3; lia) ltac:(lia) ltac:(lia)). lia.
Qed.

Lemma get_bytes_spec c x buf : valid c x ->
  match get_bytes x buf with
  | Some out => byte_length x <= Z.of_nat (length buf) /\ out = to_bytes x ++ skipn (length (to_bytes x)) buf /\ length out = length buf
  | None => Z.of_nat (length buf) < byte_length x
  end.
Proof.
  intros Hx. unfold get_bytes, to_bytes. destruct (bytes_of_spec c x Hx) as (_ & L & _). destruct (byte_length_bounds c x Hx) as (H1 & _).
  destruct (Z.ltb_spec (Z.of_nat (length buf)) (byte_length x)); [assumption|].
  split; [lia|]. replace (Z.to_nat (byte_length x)) with (length (bytes_of x)) by lia. split; [reflexivity|].
  rewrite app_length, skipn_length. lia.
Qed.

Lemma get_array_spec c x n : valid c x -> (size x <= n)%nat ->
  exists l, get_array x n = Some l /\ length l = n /\ eval l = magnitude x.
Proof.
  intros Hx Hn. unfold get_array. destruct (words_valid c x Hx) as (Wx & Lx & Nx).
  destruct (Nat.ltb_spec n (size x)); [lia|]. eexists; split; [reflexivity|].
  rewrite app_length, repeat_length, eval_app, eval_repeat0, magnitude_words. split; lia.
Qed.

(** *** non-adjacent form *)
Lemma naf_value_app a d : naf_value (a ++ [d]) = naf_value a + 2 ^ Z.of_nat (length a) * d.
Proof.
  induction a as [|x t IH]; [cbn [app naf_value length]; change (2 ^ Z.of_nat 0) with 1; lia|]. cbn [app naf_value length]. rewrite IH, Nat2Z.inj_succ, Z.pow_succ_r by lia. ring.
Qed.

Lemma non_adjacent_app a d : non_adjacent a -> (last a 0 = 0 \/ d = 0) -> non_adjacent (a ++ [d]).
Proof.
  induction a as [|x t IH]; [cbn; auto|]. intros H Hl. destruct t as [|y t].
  - cbn in *. tauto.
  - change ((x :: y :: t) ++ [d]) with (x :: (y :: t) ++ [d]). cbn [non_adjacent app] in *. destruct H as [H1 H2]. split; [exact H1|].
    apply IH; [exact H2|]. exact Hl.
Qed.

Lemma shr1_val c x : valid c x -> valid c (shr x x 1) /\ value (shr x x 1) = Z.quot (value x) 2 /\ (neg x = false -> neg (shr x x 1) = false).
Proof.
  intros Hx. destruct (shr_spec c x x 1 (valid_storage _ _ Hx) Hx ltac:(lia)) as (Hv & E & _ & Hn & _).
  split; [exact Hv|]. split; [exact E|]. intros H. destruct (neg (shr x x 1)) eqn:En; [|reflexivity]. rewrite (Hn eq_refl) in H. discriminate.
Qed.

Lemma to_naf_spec c x : valid c x -> neg x = false -> room c (size x + 1) ->
  exists l, to_naf c x = Ok l /\ is_naf l (value x).
Proof.
  intros Hx Hneg Hroom. unfold to_naf. pose proof (valid_room1 c x Hx) as Hr1.
  pose proof Hx as (_ & Hs & _).
  apply (run_loop_ind (naf_step c)
    (fun s => let '(num, acc) := s in valid c num /\ neg num = false /\ 0 <= value num <= value x /\
       naf_value acc + 2 ^ Z.of_nat (length acc) * value num = value x /\
       Forall (fun d => d = -1 \/ d = 0 \/ d = 1) acc /\ non_adjacent acc /\
       (last acc 0 = 0 \/ Z.odd (value num) = false) /\ (value num = 0 -> acc = [] \/ last acc 0 = 1))
    (fun o => exists l, o = Ok l /\ is_naf l (value x))
    (fun s => value (fst s))).
  - intros [num acc] H. cbn [fst]. lia.
  - intros [num acc] (Hv & Hn & Hval & Hsum & Hdig & Hadj & Hpar & Hend). unfold naf_step.
    pose proof (compareu1_spec c num 0 Hv ltac:(pose proof B_pos; lia) ltac:(intros; assumption)) as Hcmp. unfold cmp_result in Hcmp.
    destruct (Z.gtb_spec (compareu1 num 0) 0) as [Hgt|Hle].
    + rewrite (is_odd_spec c num Hv). destruct (Z.odd (value num)) eqn:Hodd.
      * destruct (zero_spec c Hr1) as (Hz & _).
        destruct (mods1_spec c (zero c) num 4 (valid_storage _ _ Hz) Hv ltac:(unfold int32; lia) ltac:(lia)) as (m & -> & Hm & Em & _).
        rewrite Z.rem_mod_nonneg in Em by lia. pose proof (Z.mod_pos_bound (value num) 4 ltac:(lia)) as Hmod.
        rewrite (get_int32_spec c m Hm) by (change (2 ^ 31) with 2147483648; lia).
        rewrite Em. set (m4 := value num mod 4) in *.
        pose proof (Z.div_mod (value num) 4 ltac:(lia)) as Edm. fold m4 in Edm.
        assert (H13 : m4 = 1 \/ m4 = 3).
        { apply Zodd_bool_iff in Hodd. apply Zodd_equiv in Hodd. destruct Hodd as (k & Ek). lia. }
        assert (Hsz : (size num <= size x)%nat).
        { apply (size_le_iff c num _ Hv); [lia|]. pose proof (magnitude_range c x Hx). rewrite !value_sgn, Hn, Hneg in Hval. cbn [sgn] in Hval. lia. }
        assert (Hrm : room c (size num + 1)) by (eapply room_le; [exact Hroom|lia]).
        destruct (subs1_spec c true num num (2 - m4) (valid_storage _ _ Hv) Hv ltac:(unfold int32; lia) Hrm ltac:(auto)) as (Hvs & Evs).
        set (n1 := subs1 c true num num (2 - m4)) in *.
        assert (Hc1 : canonical c n1).
        { unfold n1, subs1. apply add1_signed_canonical; [split; [exact Hv|auto]|rewrite cabs32_spec; pose proof B_pos; lia|auto]. }
        assert (Hn1 : neg n1 = false).
        { destruct (Z.eq_dec (value n1) 0) as [E0|E0]; [apply Hc1; assumption|].
          pose proof (magnitude_range c n1 Hvs). rewrite value_sgn in Evs, E0. destruct (neg n1); [cbn [sgn] in *; lia|reflexivity]. }
        destruct (shr1_val c n1 Hvs) as (Hv2 & E2 & Hn2). specialize (Hn2 Hn1).
        rewrite Z.quot_div_nonneg in E2 by lia.
        assert (E2' : value (shr n1 n1 1) = 2 * (value num / 4) + (m4 - 1)).
        { rewrite E2, Evs. symmetry. apply Z.div_unique with 0; lia. }
        assert (Hh : 2 * value (shr n1 n1 1) = value num - (2 - m4)) by lia.
        split; [|cbn [fst]; lia].
        split; [exact Hv2|]. split; [exact Hn2|]. split; [lia|]. split; [|split; [|split; [|split]]].
        -- rewrite naf_value_app, app_length, Nat2Z.inj_add. cbn [length]. rewrite Z.pow_add_r by lia. change (2 ^ Z.of_nat 1) with 2. nia.
        -- apply Forall_app; split; [exact Hdig|]. constructor; [lia|constructor].
        -- apply non_adjacent_app; [exact Hadj|]. left. destruct Hpar as [Hp|Hp]; [exact Hp|congruence].
        -- right. destruct (Z.odd (value (shr n1 n1 1))) eqn:Ho; [|reflexivity]. exfalso.
           apply Zodd_bool_iff in Ho. apply Zodd_equiv in Ho. destruct Ho as (k & Ek). lia.
        -- intros E0. right. rewrite last_snoc. lia.
      * destruct (shr1_val c num Hv) as (Hv2 & E2 & Hn2). specialize (Hn2 Hn).
        rewrite Z.quot_div_nonneg in E2 by lia.
        assert (Hh : 2 * value (shr num num 1) = value num).
        { rewrite E2. pose proof (Z.div_mod (value num) 2 ltac:(lia)). rewrite Zmod_odd, Hodd in *. lia. }
        split; [|cbn [fst]; lia].
        split; [exact Hv2|]. split; [exact Hn2|]. split; [lia|]. split; [|split; [|split; [|split]]].
        -- rewrite naf_value_app, app_length, Nat2Z.inj_add. cbn [length]. rewrite Z.pow_add_r by lia. change (2 ^ Z.of_nat 1) with 2. nia.
        -- apply Forall_app; split; [exact Hdig|]. constructor; [auto|constructor].
        -- apply non_adjacent_app; auto.
        -- left. apply last_snoc.
        -- intros E0. lia.
    + exists acc. split; [reflexivity|]. assert (E0 : value num = 0) by lia. rewrite E0, Z.mul_0_r, Z.add_0_r in Hsum.
      split; [exact Hsum|]. split; [exact Hdig|]. split; [exact Hadj|]. apply Hend. exact E0.
  - pose proof (magnitude_range c x Hx). rewrite value_sgn, Hneg. cbn [sgn naf_value length].
    split; [exact Hx|]. split; [reflexivity|]. split; [lia|]. split; [change (2 ^ Z.of_nat 0) with 1; lia|].
    split; [constructor|]. split; [exact I|]. split; [left; reflexivity|]. intros; left; reflexivity.
  - cbn [fst]. rewrite value_sgn, Hneg. cbn [sgn]. pose proof (magnitude_range c x Hx) as R. rewrite Bn_pow2 in R.
    eapply Z.lt_le_trans; [apply R|]. apply Z.pow_le_mono_r; lia.
Qed.
