(** Hexadecimal text against numbers. *)
From Coq Require Import ZArith List Bool Lia.
From Verif Require Import Outcome UtilsModel UtilsSpec UtilsProofs WordsModel WordsSpec BigintModel BigintSpec BigintProofs BigintBytes BigintClaims NumModel NumProofs FpModel EcModel EcCurveModel HexModel HexSpec.
Import ListNotations.
Open Scope Z_scope.

Lemma text_number s b : hex_text s b -> forall t v, hex_number t v -> hex_number (t ++ s) (be_value_acc v b).
Proof.
  induction 1 as [|c d h l s b H1 H2 H IH]; intros t v N; cbn [be_value_acc].
  - rewrite app_nil_r. exact N.
  - replace (t ++ c :: d :: s) with (((t ++ [c]) ++ [d]) ++ s) by (rewrite <- !app_assoc; reflexivity).
    replace (256 * v + (16 * h + l)) with (16 * (16 * v + h) + l) by lia. apply IH. constructor; [|exact H2]. constructor; assumption.
Qed.
Lemma hex_split n : forall s, (length s <= n)%nat -> Forall is_hex_char s -> exists b, hex_text s b \/ hex_text_odd s b.
Proof.
  assert (E : forall n s, length s = (2 * n)%nat -> Forall is_hex_char s -> exists b, hex_text s b).
  { clear. induction n as [|n IH]; intros s L F.
    - destruct s; [|discriminate]. exists []. constructor.
    - destruct s as [|x [|y s]]; try (cbn in L; lia). inversion F as [|? ? (h & Hx) F1]; subst. inversion F1 as [|? ? (l & Hy) F2]; subst.
      destruct (IH s ltac:(cbn in L; lia) F2) as (b & T). exists (16 * h + l :: b). constructor; assumption. }
  intros s _ F. destruct (Nat.Even_or_Odd (length s)) as [(k & K)|(k & K)].
  - destruct (E k s K F) as (b & T). exists b. left. exact T.
  - destruct s as [|x s]; [cbn in K; lia|]. inversion F as [|? ? (h & Hx) F1]; subst. destruct (E k s ltac:(cbn in K; lia) F1) as (b & T). exists (h :: b). right. constructor; assumption.
Qed.
Lemma number_fun s v : hex_number s v -> forall w, hex_number s w -> v = w.
Proof.
  induction 1 as [|s v c d H IH D]; intros w W.
  - inversion W as [|s' v' c' d' H1 H2 E]; [reflexivity|]. destruct s'; discriminate.
  - inversion W as [E|s' v' c' d' H1 H2 E]; [destruct s; discriminate|]. apply app_inj_tail in E. destruct E as (<- & <-). rewrite (IH v' H1).
    apply hex_digit_char in D. apply hex_digit_char in H2. rewrite D in H2. injection H2 as <-. reflexivity.
Qed.
Lemma number_chars s v : hex_number s v -> Forall is_hex_char s.
Proof. induction 1 as [|s v c d H IH D]; [constructor|]. apply Forall_app. split; [exact IH|]. constructor; [exists d; exact D|constructor]. Qed.
Lemma number_bytes s v : hex_number s v -> exists b, (hex_text s b \/ hex_text_odd s b) /\ all_bytes b /\ length b = ((length s + 1) / 2)%nat /\ be_value b = v.
Proof.
  intros N. destruct (hex_split _ s (le_n _) (number_chars s v N)) as (b & [T|T]); exists b.
  - split; [left; exact T|]. split; [apply (UtilsProofs.hex_text_bytes s b T)|]. split.
    + rewrite (hex_text_length s b T). rewrite Nat.mul_comm, Nat.div_add_l by lia. cbn. lia.
    + apply (number_fun s _ (text_number s b T [] 0 hn_nil) v N).
  - split; [right; exact T|]. inversion T as [c h s' b' D T' E1 E2]; subst. pose proof (hex_digit_range c h D) as (R & _). split; [|split].
    + constructor; [unfold is_byte; lia|apply (UtilsProofs.hex_text_bytes s' b' T')].
    + cbn [length]. rewrite (hex_text_length s' b' T'). replace (S (2 * length b') + 1)%nat with ((length b' + 1) * 2)%nat by lia. rewrite Nat.div_mul by lia. lia.
    + pose proof (text_number s' b' T' [c] (16 * 0 + h) (hn_digit [] 0 c h hn_nil D)) as N'. cbn [app] in N'. rewrite <- (number_fun _ _ N' v N). unfold be_value. cbn [be_value_acc]. f_equal.
Qed.
Lemma from_hex_written s t v : written s t -> hex_number t v -> exists b, from_hex s = Ok b /\ from_hex_literal t = Ok b /\ all_bytes b /\ length b = ((length t + 1) / 2)%nat /\ be_value b = v.
Proof.
  intros W N. destruct (number_bytes t v N) as (b & T & A & L & E). exists b.
  assert (F : from_hex t = Ok b) by (destruct T as [T|T]; [apply from_hex_text|apply from_hex_text_odd]; exact T).
  split; [|split; [|auto]].
  - destruct W as [-> | ->]; [exact F|]. rewrite from_hex_nul; [exact F|].
    apply (Forall_impl _ (P := is_hex_char)); [|apply (number_chars t v N)]. intros c (d & D). apply (hex_digit_range c d D).
  - unfold from_hex_literal. rewrite (from_hex_fixed_text _ t b T) by lia. rewrite L, Nat.sub_diag. cbn [repeat]. rewrite app_nil_r. reflexivity.
Qed.
Lemma of_hex_claim c s t v : written s t -> hex_number t v -> room c (text_words (length t)) ->
  exists r, of_hex c s = Ok r /\ of_literal c t = Ok r /\ canonical c r /\ value r = v.
Proof.
  intros W N R. destruct (from_hex_written s t v W N) as (b & F & G & A & L & E). unfold of_hex, of_literal. rewrite F, G. cbn [bind].
  destruct (of_bytes_claim c b A) as (r & K & Cr & V); [rewrite L; exact R|]. exists r. rewrite <- E. auto.
Qed.
Lemma of_hex_long c s t v : written s t -> hex_number t v -> ~ room c (((length t + 1) / 2 + 3) / 4) -> of_hex c s = Abort /\ of_literal c t = Abort.
Proof.
  intros W N R. destruct (from_hex_written s t v W N) as (b & F & G & A & L & E). unfold of_hex, of_literal. rewrite F, G. cbn [bind]. split; apply of_bytes_fail; rewrite L; exact R.
Qed.
Lemma strip_in t a : In a t -> a <> 0 -> In a (strip_nul t).
Proof.
  intros I Z. unfold strip_nul. destruct (rev t) as [|x l] eqn:E; [exact I|]. destruct (Z.eq_dec x 0) as [->|Nx].
  - apply in_rev in I. rewrite E in I. destruct I as [<-|I]; [congruence|]. apply in_rev. rewrite rev_involutive. exact I.
  - destruct x; congruence.
Qed.
Lemma of_hex_bad c s t a : written s t -> In a t -> a <> 0 -> ~ is_hex_char a -> of_hex c s = Abort.
Proof.
  intros W I Z H. unfold of_hex. rewrite from_hex_bad; [reflexivity|]. exists a. split; [|exact H]. destruct W as [-> | ->]; [apply strip_in; assumption|rewrite strip_nul_snoc; exact I].
Qed.
Lemma generate_hex_claim c C s t v : written s t -> hex_number t v -> room c (text_words (length t)) ->
  exists x, canonical c x /\ value x = v /\ generate_hex c C s = generate_point c C x /\ generate_hex_proj c C s = generate_point_proj c C x /\ generate_hex_jac c C s = generate_point_jac c C x /\
    generate_literal c C t = generate_point c C x /\ generate_literal_proj c C t = generate_point_proj c C x /\ generate_literal_jac c C t = generate_point_jac c C x.
Proof.
  intros W N R. destruct (of_hex_claim c s t v W N R) as (x & K & L & Cx & V). destruct (of_hex_claim c (t ++ [0]) t v (or_intror eq_refl) N R) as (y & K' & L' & _).
  rewrite L in L'. injection L' as <-. exists x. split; [exact Cx|]. split; [exact V|].
  unfold generate_literal, generate_literal_proj, generate_literal_jac, generate_hex, generate_hex_proj, generate_hex_jac. rewrite K, K'. cbn [bind]. repeat split.
Qed.

Lemma nibble_hex d : 0 <= d < 16 -> hex_digit (nibble_char d) d.
Proof.
  intros H. unfold nibble_char. destruct (Z.ltb_spec d 10); [constructor; lia|]. replace (87 + d) with (97 + (d - 10)) by lia. constructor. lia.
Qed.
Lemma printhex_text b : all_bytes b -> hex_text (printhex b) b.
Proof.
  induction 1 as [|x b X B IH]; [constructor|]. unfold is_byte in X. cbn [printhex flat_map app].
  rewrite (Z.div_mod x 16) at 3 by lia. constructor; [apply nibble_hex|apply nibble_hex|exact IH].
  - split; [apply Z.div_pos; lia|apply Z.div_lt_upper_bound; lia].
  - apply Z.mod_pos_bound. lia.
Qed.
Lemma is_negative_value c x : valid c x -> is_negative x = (value x <? 0).
Proof.
  intros V. unfold is_negative. rewrite (is_zero_value c x V). pose proof (magnitude_range c x V) as M. pose proof (value_sgn x) as E.
  destruct (Z.eqb_spec (value x) 0) as [E0|N0]; destruct (neg x); cbn [sgn negb andb] in *; destruct (Z.ltb_spec (value x) 0); try reflexivity; lia.
Qed.
Lemma print_claim c x : valid c x -> exists t, print_text x = (if value x <? 0 then [45] else []) ++ t /\ hex_number t (Z.abs (value x)) /\ length t = (2 * Z.to_nat (byte_length x))%nat /\
  (exists r, of_hex c t = Ok r /\ value r = Z.abs (value x)) /\ (value x < 0 -> of_hex c (print_text x) = Abort).
Proof.
  intros V. destruct (to_bytes_claim c x V) as (A & E & _). destruct (get_bytes_claim c x [] V) as (_ & _ & L). pose proof (printhex_text _ A) as T.
  assert (P : print_text x = (if value x <? 0 then [45] else []) ++ printhex (to_bytes x)) by (unfold print_text; rewrite (is_negative_value c x V); reflexivity).
  exists (printhex (to_bytes x)). split; [exact P|]. split; [|split; [|split]].
  - pose proof (text_number _ _ T [] 0 hn_nil) as N. cbn [app] in N. change (be_value_acc 0 (to_bytes x)) with (be_value (to_bytes x)) in N. rewrite E in N. exact N.
  - rewrite (hex_text_length _ _ T), <- L, Nat2Z.id. reflexivity.
  - unfold of_hex. rewrite (from_hex_text _ _ T). cbn [bind].
    assert (Va : valid c (abs_op x)) by (apply (abs_op_spec c x V)).
    destruct (value_bytes_roundtrip_claim c (abs_op x) Va) as (r & K & Er).
    { rewrite (proj1 (proj2 (abs_op_spec c x V))). lia. }
    exists r. change (to_bytes (abs_op x)) with (to_bytes x) in K. split; [exact K|]. rewrite Er. apply (abs_op_spec c x V).
  - intros G. apply (of_hex_bad c (print_text x) (print_text x) 45); [left; reflexivity| |lia|].
    + rewrite P. destruct (Z.ltb_spec (value x) 0); [|lia]. left. reflexivity.
    + intros (d & D). apply hex_digit_char in D. discriminate.
Qed.
