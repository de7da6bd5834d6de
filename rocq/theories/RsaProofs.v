(** Proofs for MgfModel and RsaModel. *)
From Coq Require Import List ZArith Bool Lia.
From Verif Require Import Outcome UtilsModel UtilsSpec UtilsProofs MgfModel RsaModel RsaSpec.
Import ListNotations.
Open Scope Z_scope.

(** ** integers and octet strings *)
Lemma OS2IP_from l : forall a, fold_left (fun a b => 256 * a + b) l a = a * 256 ^ Z.of_nat (length l) + OS2IP l.
Proof.
  unfold OS2IP. induction l as [|b l IH]; intros a; cbn [fold_left length].
  - change (256 ^ Z.of_nat 0) with 1. lia.
  - rewrite IH. rewrite (IH (256 * 0 + b)). rewrite Nat2Z.inj_succ, Z.pow_succ_r by lia. nia.
Qed.
Lemma OS2IP_cons b l : OS2IP (b :: l) = b * 256 ^ Z.of_nat (length l) + OS2IP l.
Proof. unfold OS2IP at 1. cbn [fold_left]. rewrite OS2IP_from. ring. Qed.
Lemma OS2IP_app a b : OS2IP (a ++ b) = OS2IP a * 256 ^ Z.of_nat (length b) + OS2IP b.
Proof. unfold OS2IP at 1. rewrite fold_left_app, OS2IP_from. reflexivity. Qed.
Lemma OS2IP_range l : all_bytes l -> 0 <= OS2IP l < 256 ^ Z.of_nat (length l).
Proof.
  induction l as [|b l IH]; intros F; [cbn; lia|]. pose proof (Forall_inv F) as Hb. specialize (IH (Forall_inv_tail F)). red in Hb.
  rewrite OS2IP_cons. cbn [length]. rewrite Nat2Z.inj_succ, Z.pow_succ_r by lia. nia.
Qed.
Lemma I2OSP_length n : forall x, length (I2OSP x n) = n.
Proof. induction n as [|n IH]; intros x; cbn [I2OSP]; [reflexivity|]. rewrite app_length, IH. cbn. lia. Qed.
Lemma I2OSP_bytes n : forall x, all_bytes (I2OSP x n).
Proof.
  induction n as [|n IH]; intros x; cbn [I2OSP]; [constructor|]. apply Forall_app. split; [apply IH|]. constructor; [|constructor].
  red. apply Z.mod_pos_bound. lia.
Qed.
Lemma I2OSP_OS2IP n : forall x, 0 <= x < 256 ^ Z.of_nat n -> OS2IP (I2OSP x n) = x.
Proof.
  induction n as [|n IH]; intros x Hx; cbn [I2OSP]; [change (256 ^ Z.of_nat 0) with 1 in Hx; cbn; lia|].
  rewrite Nat2Z.inj_succ, Z.pow_succ_r in Hx by lia. rewrite OS2IP_app. cbn [length]. change (256 ^ Z.of_nat 1) with 256.
  rewrite IH; [|split; [apply Z.div_pos; lia|apply Z.div_lt_upper_bound; lia]].
  change (OS2IP [x mod 256]) with (x mod 256). pose proof (Z.div_mod x 256). lia.
Qed.
Lemma OS2IP_inj a : forall b, all_bytes a -> all_bytes b -> length a = length b -> OS2IP a = OS2IP b -> a = b.
Proof.
  induction a as [|x a IH]; intros [|y b] Fa Fb L E; cbn [length] in L; try discriminate; [reflexivity|].
  pose proof (OS2IP_range a (Forall_inv_tail Fa)) as Ra. pose proof (OS2IP_range b (Forall_inv_tail Fb)) as Rb.
  rewrite !OS2IP_cons in E. injection L as L. rewrite L in *. assert (x = y) by nia. subst y. f_equal. apply IH; [exact (Forall_inv_tail Fa)|exact (Forall_inv_tail Fb)|reflexivity|lia].
Qed.
Lemma OS2IP_I2OSP l : all_bytes l -> I2OSP (OS2IP l) (length l) = l.
Proof.
  intros F. apply OS2IP_inj; [apply I2OSP_bytes|exact F|apply I2OSP_length|]. apply I2OSP_OS2IP. apply OS2IP_range. exact F.
Qed.

(** ** is_s_valid *)
Lemma leading_zeros_le l : (leading_zeros l <= length l)%nat.
Proof. induction l as [|[|p|p] l IH]; cbn; lia. Qed.
Lemma leading_zeros_value l : OS2IP (skipn (leading_zeros l) l) = OS2IP l.
Proof. induction l as [|[|p|p] l IH]; cbn [leading_zeros skipn]; try reflexivity. rewrite OS2IP_cons. lia. Qed.
Lemma leading_zeros_top l : (leading_zeros l < length l)%nat -> all_bytes l ->
  exists b t, skipn (leading_zeros l) l = b :: t /\ 0 < b < 256 /\ length t = (length l - leading_zeros l - 1)%nat.
Proof.
  induction l as [|b l IH]; intros H F; [cbn in H; lia|]. destruct b as [|p|p].
  - cbn [leading_zeros length] in *. destruct IH as (b & t & E & Hb & L); [lia|exact (Forall_inv_tail F)|]. exists b, t. cbn [skipn]. split; [exact E|]. split; [exact Hb|lia].
  - exists (Z.pos p), l. cbn. split; [reflexivity|]. pose proof (Forall_inv F) as Hb. red in Hb. split; [lia|]. lia.
  - pose proof (Forall_inv F) as Hb. red in Hb. lia.
Qed.
Lemma leading_zeros_all l : leading_zeros l = length l -> OS2IP l = 0.
Proof. induction l as [|[|p|p] l IH]; cbn [leading_zeros length]; intros H; try discriminate; [reflexivity|]. rewrite OS2IP_cons, IH by lia. lia. Qed.
Lemma less_bytes_spec s : forall n, all_bytes s -> all_bytes n -> length s = length n -> less_bytes s n = (OS2IP s <? OS2IP n).
Proof.
  induction s as [|a s IH]; intros [|b n] Fs Fn L; cbn [length] in L; try discriminate; [reflexivity|]. cbn [less_bytes].
  pose proof (OS2IP_range s (Forall_inv_tail Fs)) as Rs. pose proof (OS2IP_range n (Forall_inv_tail Fn)) as Rn.
  rewrite !OS2IP_cons. injection L as L. rewrite L in Rs. rewrite L. pose proof (Forall_inv Fs) as Ha. pose proof (Forall_inv Fn) as Hb. red in Ha, Hb.
  destruct (Z.ltb_spec a b); [symmetry; apply Z.ltb_lt; nia|].
  assert (G : (a >? b) = (b <? a)) by (rewrite Z.gtb_ltb; reflexivity). rewrite G.
  destruct (Z.ltb_spec b a); [symmetry; apply Z.ltb_ge; nia|]. assert (a = b) by lia. subst b.
  rewrite IH by (try exact (Forall_inv_tail Fs); try exact (Forall_inv_tail Fn); exact L).
  destruct (Z.ltb_spec (OS2IP s) (OS2IP n)); symmetry; [apply Z.ltb_lt|apply Z.ltb_ge]; lia.
Qed.
Lemma top_lower b t : 0 < b -> 0 <= OS2IP t -> 256 ^ Z.of_nat (length t) <= OS2IP (b :: t).
Proof. intros. rewrite OS2IP_cons. pose proof (Z.pow_pos_nonneg 256 (Z.of_nat (length t))). nia. Qed.

Lemma is_s_valid_spec s n : all_bytes s -> all_bytes n -> no_leading_zero n -> is_s_valid s n = (OS2IP s <? OS2IP n).
Proof.
  intros Fs Fn Hn. destruct n as [|b n]; [contradiction|]. cbn in Hn.
  assert (Zn : leading_zeros (b :: n) = O) by (destruct b; cbn; lia || reflexivity).
  pose proof (OS2IP_range n (Forall_inv_tail Fn)) as Rn. pose proof (top_lower b n Hn ltac:(lia)) as Tn.
  pose proof (OS2IP_range (b :: n) Fn) as Rn'.
  pose proof (Z.pow_pos_nonneg 256 (Z.of_nat (length n))) as Pn.
  unfold is_s_valid. destruct (Nat.eqb_spec (leading_zeros s) (length s)) as [E|E].
  - rewrite (leading_zeros_all s E). symmetry. apply Z.ltb_lt. lia.
  - rewrite Zn. rewrite (proj2 (Nat.ltb_ge _ _) (Nat.le_0_l _)). rewrite Nat.sub_0_r. pose proof (leading_zeros_le s) as Ls.
    destruct (leading_zeros_top s ltac:(lia) Fs) as (c & t & Et & Hc & Lt).
    assert (Ft : all_bytes (c :: t)) by (rewrite <- Et; apply Forall_skipn; exact Fs).
    pose proof (OS2IP_range t (Forall_inv_tail Ft)) as Rt. pose proof (top_lower c t ltac:(lia) ltac:(lia)) as Tt.
    pose proof (OS2IP_range _ Ft) as Rt'. pose proof (leading_zeros_value s) as Vs. rewrite Et in Vs. cbn [length] in *.
    destruct (Nat.ltb_spec (S (length n)) (length s - leading_zeros s)) as [H1|H1].
    + symmetry. apply Z.ltb_ge. assert (256 ^ Z.of_nat (S (length n)) <= 256 ^ Z.of_nat (length t)) by (apply Z.pow_le_mono_r; lia). lia.
    + destruct (Nat.ltb_spec (length s - leading_zeros s) (S (length n))) as [H2|H2].
      * symmetry. apply Z.ltb_lt. assert (256 ^ Z.of_nat (S (length t)) <= 256 ^ Z.of_nat (length n)) by (apply Z.pow_le_mono_r; lia). lia.
      * cbn [skipn]. rewrite Et. rewrite less_bytes_spec by (try assumption; cbn; lia). rewrite Vs. reflexivity.
Qed.

(** ** powm and rsavp1 *)
Lemma slice_ok l i n : (i + n <= length l)%nat -> slice l i n = Ok (firstn n (skipn i l)).
Proof. intros H. unfold slice. rewrite (proj2 (Nat.leb_le _ _) H). reflexivity. Qed.
Lemma at_ok l i : (i < length l)%nat -> at_ l i = Ok (nth i l 0).
Proof. intros H. unfold at_. rewrite (nth_error_nth' l 0 H). reflexivity. Qed.
Lemma bytes_eqb_eq a : forall b, bytes_eqb a b = true <-> a = b.
Proof.
  induction a as [|x a IH]; intros [|y b]; cbn; split; intros H; try discriminate; auto.
  - apply andb_prop in H. destruct H as [H1 H2]. apply Z.eqb_eq in H1. apply IH in H2. congruence.
  - injection H as -> ->. rewrite Z.eqb_refl. cbn. apply IH. reflexivity.
Qed.

Lemma bytes_eqb_false a b : bytes_eqb a b = false <-> a <> b.
Proof. rewrite <- (bytes_eqb_eq a b). destruct (bytes_eqb a b); split; congruence. Qed.
Lemma nth_firstn_skipn (l : list Z) i n : (i + n <= length l)%nat -> length (firstn n (skipn i l)) = n.
Proof. intros H. rewrite firstn_length, skipn_length. lia. Qed.

(** a public exponent that the code handles: not empty, below 2^64 *)
Definition exponent_ok (e : list Z) : Prop := e <> [] /\ all_bytes e /\ OS2IP e < 2 ^ 64.
Lemma small_zeros e : all_bytes e -> OS2IP e < 2 ^ 64 -> (8 < length e)%nat ->
  forallb (fun b => b =? 0) (firstn (length e - 8) e) = true.
Proof.
  intros Fe He L. apply forallb_forall. intros x Hx. apply Z.eqb_eq.
  rewrite <- (firstn_skipn (length e - 8) e), OS2IP_app in He. rewrite skipn_length in He.
  replace (length e - (length e - 8))%nat with 8%nat in He by lia.
  pose proof (OS2IP_range (skipn (length e - 8) e) (Forall_skipn _ _ _ Fe)) as R1.
  assert (Ff : all_bytes (firstn (length e - 8) e)) by (apply Forall_firstn; exact Fe).
  pose proof (OS2IP_range _ Ff) as R2. change (256 ^ Z.of_nat 8) with (2 ^ 64) in He.
  assert (Z0 : OS2IP (firstn (length e - 8) e) = 0) by lia. revert Ff Z0 Hx. generalize (firstn (length e - 8) e). clear.
  induction l as [|b l IH]; intros F Z0 Hx; [destruct Hx|]. pose proof (Forall_inv F) as Hb. red in Hb. pose proof (OS2IP_range l (Forall_inv_tail F)) as R.
  rewrite OS2IP_cons in Z0. assert (b = 0) by nia. subst b. destruct Hx as [<-|Hx]; [reflexivity|]. apply IH; [exact (Forall_inv_tail F)|lia|exact Hx].
Qed.

Section POWM.
Variable mod_exp : list Z -> list Z -> list Z -> outcome (option (list Z)).

Lemma powm_spec base e n : exponent_ok e -> all_bytes base -> length base = length n -> n <> [] -> exact_for mod_exp n e ->
  OS2IP base < OS2IP n -> powm mod_exp base e n = Ok (I2OSP (OS2IP base ^ OS2IP e mod OS2IP n) (length n)).
Proof.
  intros (He1 & He2 & He3) Fb L Hn Hx Hb. unfold powm.
  assert (C1 : (if Nat.ltb 8 (length e) then forallb (fun b => b =? 0) (firstn (length e - 8) e) else true) = true).
  { destruct (Nat.ltb_spec 8 (length e)); [apply small_zeros; assumption|reflexivity]. }
  rewrite C1. cbn [check bind]. assert (0 < length e)%nat by (destruct e; [congruence|cbn; lia]).
  assert (0 < length n)%nat by (destruct n; [congruence|cbn; lia]).
  rewrite (proj2 (Nat.eqb_neq (length base) 0)) by lia. rewrite (proj2 (Nat.eqb_neq (length n) 0)) by lia. rewrite (proj2 (Nat.eqb_neq (length e) 0)) by lia.
  cbn [negb andb check bind]. rewrite (proj2 (Nat.eqb_eq _ _) L). cbn [check bind]. rewrite (Hx base Fb L Hb). reflexivity.
Qed.

Lemma rsavp1_spec n e sig : exponent_ok e -> all_bytes sig -> all_bytes n -> no_leading_zero n -> length sig = length n -> exact_for mod_exp n e ->
  rsavp1 mod_exp n e sig = Ok (if OS2IP sig <? OS2IP n then I2OSP (OS2IP sig ^ OS2IP e mod OS2IP n) (length n) else []).
Proof.
  intros He Fs Fn Hn L Hx. unfold rsavp1. rewrite is_s_valid_spec by assumption. destruct (Z.ltb_spec (OS2IP sig) (OS2IP n)); [|reflexivity].
  apply powm_spec; try assumption. destruct n; [contradiction|discriminate].
Qed.
End POWM.

(** ** PKCS#1 v1.5 *)
Lemma repeat_shift (l : list Z) n a : firstn n l = firstn n (a :: l) -> (n <= length l)%nat -> firstn n l = repeat a n.
Proof.
  revert l a. induction n as [|n IH]; intros l a E H; [reflexivity|]. destruct l as [|b l]; [cbn in H; lia|]. cbn [firstn repeat length] in *.
  injection E as -> E. f_equal. apply IH; [exact E|lia].
Qed.
Lemma firstn_repeat_eq {A} (a : A) n m : (n <= m)%nat -> firstn n (repeat a m) = repeat a n.
Proof. revert m. induction n as [|n IH]; intros [|m] H; cbn; try reflexivity; try lia. f_equal. apply IH. lia. Qed.

Lemma split_nth (r : list Z) : forall q, (q < length r)%nat -> r = firstn q r ++ nth q r 0 :: skipn (S q) r.
Proof. induction r as [|a r IH]; intros [|q] H; cbn in H; try lia; [reflexivity|]. cbn [firstn nth skipn app]. f_equal. apply IH. lia. Qed.

Lemma pkcs1_check_spec em t : exists b, pkcs1_check em t = Ok b /\
  (b = true <-> (length t + 11 <= length em)%nat /\ em = emsa_pkcs1 t (length em)).
Proof.
  unfold pkcs1_check. destruct (Nat.ltb_spec (length em) (length t + 11)) as [H|H].
  { exists false. split; [reflexivity|]. split; [discriminate|]. intros [H' _]. lia. }
  rewrite !at_ok by lia. cbn [bind]. set (ps := (length em - length t - 3)%nat).
  assert (Lps : (8 <= ps)%nat) by (unfold ps; lia).
  assert (Hem : exists b0 b1 b2 r, em = b0 :: b1 :: b2 :: r).
  { destruct em as [|b0 [|b1 [|b2 r]]]; cbn in H; try lia. eauto. }
  destruct Hem as (b0 & b1 & b2 & r & ->).
  change (nth 0 (b0 :: b1 :: b2 :: r) 0) with b0. change (nth 1 (b0 :: b1 :: b2 :: r) 0) with b1. change (nth 2 (b0 :: b1 :: b2 :: r) 0) with b2.
  assert (Lr : length r = (ps + length t)%nat) by (unfold ps; cbn [length] in *; lia).
  set (em := b0 :: b1 :: b2 :: r) in *. assert (Lem : length em = (3 + ps + length t)%nat) by (unfold em; cbn [length]; lia).
  unfold emsa_pkcs1. fold ps.
  destruct (Z.eqb_spec b0 0) as [->|N0]; cbn [negb orb].
  2:{ exists false. split; [reflexivity|]. split; [discriminate|]. intros [_ E]. unfold em in E. injection E as E _. congruence. }
  destruct (Z.eqb_spec b1 1) as [->|N1]; cbn [negb].
  2:{ exists false. split; [reflexivity|]. split; [discriminate|]. intros [_ E]. unfold em in E. injection E as E _. congruence. }
  assert (PS : repeat 255 ps = 255 :: repeat 255 (ps - 1)) by (destruct ps as [|q]; [lia|]; cbn; rewrite Nat.sub_0_r; reflexivity).
  destruct (Z.eqb_spec b2 255) as [->|N2]; cbn [negb orb].
  2:{ exists false. split; [reflexivity|]. split; [discriminate|]. intros [_ E]. unfold em in E. rewrite PS in E. injection E as E _. congruence. }
  rewrite PS. set (q := (ps - 1)%nat). assert (Eq : ps = S q) by (unfold q; lia).
  pose proof (split_nth r q ltac:(lia)) as DR.
  assert (NZ : nth (2 + ps) em 0 = nth q r 0) by (rewrite Eq; reflexivity). rewrite NZ.
  assert (RHS : forall X : Prop, ((length t + 11 <= length em)%nat /\ em = [0; 1] ++ (255 :: repeat 255 q) ++ [0] ++ t <-> X) <->
     (r = repeat 255 q ++ 0 :: t <-> X)).
  { intros X. assert (Q : (length t + 11 <= length em)%nat /\ em = [0; 1] ++ (255 :: repeat 255 q) ++ [0] ++ t <-> r = repeat 255 q ++ 0 :: t).
    { unfold em. cbn [app]. split; [intros [_ E]; injection E; auto|]. intros E. split; [exact H|]. rewrite E. reflexivity. } tauto. }
  assert (FIN : forall b, (b = true <-> r = repeat 255 q ++ 0 :: t) -> b = true <-> (length t + 11 <= length em)%nat /\ em = [0; 1] ++ (255 :: repeat 255 q) ++ [0] ++ t).
  { intros b E. split; [intros Q; apply (RHS (b = true)); tauto|]. intros Q. apply E. apply (RHS True); tauto. }
  destruct (Z.eqb_spec (nth q r 0) 0) as [Z0|Z0]; cbn [negb].
  2:{ exists false. split; [reflexivity|]. apply FIN. split; [discriminate|]. intros E. exfalso. apply Z0. rewrite E.
      rewrite app_nth2 by (rewrite repeat_length; lia). rewrite repeat_length, Nat.sub_diag. reflexivity. }
  rewrite !slice_ok by (cbn [length] in *; lia). cbn [bind]. fold q. change (skipn 3 em) with r. change (skipn 2 em) with (255 :: r).
  destruct (bytes_eqb (firstn q r) (firstn q (255 :: r))) eqn:EB; cbn [negb].
  2:{ exists false. split; [reflexivity|]. apply FIN. split; [discriminate|]. intros E. exfalso. apply bytes_eqb_false in EB. apply EB. rewrite E.
      rewrite firstn_app, repeat_length, Nat.sub_diag, firstn_O, app_nil_r, firstn_repeat_eq by lia.
      change (255 :: repeat 255 q ++ 0 :: t) with ((255 :: repeat 255 q) ++ 0 :: t). change (255 :: repeat 255 q) with (repeat 255 (S q)).
      rewrite firstn_app, repeat_length. replace (q - S q)%nat with 0%nat by lia. rewrite firstn_O, app_nil_r, firstn_repeat_eq by lia. reflexivity. }
  apply bytes_eqb_eq in EB. apply repeat_shift in EB; [|lia].
  replace (skipn (3 + ps) em) with (skipn (S q) r) by (rewrite Eq; reflexivity).
  assert (Ls : length (skipn (S q) r) = length t) by (rewrite skipn_length; lia).
  rewrite firstn_all2 by lia. eexists. split; [reflexivity|]. apply FIN. rewrite bytes_eqb_eq. rewrite EB, Z0 in DR. split.
  - intros E. rewrite DR, E. reflexivity.
  - intros E. rewrite E. rewrite skipn_app, repeat_length, skipn_all2 by (rewrite repeat_length; lia). replace (S q - q)%nat with 1%nat by lia. reflexivity.
Qed.

Lemma pkcs1_spec mod_exp n e t sig : exponent_ok e -> all_bytes sig -> all_bytes n -> no_leading_zero n -> exact_for mod_exp n e ->
  exists b, rsassa_pkcs1_v1_5_verify mod_exp n e sig t = Ok b /\
  (b = true <-> rsassa_pkcs1_valid (OS2IP n) (OS2IP e) (length n) t sig).
Proof.
  intros He Fs Fn Hn Hx. unfold rsassa_pkcs1_v1_5_verify, rsassa_pkcs1_valid. destruct (Nat.eqb_spec (length sig) (length n)) as [L|L]; cbn [negb].
  2:{ exists false. split; [reflexivity|]. split; [discriminate|]. intros [E _]. congruence. }
  rewrite rsavp1_spec by assumption. cbn [bind]. destruct (Z.ltb_spec (OS2IP sig) (OS2IP n)) as [H|H].
  - set (em := I2OSP _ _). assert (Lm : length em = length n) by apply I2OSP_length.
    destruct (pkcs1_check_spec em t) as (b & E & Hb). exists b. split; [exact E|]. rewrite Hb, Lm. tauto.
  - exists false. split; [unfold pkcs1_check; rewrite (proj2 (Nat.ltb_lt _ _)) by (cbn; lia); reflexivity|]. split; [discriminate|]. intros (_ & Q & _). lia.
Qed.

(** ** MGF1 *)
Section MGFP.
Variable hash : list Z -> list Z.
Variable hlen : nat.
Hypothesis hash_len : forall m, length (hash m) = hlen.
Hypothesis hash_bytes : forall m, all_bytes (hash m).
Hypothesis hlen_pos : (0 < hlen)%nat.

Definition blocks (seed : list Z) (from n : nat) : list Z :=
  concat (map (fun c => hash (seed ++ I2OSP (Z.of_nat c) 4)) (seq from n)).
Lemma blocks_length seed n : forall from, length (blocks seed from n) = (n * hlen)%nat.
Proof. unfold blocks. induction n as [|n IH]; intros from; cbn; [reflexivity|]. rewrite app_length, hash_len, IH. reflexivity. Qed.
Lemma blocks_bytes seed n from : all_bytes (blocks seed from n).
Proof. unfold blocks. revert from. induction n as [|n IH]; intros from; cbn; [constructor|]. apply Forall_app. split; [apply hash_bytes|apply IH]. Qed.
Lemma counter_bytes_I2OSP c : 0 <= c < 2 ^ 32 -> counter_bytes c = I2OSP c 4.
Proof.
  intros H. unfold counter_bytes. cbn [I2OSP app]. rewrite !Z.shiftr_div_pow2 by lia.
  change 255 with (Z.ones 8). rewrite !Z.land_ones by lia. change (2 ^ 8) with 256. rewrite !Zdiv_Zdiv by lia. reflexivity.
Qed.

(** [apply_mask f dst src]: what the copy function is meant to do with the front of dst *)
Section COPY.
Variable copy : list Z -> list Z -> nat -> outcome (list Z).
Variable f : Z -> Z -> Z.
Definition combine_with (a b : list Z) : list Z := map (fun p => f (fst p) (snd p)) (combine a b).
Hypothesis copy_spec : forall dst src n, all_bytes dst -> all_bytes src -> (n <= length dst)%nat -> (n <= length src)%nat ->
  copy dst src n = Ok (combine_with (firstn n dst) (firstn n src) ++ skipn n dst).

Lemma combine_with_app a b c d : length a = length c -> combine_with (a ++ b) (c ++ d) = combine_with a c ++ combine_with b d.
Proof.
  revert c. induction a as [|x a IH]; intros [|y c] H; cbn in H; try discriminate; [reflexivity|]. cbn. f_equal. apply IH. lia.
Qed.
Lemma combine_with_length a b : length (combine_with a b) = Nat.min (length a) (length b).
Proof. unfold combine_with. rewrite map_length, combine_length. reflexivity. Qed.
Lemma combine_with_firstn a b : combine_with a b = combine_with a (firstn (length a) b).
Proof. revert b. induction a as [|x a IH]; intros [|y b]; cbn; auto. f_equal. apply IH. Qed.

Lemma mgf1_loop_spec seed fuel : forall mask c, all_bytes mask -> (length mask <= fuel)%nat ->
  Z.of_nat c + Z.of_nat (ceil_div (length mask) hlen) <= 2 ^ 32 ->
  mgf1_loop hash copy fuel seed mask (Z.of_nat c mod 2 ^ 32) = Ok (combine_with mask (blocks seed c (ceil_div (length mask) hlen))).
Proof.
  induction fuel as [|fuel IH]; intros mask c Fm Lf Hc.
  - destruct mask; [reflexivity|cbn in Lf; lia].
  - destruct mask as [|m0 mt]; [reflexivity|]. cbn [mgf1_loop]. set (mask := m0 :: mt) in *.
    assert (Lm : (0 < length mask)%nat) by (cbn; lia).
    assert (CP : (1 <= ceil_div (length mask) hlen)%nat).
    { unfold ceil_div. apply Nat.div_le_lower_bound; lia. }
    rewrite (Z.mod_small (Z.of_nat c)) by lia. rewrite counter_bytes_I2OSP by lia.
    set (dg := hash _). assert (Ld : length dg = hlen) by apply hash_len. rewrite Ld.
    set (k := Nat.min hlen (length mask)). rewrite copy_spec by (first [assumption|apply hash_bytes|lia]). cbn [bind].
    set (hd_ := combine_with (firstn k mask) (firstn k dg)).
    assert (Lh : length hd_ = k) by (unfold hd_; rewrite combine_with_length, !firstn_length; lia).
    rewrite skipn_app, skipn_all2 by lia. rewrite Lh, Nat.sub_diag, skipn_O. cbn [app].
    rewrite firstn_app, Lh, Nat.sub_diag, firstn_O, app_nil_r, firstn_all2 by lia.
    replace ((Z.of_nat c + 1) mod 2 ^ 32) with (Z.of_nat (S c) mod 2 ^ 32) by (f_equal; lia).
    assert (CE : ceil_div (length mask) hlen = S (ceil_div (length (skipn k mask)) hlen)).
    { unfold ceil_div. rewrite skipn_length. unfold k. destruct (Nat.le_gt_cases (length mask) hlen).
      - rewrite Nat.min_r by lia. rewrite Nat.sub_diag. replace (0 + hlen - 1)%nat with (hlen - 1)%nat by lia. rewrite (Nat.div_small (hlen - 1)) by lia.
        symmetry. apply (Nat.div_unique _ _ _ (length mask - 1)); lia.
      - rewrite Nat.min_l by lia. replace (length mask + hlen - 1)%nat with ((length mask - hlen + hlen - 1) + 1 * hlen)%nat by lia. rewrite Nat.div_add by lia. lia. }
    rewrite IH; [|apply Forall_skipn; exact Fm|rewrite skipn_length; lia|lia]. cbn [bind]. f_equal. rewrite CE. unfold blocks at 2. cbn [seq map concat]. fold dg.
    change (concat (map _ (seq (S c) _))) with (blocks seed (S c) (ceil_div (length (skipn k mask)) hlen)).
    match goal with |- _ = combine_with mask ?X => transitivity (combine_with (firstn k mask ++ skipn k mask) X); [|rewrite firstn_skipn; reflexivity] end. unfold hd_.
    destruct (Nat.le_gt_cases hlen (length mask)) as [Q|Q].
    + unfold k in *. rewrite Nat.min_l in * by lia. rewrite (firstn_all2 dg) by lia. symmetry. apply combine_with_app. rewrite firstn_length. lia.
    + assert (KL : k = length mask) by (unfold k; lia). rewrite KL. rewrite skipn_all, app_nil_r.
      rewrite (firstn_all2 mask) by lia. cbn [combine_with combine map]. rewrite app_nil_r.
      rewrite (combine_with_firstn mask (dg ++ _)). rewrite firstn_app. replace (length mask - length dg)%nat with 0%nat by lia. rewrite firstn_O, app_nil_r. reflexivity.
Qed.
Lemma mgf1_generic seed mask : all_bytes mask -> Z.of_nat (ceil_div (length mask) hlen) <= 2 ^ 32 ->
  mgf1 hash copy seed mask = Ok (combine_with mask (MGF1 hash hlen seed (length mask))).
Proof.
  intros Fm Hc. unfold mgf1. change 0 with (Z.of_nat 0 mod 2 ^ 32) at 1. rewrite mgf1_loop_spec by (try assumption; lia).
  unfold MGF1. fold (blocks seed 0 (ceil_div (length mask) hlen)). rewrite <- combine_with_firstn. reflexivity.
Qed.
End COPY.

Lemma MGF1_length seed len : length (MGF1 hash hlen seed len) = len.
Proof.
  unfold MGF1. fold (blocks seed 0 (ceil_div len hlen)). rewrite firstn_length, blocks_length. unfold ceil_div.
  pose proof (Nat.div_mod (len + hlen - 1) hlen ltac:(lia)). pose proof (Nat.mod_upper_bound (len + hlen - 1) hlen ltac:(lia)). nia.
Qed.
Lemma MGF1_bytes seed len : all_bytes (MGF1 hash hlen seed len).
Proof. apply Forall_firstn. apply blocks_bytes. Qed.

Lemma copy_mem_ok dst src n : all_bytes dst -> all_bytes src -> (n <= length dst)%nat -> (n <= length src)%nat ->
  copy_mem dst src n = Ok (combine_with (fun _ s => s) (firstn n dst) (firstn n src) ++ skipn n dst).
Proof.
  intros _ _ H1 H2. unfold copy_mem. rewrite (proj2 (Nat.leb_le _ _) H1), (proj2 (Nat.leb_le _ _) H2). cbn [andb]. do 2 f_equal.
  assert (L : length (firstn n dst) = length (firstn n src)) by (rewrite !firstn_length; lia).
  revert L. generalize (firstn n dst), (firstn n src). clear. intros a. induction a as [|x a IH]; intros [|y b] L; cbn in *; try discriminate; [reflexivity|]. f_equal. apply IH. lia.
Qed.
Lemma map2_combine f a : forall b, map2 f a b = combine_with f a b.
Proof. induction a as [|x a IH]; intros [|y b]; cbn; try reflexivity. f_equal. apply IH. Qed.
Lemma copy_xor_ok dst src n : all_bytes dst -> all_bytes src -> (n <= length dst)%nat -> (n <= length src)%nat ->
  copy_xor dst src n = Ok (combine_with Z.lxor (firstn n dst) (firstn n src) ++ skipn n dst).
Proof.
  intros Fd Fs H1 H2. unfold copy_xor. rewrite memxor_eq by assumption. cbv zeta. replace (Nat.min (Nat.min n (length dst)) (length src)) with n by lia.
  rewrite map2_combine. reflexivity.
Qed.
Lemma mgf1_copy seed mask : all_bytes mask -> Z.of_nat (ceil_div (length mask) hlen) <= 2 ^ 32 ->
  mgf1 hash copy_mem seed mask = Ok (MGF1 hash hlen seed (length mask)).
Proof.
  intros Fm Hc. rewrite (mgf1_generic copy_mem (fun _ s => s) copy_mem_ok) by assumption. f_equal.
  pose proof (MGF1_length seed (length mask)) as L. revert L. generalize (MGF1 hash hlen seed (length mask)). clear.
  induction mask as [|x a IH]; intros [|y b] L; cbn in *; try discriminate; [reflexivity|]. f_equal. apply IH. lia.
Qed.
Lemma mgf1_xor seed mask : all_bytes mask -> Z.of_nat (ceil_div (length mask) hlen) <= 2 ^ 32 ->
  mgf1 hash copy_xor seed mask = Ok (xor_bytes mask (MGF1 hash hlen seed (length mask))).
Proof. intros Fm Hc. apply (mgf1_generic copy_xor Z.lxor copy_xor_ok); assumption. Qed.

(** ** PSS *)
Lemma pss_padding_spec : forall idx l, (idx < length l)%nat ->
  exists b, pss_padding l idx = Ok b /\ (b = true <-> firstn (S idx) l = repeat 0 idx ++ [1]).
Proof.
  induction idx as [|idx IH]; intros [|x l] H; cbn [length] in H; try lia; cbn [pss_padding].
  - eexists. split; [reflexivity|]. rewrite Z.eqb_eq. cbn. split; [intros ->; reflexivity|]. intros E. injection E. auto.
  - destruct (Z.eqb_spec x 0) as [->|N].
    + destruct (IH l ltac:(lia)) as (b & E & Hb). exists b. split; [exact E|]. rewrite Hb. change (firstn (S (S idx)) (0 :: l)) with (0 :: firstn (S idx) l).
      cbn [repeat app]. split; [congruence|]. intros Q. injection Q. auto.
    + exists false. split; [reflexivity|]. split; [discriminate|]. cbn. intros Q. injection Q. congruence.
Qed.
Lemma land_127 x : is_byte x -> Z.land x 127 = x mod 128.
Proof. intros H. change 127 with (Z.ones 7). apply Z.land_ones. lia. Qed.
Lemma land_255 x : is_byte x -> Z.land x 255 = x.
Proof. intros H. red in H. change 255 with (Z.ones 8). rewrite Z.land_ones by lia. apply Z.mod_small. lia. Qed.
Lemma lxor_byte x y : is_byte x -> is_byte y -> is_byte (Z.lxor x y).
Proof.
  unfold is_byte. intros Hx Hy. split; [apply Z.lxor_nonneg; lia|]. destruct (Z.eq_dec (Z.lxor x y) 0) as [->|N]; [lia|].
  assert (P : 0 < Z.lxor x y) by (assert (0 <= Z.lxor x y) by (apply Z.lxor_nonneg; lia); lia).
  change 256 with (2 ^ 8). apply Z.log2_lt_pow2; [exact P|]. pose proof (Z.log2_lxor x y ltac:(lia) ltac:(lia)) as L.
  assert (Z.log2 x < 8) by (destruct (Z.eq_dec x 0) as [->|]; [cbn; lia|apply Z.log2_lt_pow2; lia]).
  assert (Z.log2 y < 8) by (destruct (Z.eq_dec y 0) as [->|]; [cbn; lia|apply Z.log2_lt_pow2; lia]). lia.
Qed.
Lemma app_inv_len {A} (a b c d : list A) : length a = length c -> a ++ b = c ++ d -> a = c /\ b = d.
Proof. revert c. induction a as [|x a IH]; intros [|y c] L E; cbn in *; try discriminate; [auto|]. injection E as -> E. destruct (IH c ltac:(lia) E). subst. auto. Qed.

Lemma pss_check_spec slen digest em : all_bytes em -> all_bytes digest -> Z.of_nat hlen + slen + 10 < 2 ^ 32 -> 0 <= slen ->
  0 < zlen em -> 8 * zlen em < 2 ^ 32 ->
  exists b, pss_check hash hlen (length em) (Some slen) digest em = Ok b /\
    (b = true <-> emsa_pss_consistent hash hlen (Z.to_nat slen) digest em (8 * zlen em - 1)).
Proof.
  intros Fe Fd Hs Ps Pe He. unfold zlen in *. set (L := length em) in *. unfold emsa_pss_consistent. fold L. unfold pss_check, zlen. fold L. cbv zeta.
  assert (SM : forall x, 0 <= x < 2 ^ 32 -> size32 x = x) by (intros x Hx; apply Z.mod_small; exact Hx).
  assert (T : Z.shiftr 255 (size32 (size32 (Z.of_nat L * 8) - size32 (size32 (Z.of_nat L * 8) - 1))) = 127).
  { rewrite (SM (Z.of_nat L * 8)) by lia. rewrite (SM (Z.of_nat L * 8 - 1)) by lia. replace (Z.of_nat L * 8 - (Z.of_nat L * 8 - 1)) with 1 by lia. reflexivity. }
  rewrite T. rewrite (SM (Z.of_nat hlen + slen)) by lia. rewrite (SM (Z.of_nat hlen + slen + 2)) by lia. rewrite (SM (8 + Z.of_nat hlen + slen)) by lia.
  destruct (Z.ltb_spec (Z.of_nat L) (Z.of_nat hlen + slen + 2)) as [H|H].
  { exists false. split; [reflexivity|]. split; [discriminate|]. intros [Q _]. lia. }
  set (sl := Z.to_nat slen). assert (Esl : slen = Z.of_nat sl) by (unfold sl; lia).
  rewrite (SM (Z.of_nat L - Z.of_nat hlen - 1)) by lia.
  set (dbl := Z.to_nat (Z.of_nat L - Z.of_nat hlen - 1)). assert (Edb : (dbl + hlen + 1 = L)%nat) by (unfold dbl; lia).
  replace (8 * Z.of_nat L - (8 * Z.of_nat L - 1)) with 1 by lia. change (8 - 1) with 7. change (2 ^ 7) with 128.
  set (MD := firstn dbl em). set (HH := firstn hlen (skipn dbl em)).
  assert (LMD : length MD = dbl) by (unfold MD; rewrite firstn_length; fold L; lia).
  assert (LHH : length HH = hlen) by (unfold HH; rewrite firstn_length, skipn_length; fold L; lia).
  assert (DE : exists lb, em = MD ++ HH ++ [lb]).
  { assert (LL : length (skipn hlen (skipn dbl em)) = 1%nat) by (rewrite !skipn_length; fold L; lia).
    destruct (skipn hlen (skipn dbl em)) as [|lb [|? ?]] eqn:ES; cbn in LL; try lia. exists lb. rewrite <- ES. unfold MD, HH. rewrite !firstn_skipn. reflexivity. }
  destruct DE as (lb & DE).
  assert (RV : rev em = lb :: rev (MD ++ HH)) by (rewrite DE, app_assoc, rev_app_distr; reflexivity).
  rewrite RV. cbn [bind].
  assert (UN : forall A B x, em = A ++ B ++ [x] -> length B = hlen -> A = MD /\ B = HH /\ x = lb).
  { intros A B x E LB. assert (LA : length A = length MD).
    { assert (Q : length em = (length A + (length B + 1))%nat) by (rewrite E, !app_length; reflexivity). fold L in Q. lia. }
    rewrite DE in E. symmetry in E. destruct (app_inv_len _ _ _ _ LA E) as [-> E2]. destruct (app_inv_len _ _ _ _ (eq_trans LB (eq_sym LHH)) E2) as [-> E3].
    injection E3 as ->. auto. }
  destruct (Z.eqb_spec lb 188) as [Elb|Nlb]; cbn [negb].
  2:{ exists false. split; [reflexivity|]. split; [discriminate|]. intros (_ & A & B & E & LB & _). destruct (UN A B 188 E LB) as (_ & _ & Q). congruence. }
  subst lb. rewrite at_ok by (fold L; lia). cbn [bind].
  assert (FMD : all_bytes MD) by (apply Forall_firstn; exact Fe).
  destruct MD as [|m0 mt] eqn:EMD; [cbn in LMD; lia|].
  assert (E0 : nth 0 em 0 = m0) by (rewrite DE; reflexivity). rewrite E0.
  pose proof (Forall_inv FMD) as Bm0. rewrite land_255, land_127 by exact Bm0. red in Bm0.
  destruct (Z.eqb_spec m0 (m0 mod 128)) as [E127|N127]; cbn [negb].
  2:{ exists false. split; [reflexivity|]. split; [discriminate|]. intros (_ & A & B & E & LB & Hh & _). destruct (UN A B 188 E LB) as (-> & _ & _). cbn [hd] in Hh.
      exfalso. apply N127. symmetry. apply Z.mod_small. lia. }
  assert (M128 : m0 < 128) by (rewrite E127; apply Z.mod_pos_bound; lia).
  rewrite !slice_ok by (fold L; lia). cbn [bind]. rewrite skipn_O. fold HH. replace (firstn dbl em) with (m0 :: mt) by (symmetry; exact EMD).
  rewrite <- EMD in *. clear EMD.
  rewrite mgf1_xor.
  2:{ unfold MD. apply Forall_firstn. exact Fe. }
  2:{ rewrite LMD. unfold ceil_div. assert ((dbl + hlen - 1) / hlen <= dbl + hlen - 1)%nat by (apply Nat.div_le_upper_bound; nia). lia. }
  cbn [bind]. rewrite LMD. set (X := xor_bytes MD (MGF1 hash hlen HH dbl)).
  assert (LX : length X = dbl).
  { unfold X, xor_bytes. rewrite map_length, combine_length, LMD, MGF1_length. lia. }
  assert (FX : all_bytes X).
  { unfold X, xor_bytes. apply Forall_forall. intros z Hz. apply in_map_iff in Hz. destruct Hz as ([u v] & <- & Huv). cbn [fst snd].
    apply lxor_byte; [apply in_combine_l in Huv|apply in_combine_r in Huv].
    - eapply Forall_forall; [|exact Huv]. unfold MD. apply Forall_firstn. exact Fe.
    - eapply Forall_forall; [|exact Huv]. apply MGF1_bytes. }
  destruct X as [|x0 xt] eqn:EX; [cbn in LX; lia|].
  rewrite land_127 by exact (Forall_inv FX). set (db := x0 mod 128 :: xt).
  assert (LD : length db = dbl) by (unfold db; cbn [length] in *; lia).
  assert (LT : length (db ++ skipn dbl em) = L) by (rewrite app_length, skipn_length, LD; fold L; lia).
  change ((x0 mod 128 :: xt) ++ skipn dbl em) with (db ++ skipn dbl em). rewrite LT, LD.
  rewrite (SM (Z.of_nat L - Z.of_nat hlen - slen - 2)) by lia.
  set (idx := Z.to_nat (Z.of_nat L - Z.of_nat hlen - slen - 2)). assert (Ei : (idx + hlen + sl + 2 = L)%nat) by (unfold idx; lia).
  destruct (pss_padding_spec idx (db ++ skipn dbl em)) as (b & Eb & Hb); [rewrite LT; lia|]. rewrite Eb. cbn [bind].
  rewrite firstn_app in Hb. replace (S idx - length db)%nat with 0%nat in Hb by lia. rewrite firstn_O, app_nil_r in Hb.
  replace (L - hlen - sl - 2)%nat with idx by lia. replace (L - hlen - 1)%nat with dbl by lia.
  assert (CT : clear_top 1 (xor_bytes MD (MGF1 hash hlen HH dbl)) = db) by (fold X; rewrite EX; reflexivity).
  destruct b; cbn [negb].
  2:{ exists false. split; [reflexivity|]. split; [discriminate|]. intros (_ & A & B & E & LB & Hh & salt & Ls & Ed & _).
      destruct (UN A B 188 E LB) as (-> & -> & _). rewrite CT in Ed. exfalso. assert (Q : false = true); [|discriminate]. apply Hb. rewrite Ed.
      rewrite app_assoc, firstn_app. rewrite app_length, repeat_length. cbn [length]. replace (S idx - (idx + 1))%nat with 0%nat by lia.
      rewrite firstn_O, app_nil_r, firstn_all2 by (rewrite app_length, repeat_length; cbn [length]; lia). reflexivity. }
  destruct (Z.ltb_spec (Z.of_nat dbl) slen) as [Q|Q]; [lia|]. cbn [bind]. fold sl. replace (dbl - sl)%nat with (S idx) by lia.
  rewrite (proj2 (Z.ltb_ge _ _)) by lia.
  assert (DB : db = repeat 0 idx ++ [1] ++ skipn (S idx) db).
  { rewrite <- (firstn_skipn (S idx) db) at 1. rewrite (proj1 Hb eq_refl). rewrite <- app_assoc. reflexivity. }
  eexists. split; [reflexivity|]. rewrite bytes_eqb_eq. split.
  - intros E. split; [lia|]. exists MD, HH. split; [exact DE|]. split; [exact LHH|].
    split; [replace (hd 0 MD) with m0; [exact M128|]|].
    { rewrite <- E0, DE. destruct MD; [cbn in LMD; lia|reflexivity]. }
    exists (skipn (S idx) db). split; [rewrite skipn_length; lia|]. rewrite CT. split; [exact DB|]. symmetry. exact E.
  - intros (_ & A & B & E & LB & Hh & salt & Ls & Ed & Hq). destruct (UN A B 188 E LB) as (-> & -> & _). rewrite CT in Ed.
    assert (ES : salt = skipn (S idx) db).
    { rewrite Ed, app_assoc, skipn_app. rewrite skipn_all2 by (rewrite app_length, repeat_length; cbn [length]; lia).
      rewrite app_length, repeat_length. cbn [length]. replace (S idx - (idx + 1))%nat with 0%nat by lia. reflexivity. }
    rewrite <- ES. symmetry. exact Hq.
Qed.
End MGFP.
