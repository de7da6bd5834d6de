(** The RSA actions of the example contract. *)
From Coq Require Import List ZArith Bool Lia.
From Verif Require Import Outcome UtilsModel UtilsSpec UtilsProofs MgfModel RsaModel RsaSpec RsaProofs RsaClaims ShaModel ShaSpec ShaProofs PowmModel PowmMain PowmClaims ContractModel ContractSpec.
Import ListNotations.
Open Scope Z_scope.

Lemma land_small_byte x y : is_byte x -> is_byte (Z.land y x).
Proof.
  intros H. unfold is_byte in *. replace (Z.land y x) with (Z.land (Z.land y x) 255).
  - change 255 with (Z.ones 8). rewrite Z.land_ones by lia. apply Z.mod_pos_bound. reflexivity.
  - rewrite <- Z.land_assoc. f_equal. change 255 with (Z.ones 8). rewrite Z.land_ones by lia. apply Z.mod_small. exact H.
Qed.
Lemma counter_bytes_ok n : all_bytes (counter_bytes n) /\ length (counter_bytes n) = 4%nat.
Proof.
  split; [|reflexivity]. unfold counter_bytes. change 255 with (Z.ones 8). rewrite !Z.land_ones by lia. repeat constructor; apply Z.mod_pos_bound; reflexivity.
Qed.
Lemma mgf1_loop_ext hash hash' copy seed fuel : (forall n, hash (seed ++ counter_bytes n) = hash' (seed ++ counter_bytes n)) ->
  forall mask n, mgf1_loop hash copy fuel seed mask n = mgf1_loop hash' copy fuel seed mask n.
Proof.
  intros H. induction fuel as [|fuel IH]; intros mask n; [reflexivity|]. destruct mask as [|x mask]; [reflexivity|]. cbn [mgf1_loop]. cbv zeta. rewrite H.
  destruct (copy _ _ _) as [m| | |]; cbn [bind]; [rewrite IH|..]; reflexivity.
Qed.
Section EXT.
Variables hash hash' : list Z -> list Z.
Variable hlen : nat.
Hypothesis same : forall m, all_bytes m -> Z.of_nat (length m) < 2 ^ 64 -> hash m = hash' m.
Hypothesis ok' : hash_ok hash' hlen.
Lemma pss_check_ext nlen salt_len digest em : all_bytes em -> all_bytes digest -> Z.of_nat (length digest) < 2 ^ 32 -> Z.of_nat hlen < 2 ^ 32 -> zlen em < 2 ^ 32 ->
  pss_check hash hlen nlen salt_len digest em = pss_check hash' hlen nlen salt_len digest em.
Proof.
  intros Ae Ad Ld Lh Le. unfold pss_check. cbv zeta. destruct (_ <? _); [reflexivity|]. destruct (match rev em with b :: _ => Ok b | [] => UB end) as [b| | |]; cbn [bind]; try reflexivity.
  destruct (negb (b =? 188)); [reflexivity|]. destruct (at_ em 0) as [e0| | |]; cbn [bind]; try reflexivity. destruct (negb _); [reflexivity|].
  set (dblen := Z.to_nat (size32 (zlen em - Z.of_nat hlen - 1))). unfold slice.
  destruct (Nat.leb_spec (0 + dblen) (length em)) as [L1|L1]; cbn [bind]; [|reflexivity]. destruct (Nat.leb_spec (dblen + hlen) (length em)) as [L2|L2]; cbn [bind]; [|reflexivity].
  rewrite skipn_O. set (db := firstn dblen em). set (h := firstn hlen (skipn dblen em)).
  assert (Ah : all_bytes h) by (apply Forall_firstn, Forall_skipn; exact Ae). assert (Adb : all_bytes db) by (apply Forall_firstn; exact Ae).
  assert (Lhh : (length h <= hlen)%nat) by (unfold h; rewrite firstn_length; lia). assert (Ldb : (length db <= length em)%nat) by (unfold db; rewrite firstn_length; lia).
  unfold zlen in *.
  assert (EM : mgf1 hash copy_xor h db = mgf1 hash' copy_xor h db).
  { unfold mgf1. apply mgf1_loop_ext. intros n. destruct (counter_bytes_ok n) as (Ac & Lc). apply same; [apply Forall_app; auto|]. rewrite app_length. lia. }
  rewrite EM. destruct ok' as (Hp & Hl & Hb).
  assert (XR : exists r, mgf1 hash' copy_xor h db = Ok r /\ all_bytes r /\ length r = length db).
  { destruct (mgf1_claim hash' hlen h db ok' Adb) as (_ & K & KL). { nia. }
    eexists. split; [exact K|]. unfold xor_bytes. split; [|rewrite map_length, combine_length, KL; lia].
    apply Forall_forall. intros z Hz. apply in_map_iff in Hz. destruct Hz as ([u v] & <- & Huv). cbn [fst snd].
    apply UtilsProofs.lxor_byte; [apply in_combine_l in Huv|apply in_combine_r in Huv].
    - apply (proj1 (Forall_forall _ _) Adb u Huv).
    - apply (proj1 (Forall_forall _ _) (MGF1_bytes hash' hlen Hb h (length db)) v Huv). }
  destruct XR as (r & -> & Ar & Lr). cbn [bind]. destruct r as [|d0 dt]; [reflexivity|]. destruct (pss_padding _ _) as [[|]| | |]; cbn [bind negb]; try reflexivity.
  destruct (_ <? _); cbn [bind]; [reflexivity|]. destruct (_ <? _); [reflexivity|].
  f_equal. f_equal. apply same.
  - apply Forall_app. split; [apply Forall_forall; intros x Hx; apply repeat_spec in Hx; subst; unfold is_byte; lia|]. apply Forall_app. split; [exact Ad|]. apply Forall_skipn. inversion Ar as [|? ? B0 B1]; subst. constructor; [|exact B1].
    rewrite Z.land_comm. apply land_small_byte. exact B0.
  - rewrite !app_length, repeat_length, skipn_length. cbn [length] in *. lia.
Qed.
End EXT.

(** ** SHA-384 as a hash function *)
Lemma round_8 s kw : length s = 8%nat -> length (round s kw) = 8%nat.
Proof. intros L. do 9 (destruct s as [|? s]; [discriminate L + reflexivity|]). discriminate L. Qed.
Lemma compress_8 K H b : length H = 8%nat -> length (compress K H b) = 8%nat.
Proof.
  intros L. unfold compress. rewrite map_length, combine_length, L.
  assert (R : forall l s, length s = 8%nat -> length (fold_left round l s) = 8%nat) by (induction l as [|x l IH]; intros s Ls; [exact Ls|]; cbn [fold_left]; apply IH, round_8, Ls).
  rewrite R by exact L. reflexivity.
Qed.
Lemma sha384_ok K H : length H = 8%nat -> hash_ok (ShaSpec.SHA384 K H) 48.
Proof.
  intros L. split; [lia|].
  assert (FB : forall l, all_bytes (flat_map (fun w => I2OSP w 8) l)) by (induction l as [|x l IH]; [constructor|]; cbn [flat_map]; apply Forall_app; split; [apply I2OSP_bytes|exact IH]).
  assert (FL : forall l, length (flat_map (fun w => I2OSP w 8) l) = (8 * length l)%nat) by (induction l as [|x l IH]; [reflexivity|]; cbn [flat_map]; rewrite app_length, I2OSP_length, IH; cbn [length]; lia).
  assert (R : forall l s, length s = 8%nat -> length (fold_left (compress K) l s) = 8%nat) by (induction l as [|x l IH]; intros s Ls; [exact Ls|]; cbn [fold_left]; apply IH, compress_8, Ls).
  split; intros m; unfold ShaSpec.SHA384; cbv zeta.
  - rewrite firstn_length, FL, R by exact L. reflexivity.
  - apply Forall_firstn. apply FB.
Qed.

(** ** the actions *)
Section ACTIONS.
Variables sha1 sha256 sha512 : list Z -> list Z.
Hypothesis HH : host_ok sha1 sha256 sha512.
Variable junk : list Z.
Hypothesis LJ : length junk = 128%nat.
Hypothesis FJ : all_bytes junk.
Notation the_hash := (action_hash sha1 sha256 sha512 K_512 sha384_initial).
Notation run := (run_hash sha1 sha256 sha512 junk).
Lemma the_hash_ok k : hash_ok (the_hash k) (hash_size k).
Proof. destruct HH as (A & B & C). destruct k; cbn [action_hash hash_size]; try assumption. apply sha384_ok. reflexivity. Qed.
Lemma run_hash_ok k m : all_bytes m -> Z.of_nat (length m) < 2 ^ 64 -> run k m = Ok (the_hash k m).
Proof. intros A L. destruct k; cbn [run_hash action_hash]; try reflexivity. apply sha384_claim; assumption. Qed.
Variable mod_exp : list Z -> list Z -> list Z -> outcome (option (list Z)).
Lemma rsa_action_claim k n e msg sig : all_bytes msg -> Z.of_nat (length msg) < 2 ^ 64 -> exponent_ok e -> all_bytes sig -> all_bytes n -> no_leading_zero n -> exact_for mod_exp n e ->
  let valid := rsassa_pkcs1_valid (OS2IP n) (OS2IP e) (length n) (digest_info (action_oid k) (the_hash k msg)) sig in
  (valid -> rsa_action sha1 sha256 sha512 junk mod_exp k n e msg sig = Ok tt) /\ (~ valid -> rsa_action sha1 sha256 sha512 junk mod_exp k n e msg sig = Abort).
Proof.
  intros Am Lm He As An Nn Ex. cbv zeta. unfold rsa_action. rewrite run_hash_ok by assumption. cbn [bind]. destruct (the_hash_ok k) as (_ & HL & _). specialize (HL msg).
  destruct (pkcs1_types mod_exp n e sig (the_hash k msg) He As An Nn Ex) as (C1 & C2 & C3 & C4).
  assert (R : exists b, verify_rsa mod_exp k n e (the_hash k msg) sig = Ok b /\ (b = true <-> rsassa_pkcs1_valid (OS2IP n) (OS2IP e) (length n) (digest_info (action_oid k) (the_hash k msg)) sig)).
  { destruct k; cbn [hash_size] in HL; cbn [verify_rsa action_oid]; auto. }
  destruct R as (b & -> & Rb). unfold assert_true. cbn [bind]. destruct b; cbn [check].
  - split; [reflexivity|]. intros Q. destruct Q. apply Rb. reflexivity.
  - split; [|reflexivity]. intros Q. apply Rb in Q. discriminate.
Qed.
Lemma pss_action_claim k n e salt_len msg sig : all_bytes msg -> Z.of_nat (length msg) < 2 ^ 64 -> exponent_ok e -> all_bytes sig -> all_bytes n -> full_top_byte n -> exact_for mod_exp n e ->
  let slen := match salt_len with Some s => s | None => Z.of_nat (hash_size k) end in
  0 <= slen -> Z.of_nat (hash_size k) + slen + 10 < 2 ^ 32 -> 8 * zlen n < 2 ^ 32 ->
  let valid := rsassa_pss_valid (the_hash k) (hash_size k) (Z.to_nat slen) (OS2IP n) (OS2IP e) (length n) (the_hash k msg) sig in
  (valid -> pss_action sha1 sha256 sha512 junk mod_exp k n e salt_len msg sig = Ok tt) /\ (~ valid -> pss_action sha1 sha256 sha512 junk mod_exp k n e salt_len msg sig = Abort).
Proof.
  intros Am Lm He As An Fn Ex slen S0 S1 Ln. cbv zeta. unfold pss_action. rewrite run_hash_ok by assumption. cbn [bind]. destruct (the_hash_ok k) as (H0 & HL & HB).
  assert (Nn : no_leading_zero n) by (destruct n as [|b n]; [contradiction|]; cbn in *; lia).
  assert (E : rsassa_pss_mgf1_verify mod_exp (fun m => answer (run k m)) (hash_size k) n e salt_len (the_hash k msg) sig = rsassa_pss_mgf1_verify mod_exp (the_hash k) (hash_size k) n e salt_len (the_hash k msg) sig).
  { unfold rsassa_pss_mgf1_verify. destruct (Nat.eqb_spec (length sig) (length n)) as [L|L]; cbn [negb]; [|reflexivity]. rewrite rsavp1_spec by assumption. cbn [bind]. apply pss_check_ext.
    - intros m A L'. rewrite run_hash_ok by assumption. reflexivity.
    - apply the_hash_ok.
    - destruct (_ <? _); [apply I2OSP_bytes|constructor].
    - apply HB.
    - rewrite HL. clear. destruct k; reflexivity.
    - clear. destruct k; reflexivity.
    - unfold zlen in *. destruct (_ <? _); [rewrite I2OSP_length; lia|reflexivity]. }
  rewrite E. destruct (pss_claim mod_exp (the_hash k) (hash_size k) n e salt_len (the_hash k msg) sig (the_hash_ok k) He As (HB msg) An Fn Ex S0 S1 Ln) as (b & -> & Rb).
  unfold assert_true. cbn [bind]. destruct b; cbn [check].
  - split; [reflexivity|]. intros Q. destruct Q. apply Rb. reflexivity.
  - split; [|reflexivity]. intros Q. apply Rb in Q. discriminate.
Qed.
End ACTIONS.
