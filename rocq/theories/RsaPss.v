(** PSS verification for every modulus without leading zero byte and every salt length. *)
From Coq Require Import List ZArith Bool Lia.
From Verif Require Import Outcome UtilsModel UtilsSpec UtilsProofs MgfModel RsaModel RsaSpec RsaProofs RsaClaims RsaPssSpec ShaModel ShaSpec ShaProofs PowmModel PowmMain PowmClaims ContractModel ContractSpec ContractRsa.
Import ListNotations.
Open Scope Z_scope.

Lemma pss_padding_range l : forall idx, (exists b, pss_padding l idx = Ok b) \/ pss_padding l idx = UB.
Proof.
  induction l as [|x l IH]; intros idx; [right; reflexivity|]. destruct idx as [|idx]; cbn [pss_padding]; [left; eauto|].
  destruct (x =? 0); [apply IH|left; eauto].
Qed.
Section PSS.
Variable hash : list Z -> list Z.
Variable hlen : nat.
Hypothesis ok : hash_ok hash hlen.
Hypothesis small : Z.of_nat hlen < 2 ^ 31.

(** a salt length whose check wraps is never accepted *)
Lemma pss_check_wrap slen digest em : all_bytes em -> 8 * zlen em < 2 ^ 32 -> slen < 2 ^ 32 -> 2 ^ 32 <= Z.of_nat hlen + slen + 2 ->
  pss_check hash hlen (length em) (Some slen) digest em = Ok false \/ pss_check hash hlen (length em) (Some slen) digest em = UB.
Proof.
  intros Fe Le Hs Hw. unfold pss_check. cbv zeta. destruct (_ <? _); [auto|]. destruct (rev em) as [|b l]; cbn [bind]; [auto|]. destruct (negb (b =? 188)); [auto|].
  unfold at_. destruct (Nat.ltb 0 (length em)) eqn:L0; [|destruct em; cbn in *; auto; discriminate].
  destruct (nth_error em 0) as [e0|] eqn:E0; [|auto]. cbn [bind]. destruct (negb _); [auto|].
  set (dblen := Z.to_nat (size32 (zlen em - Z.of_nat hlen - 1))). unfold slice. destruct (Nat.leb_spec (0 + dblen) (length em)) as [L1|L1]; cbn [bind]; [|auto].
  destruct (Nat.leb (dblen + hlen) (length em)); cbn [bind]; [|auto].
  set (h := firstn hlen (skipn dblen em)). set (db := firstn dblen (skipn 0 em)).
  assert (Fdb : all_bytes db) by (apply Forall_firstn; rewrite skipn_O; exact Fe). assert (Ldb : (length db <= length em)%nat) by (unfold db; rewrite firstn_length, skipn_O; lia).
  destruct ok as (Hp & Hl & Hb). unfold zlen in *.
  destruct (mgf1_claim hash hlen h db ok Fdb ltac:(nia)) as (_ & K & KL). rewrite K. cbn [bind].
  destruct (xor_bytes db (MGF1 hash hlen h (length db))) as [|d0 dt] eqn:EX; [auto|].
  assert (Lx : length (d0 :: dt) = length db) by (rewrite <- EX; unfold xor_bytes; rewrite map_length, combine_length, KL; lia).
  destruct (pss_padding_range ((Z.land d0 (Z.shiftr 255 (size32 (size32 (Z.of_nat (length em) * 8) - size32 (size32 (Z.of_nat (length em) * 8) - 1)))) :: dt) ++ skipn dblen em)
    (Z.to_nat (size32 (Z.of_nat (length ((Z.land d0 (Z.shiftr 255 (size32 (size32 (Z.of_nat (length em) * 8) - size32 (size32 (Z.of_nat (length em) * 8) - 1)))) :: dt) ++ skipn dblen em)) - Z.of_nat hlen - slen - 2)))) as [(b' & ->)| ->]; cbn [bind]; [|auto].
  destruct b'; cbn [negb]; [|auto]. right. cbn [length] in *. rewrite (proj2 (Z.ltb_lt _ _)) by lia. reflexivity.
Qed.

Variable mod_exp : list Z -> list Z -> list Z -> outcome (option (list Z)).
Lemma pss_bytes_claim n e salt_len digest sig : exponent_ok e -> all_bytes sig -> all_bytes digest -> all_bytes n ->
  no_leading_zero n -> exact_for mod_exp n e ->
  let slen := match salt_len with Some s => s | None => Z.of_nat hlen end in
  0 <= slen < 2 ^ 32 -> 8 * zlen n < 2 ^ 32 ->
  let run := rsassa_pss_mgf1_verify mod_exp hash hlen n e salt_len digest sig in
  (run = Ok true <-> pss_valid_bytes hash hlen (Z.to_nat slen) (OS2IP n) (OS2IP e) (length n) digest sig) /\
  (run = Ok true \/ run = Ok false \/ run = UB) /\ (Z.of_nat hlen + slen + 2 < 2 ^ 32 -> run <> UB).
Proof.
  intros He Fs Fd Fn Hn Hx slen Ps Hk. cbv zeta.
  assert (ES : forall em, pss_check hash hlen (length n) salt_len digest em = pss_check hash hlen (length n) (Some slen) digest em) by (intros em; unfold slen; destruct salt_len; reflexivity).
  unfold rsassa_pss_mgf1_verify, pss_valid_bytes. destruct (Nat.eqb_spec (length sig) (length n)) as [L|L]; cbn [negb].
  2:{ split; [split; [discriminate|intros [E _]; congruence]|]. split; [auto|discriminate]. }
  rewrite rsavp1_spec by assumption. cbn [bind]. rewrite ES.
  assert (Ln : (0 < length n)%nat) by (destruct n; [contradiction|cbn; lia]). unfold zlen in *.
  destruct (Z.ltb_spec (OS2IP sig) (OS2IP n)) as [H|H].
  - set (m := OS2IP sig ^ OS2IP e mod OS2IP n). set (em := I2OSP m (length n)). assert (Lm : length em = length n) by apply I2OSP_length.
    assert (Fe : all_bytes em) by apply I2OSP_bytes. rewrite <- Lm.
    destruct (Z.ltb_spec (Z.of_nat hlen + slen + 10) (2 ^ 32)) as [W|W].
    + destruct ok as (Hp & Hl & Hb). destruct (pss_check_spec hash hlen Hl Hb Hp slen digest em) as (b & E & Hc); try assumption; [lia|unfold zlen; lia|unfold zlen; lia|].
      rewrite E. unfold zlen in Hc. split; [|split; [destruct b; auto|discriminate]].
      split; [intros [= ->]; split; [lia|]; split; [exact H|apply Hc; reflexivity]|]. intros (_ & _ & Q). f_equal. apply Hc. exact Q.
    + destruct (Z.ltb_spec (Z.of_nat hlen + slen + 2) (2 ^ 32)) as [W2|W2].
      * assert (E : pss_check hash hlen (length em) (Some slen) digest em = Ok false).
        { unfold pss_check. cbv zeta. unfold size32 at 1 2. rewrite (Z.mod_small (Z.of_nat hlen + slen)) by lia. rewrite (Z.mod_small (_ + 2)) by lia. unfold zlen. rewrite (proj2 (Z.ltb_lt _ _)) by lia. reflexivity. }
        rewrite E. split; [split; [discriminate|]|split; [auto|discriminate]]. intros (_ & _ & Q & _). lia.
      * destruct (pss_check_wrap slen digest em Fe) as [E|E]; [unfold zlen; lia|lia|lia| |]; rewrite E.
        -- split; [split; [discriminate|]|split; [auto|lia]]. intros (_ & _ & Q & _). lia.
        -- split; [split; [discriminate|]|split; [auto|lia]]. intros (_ & _ & Q & _). lia.
  - assert (E : pss_check hash hlen (length n) (Some slen) digest [] = Ok false \/ (2 ^ 32 <= Z.of_nat hlen + slen + 2 /\ pss_check hash hlen (length n) (Some slen) digest [] = UB)).
    { unfold pss_check. cbv zeta. destruct (Z.ltb_spec (zlen []) (size32 (size32 (Z.of_nat hlen + slen) + 2))) as [Q|Q]; [auto|].
      right. split; [|reflexivity]. destruct (Z.le_gt_cases (2 ^ 32) (Z.of_nat hlen + slen + 2)) as [W|W]; [exact W|]. exfalso.
      unfold size32 in Q. rewrite (Z.mod_small (Z.of_nat hlen + slen)) in Q by lia. rewrite (Z.mod_small (_ + 2)) in Q by lia. unfold zlen in Q. cbn in Q. lia. }
    destruct E as [E|(W & E)]; rewrite E; (split; [split; [discriminate|intros (_ & Q & _); lia]|]); (split; [auto|]); [discriminate|lia].
Qed.
Lemma pss_bytes_std slen n e k mhash sig : all_bytes n -> full_top_byte n -> k = length n ->
  pss_valid_bytes hash hlen slen (OS2IP n) e k mhash sig <-> rsassa_pss_valid hash hlen slen (OS2IP n) e k mhash sig.
Proof.
  intros An Fn ->. unfold rsassa_pss_valid, pss_valid_bytes. rewrite full_log2 by assumption. cbv zeta. unfold zlen.
  replace (Z.to_nat ((8 * Z.of_nat (length n) - 1 + 7) / 8)) with (length n).
  2:{ replace (8 * Z.of_nat (length n) - 1 + 7) with (6 + Z.of_nat (length n) * 8) by lia. rewrite Z.div_add by lia. change (6 / 8) with 0. lia. }
  pose proof (OS2IP_range n An) as Rn.
  assert (M : 0 < OS2IP n) by (destruct n as [|b n]; [contradiction|]; cbn in Fn; pose proof (OS2IP_range n (Forall_inv_tail An)); rewrite OS2IP_cons; assert (0 < 256 ^ Z.of_nat (length n)) by (apply Z.pow_pos_nonneg; lia); nia).
  pose proof (Z.mod_pos_bound (OS2IP sig ^ e) (OS2IP n) M). intuition lia.
Qed.
Lemma pss_all_salts n e salt_len digest sig : exponent_ok e -> all_bytes sig -> all_bytes digest -> all_bytes n -> full_top_byte n -> exact_for mod_exp n e ->
  let slen := match salt_len with Some s => s | None => Z.of_nat hlen end in
  0 <= slen < 2 ^ 32 -> 8 * zlen n < 2 ^ 32 ->
  rsassa_pss_mgf1_verify mod_exp hash hlen n e salt_len digest sig = Ok true <-> rsassa_pss_valid hash hlen (Z.to_nat slen) (OS2IP n) (OS2IP e) (length n) digest sig.
Proof.
  intros He Fs Fd Fn Hn Hx slen Ps Hk. rewrite <- (pss_bytes_std (Z.to_nat slen) n (OS2IP e) (length n) digest sig Fn Hn eq_refl).
  apply pss_bytes_claim; try assumption. destruct n; [contradiction|]; cbn in *; lia.
Qed.
End PSS.

Section ACTIONS.
Variables sha1 sha256 sha512 : list Z -> list Z.
Hypothesis HH : host_ok sha1 sha256 sha512.
Variable junk : list Z.
Hypothesis LJ : length junk = 128%nat.
Hypothesis FJ : all_bytes junk.
Notation the_hash := (action_hash sha1 sha256 sha512 K_512 sha384_initial).
Notation run := (run_hash sha1 sha256 sha512 junk).
Variable mod_exp : list Z -> list Z -> list Z -> outcome (option (list Z)).
Lemma pss_action_bytes k n e salt_len msg sig : all_bytes msg -> Z.of_nat (length msg) < 2 ^ 64 -> exponent_ok e -> all_bytes sig -> all_bytes n -> no_leading_zero n -> exact_for mod_exp n e ->
  let slen := match salt_len with Some s => s | None => Z.of_nat (hash_size k) end in
  0 <= slen < 2 ^ 32 -> 8 * zlen n < 2 ^ 32 ->
  let valid := pss_valid_bytes (the_hash k) (hash_size k) (Z.to_nat slen) (OS2IP n) (OS2IP e) (length n) (the_hash k msg) sig in
  let act := pss_action sha1 sha256 sha512 junk mod_exp k n e salt_len msg sig in
  (act = Ok tt <-> valid) /\ (act = Ok tt \/ act = Abort \/ act = UB) /\ (Z.of_nat (hash_size k) + slen + 2 < 2 ^ 32 -> act <> UB).
Proof.
  intros Am Lm He As An Nn Ex slen S0 Ln. cbv zeta. unfold pss_action. pose proof (the_hash_ok sha1 sha256 sha512 HH k) as HO. destruct HO as (H0 & HL & HB).
  assert (RH : forall m, all_bytes m -> Z.of_nat (length m) < 2 ^ 64 -> run k m = Ok (the_hash k m)) by (intros m A L; apply run_hash_ok; assumption).
  rewrite RH by assumption. cbn [bind].
  assert (E : rsassa_pss_mgf1_verify mod_exp (fun m => answer (run k m)) (hash_size k) n e salt_len (the_hash k msg) sig = rsassa_pss_mgf1_verify mod_exp (the_hash k) (hash_size k) n e salt_len (the_hash k msg) sig).
  { unfold rsassa_pss_mgf1_verify. destruct (Nat.eqb_spec (length sig) (length n)) as [L|L]; cbn [negb]; [|reflexivity]. rewrite rsavp1_spec by assumption. cbn [bind]. apply pss_check_ext.
    - intros m A L'. rewrite RH by assumption. reflexivity.
    - apply the_hash_ok; assumption.
    - destruct (_ <? _); [apply I2OSP_bytes|constructor].
    - apply HB.
    - rewrite HL. clear. destruct k; reflexivity.
    - clear. destruct k; reflexivity.
    - unfold zlen in *. destruct (_ <? _); [rewrite I2OSP_length; lia|reflexivity]. }
  rewrite E. assert (SM : Z.of_nat (hash_size k) < 2 ^ 31) by (clear; destruct k; reflexivity).
  destruct (pss_bytes_claim (the_hash k) (hash_size k) (the_hash_ok sha1 sha256 sha512 HH k) SM mod_exp n e salt_len (the_hash k msg) sig He As (HB msg) An Nn Ex S0 Ln) as (C1 & C2 & C3).
  fold slen in C1, C3. destruct C2 as [R|[R|R]]; rewrite R in *; unfold assert_true; cbn [bind check].
  - split; [split; [intros _; apply C1; reflexivity|reflexivity]|]. split; [auto|discriminate].
  - split; [split; [discriminate|intros Q; apply C1 in Q; discriminate]|]. split; [auto|discriminate].
  - split; [split; [discriminate|intros Q; apply C1 in Q; discriminate]|]. split; [auto|]. intros Q. exfalso. apply (C3 Q). reflexivity.
Qed.
End ACTIONS.
