(** RSA verification over memory with a modulus that has leading zero bytes. *)
From Coq Require Import List ZArith Bool Lia PeanoNat.
From Verif Require Import Outcome UtilsModel UtilsSpec UtilsProofs RsaModel RsaSpec RsaProofs RsaClaims ContractModel ContractSpec RsaSignSpec RsaSignClaims PowmModel PowmSpec PowmClaims EvenSpec EvenPowm
  RawModel RawSpec RawProofs RawAlloc PowmRawModel PowmRaw WholeModel WholeProofs WholeMain WholeView MgfModel RsaMemModel RsaMemProofs RsaMemPss EvenMem EvenClaims LeadSpec.
Import ListNotations.
Open Scope Z_scope.

Lemma pkcs1_of_power junk jt m sig exp mod_ bs el ms v prefix digest : reads m sig bs -> reads m mod_ ms -> length bs = length ms -> is_s_valid bs ms = true ->
  powm_view_w junk m sig (length bs) exp el mod_ (length ms) = Ok (v, m) ->
  exists b, pkcs1_w junk jt m sig (length bs) exp el mod_ (length ms) prefix digest = Ok (b, m) /\ (b = true <-> (length (prefix ++ digest) + 11 <= length v)%nat /\ v = emsa_pkcs1 (prefix ++ digest) (length v)).
Proof.
  intros Rb Rm LL V P. unfold pkcs1_w. rewrite (proj2 (Nat.eqb_eq _ _) LL). cbn [negb]. unfold rsavp1_w. rewrite (valid_ok m sig mod_ bs ms) by assumption. cbn [bind]. rewrite V, P. cbn [bind fst snd].
  destruct (place_ok m v) as (m1 & E & X & R & L). pose proof (blk_place m v) as B. rewrite E in B. rewrite E.
  destruct (pkcs1_check_ok jt m1 (length m, 0%nat) v prefix digest B) as (m2 & -> & K); [cbn; lia|]. destruct (pkcs1_check_spec v (prefix ++ digest)) as (b & -> & Hb). cbn [bind fst snd].
  exists b. split; [|exact Hb]. rewrite (kept_leave m m2); [reflexivity|]. apply (kept_trans m m1 m2); [apply kept_extends; exact X|exact K].
Qed.
Lemma fewer_valid bs z n t : n <> 0 -> (leading_zeros bs < z)%nat -> is_s_valid bs (repeat 0 z ++ n :: t) = true.
Proof.
  intros Hn H. unfold is_s_valid. rewrite zeros_of by exact Hn. destruct (Nat.eqb _ _); [reflexivity|]. rewrite (proj2 (Nat.ltb_lt _ _) H). reflexivity.
Qed.
Lemma zeros_repeat z l : leading_zeros (repeat 0 z ++ l) = (z + leading_zeros l)%nat.
Proof. induction z as [|z IH]; [reflexivity|]. cbn [repeat app leading_zeros]. rewrite IH. reflexivity. Qed.
Lemma zeros_prefix z : forall l, (z <= leading_zeros l)%nat -> l = repeat 0 z ++ skipn z l.
Proof. induction z as [|z IH]; intros l H; [reflexivity|]. destruct l as [|[|p|p] l]; cbn [leading_zeros] in H; try lia. cbn [repeat app skipn]. f_equal. apply IH. lia. Qed.
Lemma strip_valid z s n t : n <> 0 -> is_s_valid (repeat 0 z ++ s) (repeat 0 z ++ n :: t) = is_s_valid s (n :: t).
Proof.
  intros Hn. unfold is_s_valid. rewrite !zeros_repeat, !app_length, repeat_length. assert (L0 : leading_zeros (n :: t) = 0%nat) by (destruct n; [congruence|reflexivity|reflexivity]). rewrite L0, Nat.add_0_r.
  assert (K : forall l k, skipn (z + k) (repeat 0 z ++ l) = skipn k l) by (intros l k; rewrite skipn_app, repeat_length, skipn_all2 by (rewrite repeat_length; lia); replace (z + k - z)%nat with k by lia; reflexivity).
  pose proof (K (n :: t) 0%nat) as K0. rewrite Nat.add_0_r in K0. rewrite K, K0. rewrite (proj2 (Nat.ltb_ge (z + leading_zeros s) z)) by lia. rewrite (proj2 (Nat.ltb_ge (leading_zeros s) 0)) by lia.
  replace (z + length s - (z + leading_zeros s))%nat with (length s - leading_zeros s)%nat by lia. replace (z + length (n :: t) - z)%nat with (length (n :: t) - 0)%nat by lia.
  replace (Nat.eqb (z + leading_zeros s) (z + length s)) with (Nat.eqb (leading_zeros s) (length s)); [reflexivity|]. destruct (Nat.eqb_spec (leading_zeros s) (length s)); symmetry; [apply Nat.eqb_eq|apply Nat.eqb_neq]; lia.
Qed.
Lemma valid_all bs z n t : all_bytes bs -> all_bytes (n :: t) -> n <> 0 -> is_s_valid bs (repeat 0 z ++ n :: t) = (Nat.ltb (leading_zeros bs) z || (OS2IP bs <? OS2IP (n :: t))).
Proof.
  intros Fb Fn Hn. destruct (Nat.ltb_spec (leading_zeros bs) z) as [L|G]; [apply fewer_valid; assumption|]. cbn [orb].
  pose proof (zeros_prefix z bs G) as E. remember (skipn z bs) as s eqn:Es. clear Es G. subst bs. rewrite strip_valid by exact Hn. apply Forall_app in Fb as [_ Fb]. rewrite is_s_valid_spec; [|exact Fb|exact Fn|inversion Fn as [|? ? Hb]; subst; unfold is_byte in Hb; cbn; lia].
  rewrite OS2IP_app, PowmMain.OS2IP_zeros. reflexivity.
Qed.
Lemma valid_below bs z n t : all_bytes bs -> all_bytes (n :: t) -> n <> 0 -> (leading_zeros bs < z)%nat \/ OS2IP bs < OS2IP (n :: t) -> is_s_valid bs (repeat 0 z ++ n :: t) = true.
Proof.
  intros Fb Fn Hn H. rewrite valid_all by assumption. destruct H as [H|H]; [rewrite (proj2 (Nat.ltb_lt _ _) H); reflexivity|rewrite (proj2 (Z.ltb_lt _ _) H); apply orb_true_r].
Qed.
Section LEAD.
Variables (hi lo es : list Z) (n : Z) (t : list Z).
Hypothesis Fe : all_bytes es. Hypothesis Fn : all_bytes (n :: t). Hypothesis n0 : n <> 0. Hypothesis Ln : length (n :: t) = length hi. Hypothesis L4 : (length hi mod 4 = 0)%nat. Hypothesis LB : Z.of_nat (length hi) < 2 ^ 27.
Hypothesis Le : (length es <= 8)%nat. Hypothesis Oe : Z.odd (OS2IP es) = true. Hypothesis E3 : 3 <= OS2IP es.
Hypothesis Bd : OS2IP hi < OS2IP (n :: t) \/ 256 ^ Z.of_nat (length hi) <= 2 * OS2IP (n :: t).
Let N := OS2IP (n :: t). Let ms := repeat 0 (length lo) ++ n :: t.
Lemma lead_power junk m sig exp mod_ : all_bytes (hi ++ lo) -> (length lo mod 4 = 0)%nat -> reads m sig (hi ++ lo) -> reads m exp es -> reads m mod_ ms ->
  powm_view_w junk m sig (length (hi ++ lo)) exp (length es) mod_ (length ms) = Ok (half_raised N (effective (OS2IP es)) hi lo, m).
Proof.
  intros Fb J4 Rb Re Rm. assert (Le' : (0 < length es <= 8)%nat) by (destruct es; [discriminate|cbn [length] in *; lia]). unfold half_raised, raised, ms. destruct (Z.even N) eqn:Ev.
  - unfold N. apply view_high; assumption.
  - destruct (view_ok junk m sig exp mod_ hi lo es n t) as (v & E & _ & _ & V); try assumption; [fold N; rewrite <- Z.negb_even, Ev; reflexivity|]. rewrite E, (V Bd). reflexivity.
Qed.
Lemma half_length e : length (half_raised N e hi lo) = length (hi ++ lo).
Proof. unfold half_raised. rewrite !app_length, I2OSP_length. reflexivity. Qed.
Lemma lead_accepted junk jt k m sig exp mod_ digest : all_bytes (hi ++ lo) -> (length lo mod 4 = 0)%nat -> reads m sig (hi ++ lo) -> reads m exp es -> reads m mod_ ms -> length digest = hash_size k ->
  let T := digest_info (action_oid k) digest in
  exists b, verify_rsa_w junk jt k m sig (length (hi ++ lo)) exp (length es) mod_ (length ms) digest = Ok (b, m) /\
  (b = true <-> ((leading_zeros (hi ++ lo) < length lo)%nat \/ OS2IP (hi ++ lo) < N) /\ (length T + 11 <= length (hi ++ lo))%nat /\ half_raised N (effective (OS2IP es)) hi lo = emsa_pkcs1 T (length (hi ++ lo))).
Proof.
  intros Fb J4 Rb Re Rm Ld T. assert (P : RsaMemModel.prefix_of k ++ digest = T) by (unfold T; rewrite prefix_info by exact Ld; destruct k; reflexivity).
  assert (LL : length (hi ++ lo) = length ms) by (unfold ms; rewrite !app_length, repeat_length; lia).
  assert (V : is_s_valid (hi ++ lo) ms = (Nat.ltb (leading_zeros (hi ++ lo)) (length lo) || (OS2IP (hi ++ lo) <? N))) by (apply valid_all; assumption).
  destruct (is_s_valid (hi ++ lo) ms) eqn:Ok_.
  - destruct (pkcs1_of_power junk jt m sig exp mod_ (hi ++ lo) (length es) ms (half_raised N (effective (OS2IP es)) hi lo) (RsaMemModel.prefix_of k) digest) as (b & E & Hb); try assumption.
    + apply lead_power; assumption.
    + exists b. split; [exact E|]. rewrite P, half_length in Hb. rewrite Hb. symmetry in V. apply orb_true_iff in V. rewrite Nat.ltb_lt, Z.ltb_lt in V. tauto.
  - exists false. split.
    + unfold verify_rsa_w, pkcs1_w. rewrite (proj2 (Nat.eqb_eq _ _) LL). cbn [negb]. unfold rsavp1_w. rewrite (valid_ok m sig mod_ (hi ++ lo) ms) by assumption. cbn [bind]. rewrite Ok_. cbn [bind fst snd].
      destruct (place_ok m []) as (m1 & E & X & R & L). rewrite E. unfold pkcs1_check_w. rewrite (proj2 (Nat.ltb_lt _ _)) by (cbn [length]; lia). cbn [bind fst snd]. rewrite leave_extends by exact X. reflexivity.
    + split; [discriminate|]. intros (H & _). symmetry in V. apply orb_false_iff in V. rewrite Nat.ltb_ge, Z.ltb_ge in V. lia.
Qed.
End LEAD.
Lemma app_tail (a c d e : list Z) : a ++ c = d ++ e -> (length e <= length c)%nat -> exists u, c = u ++ e /\ d = a ++ u.
Proof.
  revert d. induction a as [|x a IH]; intros d H L; [exists d; split; [exact H|reflexivity]|]. destruct d as [|y d].
  - exfalso. apply (f_equal (@length Z)) in H. rewrite app_length in H. cbn [app length] in H. lia.
  - cbn [app] in H. injection H as -> H. destruct (IH d H L) as (u & -> & ->). exists u. split; reflexivity.
Qed.
Lemma lead_zeros_front hi lo lo' : (leading_zeros hi < length hi)%nat -> leading_zeros (hi ++ lo) = leading_zeros (hi ++ lo').
Proof. induction hi as [|[|p|p] hi IH]; cbn [leading_zeros length app]; intros H; try reflexivity; [lia|]. f_equal. apply IH. lia. Qed.
Lemma em_tail p d len : (length (p ++ d) + 11 <= len)%nat -> emsa_pkcs1 (p ++ d) len = ([0; 1] ++ repeat 255 (len - length (p ++ d) - 3) ++ [0] ++ p) ++ d.
Proof. intros _. unfold emsa_pkcs1. rewrite <- !app_assoc. reflexivity. Qed.
(** from a signature for one digest to one for another *)
Lemma transfer junk jt k m m' sig exp mod_ junk' jt' sig' exp' mod_' hi lo es n t digest digest' :
  all_bytes es -> all_bytes (n :: t) -> n <> 0 -> length (n :: t) = length hi -> (length hi mod 4 = 0)%nat -> Z.of_nat (length hi) < 2 ^ 27 -> (length es <= 8)%nat -> Z.odd (OS2IP es) = true -> 3 <= OS2IP es ->
  OS2IP hi < OS2IP (n :: t) \/ 256 ^ Z.of_nat (length hi) <= 2 * OS2IP (n :: t) ->
  all_bytes (hi ++ lo) -> (length lo mod 4 = 0)%nat -> (leading_zeros hi < length hi)%nat -> (leading_zeros hi < length lo)%nat -> (hash_size k <= length lo)%nat ->
  all_bytes digest' -> length digest = hash_size k -> length digest' = hash_size k ->
  let ms := repeat 0 (length lo) ++ n :: t in
  let lo' := firstn (length lo - hash_size k) lo ++ digest' in
  reads m sig (hi ++ lo) -> reads m exp es -> reads m mod_ ms -> reads m' sig' (hi ++ lo') -> reads m' exp' es -> reads m' mod_' ms ->
  verify_rsa_w junk jt k m sig (length (hi ++ lo)) exp (length es) mod_ (length ms) digest = Ok (true, m) ->
  verify_rsa_w junk' jt' k m' sig' (length (hi ++ lo')) exp' (length es) mod_' (length ms) digest' = Ok (true, m').
Proof.
  intros Fe Fn n0 Ln L4 LB Le Oe E3 Bd Fb J4 Hz Hl Hk Fd' Ld Ld' ms lo' Rb Re Rm Rb' Re' Rm' V.
  assert (Ll : length lo' = length lo) by (unfold lo'; rewrite app_length, firstn_length; lia).
  assert (Z1 : (leading_zeros (hi ++ lo) < length lo)%nat) by (rewrite (lead_zeros_front hi lo []) by exact Hz; rewrite app_nil_r; exact Hl).
  assert (Z2 : (leading_zeros (hi ++ lo') < length lo')%nat) by (rewrite (lead_zeros_front hi lo' []) by exact Hz; rewrite app_nil_r, Ll; exact Hl).
  assert (Fb' : all_bytes (hi ++ lo')). { apply Forall_app in Fb as [F1 F2]. apply Forall_app; split; [exact F1|]. apply Forall_app; split; [apply Forall_firstn; exact F2|exact Fd']. }
  assert (Em : ms = repeat 0 (length lo') ++ n :: t) by (unfold ms; rewrite Ll; reflexivity).
  destruct (lead_accepted hi lo es n t Fe Fn n0 Ln L4 LB Le Oe E3 Bd junk jt k m sig exp mod_ digest Fb J4 Rb Re Rm Ld) as (b & E & Hb). fold ms in E. rewrite V in E. injection E as <-. destruct (proj1 Hb eq_refl) as (_ & C1 & C2). clear Z1.
  rewrite Em in Rm' |- *. destruct (lead_accepted hi lo' es n t Fe Fn n0 Ln L4 LB Le Oe E3 Bd junk' jt' k m' sig' exp' mod_' digest' Fb' ltac:(rewrite Ll; exact J4) Rb' Re' Rm' Ld') as (b' & E' & Hb').
  rewrite E'. replace b' with true; [reflexivity|]. symmetry. apply Hb'. split; [left; exact Z2|]. clear E' Hb' Hb V. rewrite prefix_info in C1, C2 |- * by assumption. set (p := RsaSignClaims.prefix_of k) in *.
  assert (LL : length (p ++ digest') = length (p ++ digest)) by (rewrite !app_length; lia). assert (LT : length (hi ++ lo') = length (hi ++ lo)) by (rewrite !app_length; lia).
  rewrite LL, LT. split; [exact C1|]. rewrite em_tail in C2 by exact C1. rewrite em_tail by lia. rewrite LL. unfold half_raised in C2 |- *.
  destruct (app_tail _ _ _ _ C2 ltac:(lia)) as (u & U1 & U2). rewrite U2. rewrite <- app_assoc. f_equal. unfold lo'. f_equal. rewrite U1, app_length, Ld. replace (length u + hash_size k - hash_size k)%nat with (length u) by lia. rewrite firstn_app, Nat.sub_diag, firstn_O, app_nil_r. apply firstn_all.
Qed.
Lemma range_all m s p bs z n t : all_bytes bs -> all_bytes (n :: t) -> n <> 0 -> reads m s bs -> reads m p (repeat 0 z ++ n :: t) ->
  valid_w m s (length bs) p (length (repeat 0 z ++ n :: t)) = Ok (Nat.ltb (leading_zeros bs) z || (OS2IP bs <? OS2IP (n :: t))).
Proof. intros Fb Fn Hn R S. rewrite valid_ok by assumption. rewrite valid_all by assumption. reflexivity. Qed.
Lemma lead_pss hash hlen hi lo es n t : hash_ok hash hlen -> all_bytes es -> all_bytes (n :: t) -> n <> 0 -> length (n :: t) = length hi -> (length hi mod 4 = 0)%nat -> Z.of_nat (length hi) < 2 ^ 27 -> (length es <= 8)%nat -> Z.odd (OS2IP es) = true -> 3 <= OS2IP es ->
  OS2IP hi < OS2IP (n :: t) \/ 256 ^ Z.of_nat (length hi) <= 2 * OS2IP (n :: t) ->
  forall junk jb m sig exp mod_ salt digest, all_bytes (hi ++ lo) -> (length lo mod 4 = 0)%nat -> reads m sig (hi ++ lo) -> reads m exp es -> reads m mod_ (repeat 0 (length lo) ++ n :: t) -> length digest = hlen -> 0 <= match salt with Some s => s | None => Z.of_nat hlen end ->
  (leading_zeros (hi ++ lo) < length lo)%nat \/ OS2IP (hi ++ lo) < OS2IP (n :: t) ->
  pss_w hash hlen junk jb m sig (length (hi ++ lo)) exp (length es) mod_ (length (repeat 0 (length lo) ++ n :: t)) salt digest =
  (let* b := pss_check hash hlen (length (hi ++ lo)) salt digest (half_raised (OS2IP (n :: t)) (effective (OS2IP es)) hi lo) in Ok (b, m)).
Proof.
  intros HK Fe Fn n0 Ln L4 LB Le Oe E3 Bd junk jb m sig exp mod_ salt digest Fb J4 Rb Re Rm Ld Ps Hv. set (ms := repeat 0 (length lo) ++ n :: t) in *.
  assert (LL : length (hi ++ lo) = length ms) by (unfold ms; rewrite !app_length, repeat_length; lia).
  unfold pss_w. rewrite (proj2 (Nat.eqb_eq _ _) LL). cbn [negb]. unfold rsavp1_w. rewrite (valid_ok m sig mod_ (hi ++ lo) ms) by assumption. cbn [bind]. unfold ms at 1. rewrite valid_below by assumption.
  unfold ms at 1. rewrite (lead_power hi lo es n t) by assumption. cbn [bind fst snd]. set (v := half_raised _ _ hi lo).
  assert (Fv : all_bytes v). { apply Forall_app in Fb as [_ F2]. apply Forall_app. split; [apply I2OSP_bytes|exact F2]. }
  destruct (place_ok m v) as (m1 & E & X & R & L). pose proof (blk_place m v) as B. rewrite E in B. rewrite E.
  destruct (pss_check_ok hash hlen HK jb m1 (length m, 0%nat) v (length ms) salt digest B) as (m2 & -> & O); try assumption; [cbn; lia|]. rewrite LL. destruct (pss_check hash hlen (length ms) salt digest v) as [b| | |]; cbn [bind fst snd]; try reflexivity.
  rewrite (kept_leave m m2); [reflexivity|]. destruct O as [O1 O2]. split; [lia|]. intros c k Hc. rewrite O2 by (cbn [fst]; lia). apply (extends_rd _ _ _ _ X). exact Hc.
Qed.
(** ** Lengths for which verification is undefined behaviour *)
Lemma verify_ub hash hlen junk jt jb k m sig exp mod_ bs es z n t salt digest : all_bytes bs -> all_bytes (n :: t) -> reads m sig bs -> reads m exp es -> reads m mod_ (repeat 0 z ++ n :: t) -> n <> 0 -> (0 < length es <= 8)%nat -> length bs = length (repeat 0 z ++ n :: t) ->
  Z.of_nat (length (n :: t)) < 2 ^ 27 -> (leading_zeros bs < z)%nat \/ OS2IP bs < OS2IP (n :: t) -> (z mod 4 <> 0)%nat \/ (length (n :: t) mod 4 <> 0)%nat ->
  verify_rsa_w junk jt k m sig (length bs) exp (length es) mod_ (length (repeat 0 z ++ n :: t)) digest = UB /\ pss_w hash hlen junk jb m sig (length bs) exp (length es) mod_ (length (repeat 0 z ++ n :: t)) salt digest = UB.
Proof.
  intros Fb Fn Rb Re Rm Hn Le LL LB Hv H4. set (ms := repeat 0 z ++ n :: t) in *.
  assert (P : powm_view_w junk m sig (length bs) exp (length es) mod_ (length ms) = UB). { destruct H4 as [H|H]; [apply view_base_ub; assumption|apply view_ub; assumption]. }
  assert (R : rsavp1_w junk m sig (length bs) exp (length es) mod_ (length ms) = UB). { unfold rsavp1_w. rewrite (valid_ok m sig mod_ bs ms) by assumption. cbn [bind]. unfold ms at 1. rewrite valid_below by assumption. exact P. }
  unfold verify_rsa_w, pkcs1_w, pss_w. rewrite (proj2 (Nat.eqb_eq _ _) LL). cbn [negb]. rewrite R. split; reflexivity.
Qed.

(** one such modulus: 56 zero bytes and eight others *)
Definition zx_n : list Z := [200; 0; 0; 0; 0; 0; 0; 99].
Definition zx_hi : list Z := [196; 233; 105; 39; 13; 137; 29; 164].
Definition zx_lo (d : Z) : list Z := repeat 255 4 ++ [0] ++ digest_info (action_oid SHA256) (repeat d 32).
Definition zx_mem (d : Z) : memory := [(zx_hi ++ zx_lo d) ++ [3]; repeat 0 56 ++ zx_n].
Lemma zx_lo_bytes d : 0 <= d < 256 -> all_bytes (zx_hi ++ zx_lo d).
Proof. intros H. unfold zx_lo. change (digest_info (action_oid SHA256) (repeat d 32)) with (RsaSignClaims.prefix_of SHA256 ++ repeat d 32). repeat (apply Forall_app; split); try (apply Forall_forall; intros x Hx; apply repeat_spec in Hx; subst; unfold is_byte; lia); repeat constructor; unfold is_byte; lia. Qed.
Lemma zx_sig d : reads (zx_mem d) (0, 0)%nat (zx_hi ++ zx_lo d).
Proof. intros j Hj. cbn [fst snd Nat.add]. unfold zx_mem, rd. cbn [nth_error]. rewrite nth_error_app1 by exact Hj. apply nth_error_nth'. exact Hj. Qed.
Lemma zx_exp d : reads (zx_mem d) (0, 64)%nat [3]. Proof. intros [|j] Hj; [reflexivity|cbn in Hj; lia]. Qed.
Lemma zx_mod d : reads (zx_mem d) (1, 0)%nat (repeat 0 56 ++ zx_n). Proof. intros j Hj. cbn [fst snd Nat.add]. unfold zx_mem, rd. cbn [nth_error]. apply nth_error_nth'. exact Hj. Qed.
Local Ltac by_ := repeat constructor; unfold is_byte; lia.
Lemma zx_accepted d : 0 <= d < 256 -> verify_rsa_w (fun _ _ => 77) (fun _ => 5) SHA256 (zx_mem d) (0, 0)%nat 64 (0, 64)%nat 1 (1, 0)%nat 64 (repeat d 32) = Ok (true, zx_mem d).
Proof.
  intros Hd. destruct (lead_accepted zx_hi (zx_lo d) [3] 200 [0; 0; 0; 0; 0; 0; 99]) with (junk := fun _ _ : nat => 77) (jt := fun _ : nat => 5) (k := SHA256) (m := zx_mem d) (sig := (0, 0)%nat) (exp := (0, 64)%nat) (mod_ := (1, 0)%nat) (digest := repeat d 32) as (b & E & Hb);
    [by_|by_|lia|reflexivity|reflexivity|reflexivity|cbn; lia|reflexivity|cbn; lia|left; reflexivity|apply zx_lo_bytes; exact Hd|reflexivity|apply zx_sig|apply zx_exp|apply zx_mod|reflexivity|].
  replace b with true in E; [exact E|]. symmetry. apply Hb. split; [left; apply Nat.ltb_lt; reflexivity|]. split; [apply Nat.leb_le; reflexivity|]. unfold half_raised. replace (I2OSP _ _) with [0; 1; 255; 255; 255; 255; 255; 255] by (vm_compute; reflexivity). reflexivity.
Qed.
Lemma lead_refute : exists m sig exp mod_ bs es ms digest, all_bytes bs /\ all_bytes es /\ all_bytes ms /\ length digest = 32%nat /\ reads m sig bs /\ reads m exp es /\ reads m mod_ ms /\ Z.odd (OS2IP ms) = true /\
  verify_rsa_w (fun _ _ => 77) (fun _ => 5) SHA256 m sig (length bs) exp (length es) mod_ (length ms) digest = Ok (true, m) /\ OS2IP ms <= OS2IP bs /\
  ~ rsassa_pkcs1_valid (OS2IP ms) (OS2IP es) (length ms) (digest_info (action_oid SHA256) digest) bs.
Proof.
  exists (zx_mem 7), (0, 0)%nat, (0, 64)%nat, (1, 0)%nat, (zx_hi ++ zx_lo 7), [3], (repeat 0 56 ++ zx_n), (repeat 7 32).
  assert (G : OS2IP (repeat 0 56 ++ zx_n) <= OS2IP (zx_hi ++ zx_lo 7)) by (vm_compute; discriminate).
  split; [apply zx_lo_bytes; lia|]. split; [repeat constructor; unfold is_byte; lia|]. split; [apply Forall_app; split; [apply Forall_forall; intros x Hx; apply repeat_spec in Hx; subst; unfold is_byte; lia|repeat constructor; unfold is_byte; lia]|]. split; [reflexivity|]. split; [apply zx_sig|]. split; [apply zx_exp|]. split; [apply zx_mod|]. split; [vm_compute; reflexivity|].
  split; [apply (zx_accepted 7); lia|]. split; [exact G|]. intros (_ & L & _). lia.
Qed.
