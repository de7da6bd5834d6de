(** RSA verification with an even modulus: what is accepted, and that a signature can be found for every digest. *)
From Coq Require Import List ZArith Bool Lia PeanoNat.
From Verif Require Import Outcome UtilsModel UtilsSpec UtilsProofs RsaModel RsaSpec RsaProofs RsaClaims ContractModel ContractSpec ContractRsa RsaSignSpec RsaSignClaims PowmModel PowmSpec PowmClaims EvenSpec EvenPowm
  RawModel RawSpec RsaMemModel RsaMemClaims EvenMem.
Import ListNotations.
Open Scope Z_scope.

Lemma even_rsavp1 n e sig : even_modulus n -> all_bytes e -> (length e <= 8)%nat -> Z.odd (OS2IP e) = true -> 3 <= OS2IP e -> all_bytes sig -> length sig = length n ->
  rsavp1 mod_exp_sw n e sig = Ok (if OS2IP sig <? OS2IP n then I2OSP (truncated_power (range_of n) (OS2IP n) (OS2IP sig) (effective (OS2IP e))) (length n) else []).
Proof.
  intros Fit Fe Le Oe E3 Fs Ls. pose proof Fit as (Fn & Nz & _). unfold rsavp1. rewrite is_s_valid_spec by assumption. destruct (OS2IP sig <? OS2IP n); [|reflexivity].
  assert (Ln : length n <> 0%nat) by (destruct n; [destruct Nz|discriminate]). assert (L0 : length e <> 0%nat) by (destruct e; [discriminate|discriminate]).
  unfold RsaModel.powm. rewrite (proj2 (Nat.ltb_ge 8 _)) by exact Le. cbn [check bind]. rewrite Ls. rewrite !(proj2 (Nat.eqb_neq _ 0)) by assumption. rewrite Nat.eqb_refl. cbn [negb andb check bind]. rewrite even_power by assumption. reflexivity.
Qed.
Lemma pkcs1_even n e t sig : even_modulus n -> all_bytes e -> (length e <= 8)%nat -> Z.odd (OS2IP e) = true -> 3 <= OS2IP e -> all_bytes sig ->
  exists b, rsassa_pkcs1_v1_5_verify mod_exp_sw n e sig t = Ok b /\
  (b = true <-> length sig = length n /\ OS2IP sig < OS2IP n /\ (length t + 11 <= length n)%nat /\ I2OSP (truncated_power (range_of n) (OS2IP n) (OS2IP sig) (effective (OS2IP e))) (length n) = emsa_pkcs1 t (length n)).
Proof.
  intros Fit Fe Le Oe E3 Fs. unfold rsassa_pkcs1_v1_5_verify. destruct (Nat.eqb_spec (length sig) (length n)) as [L|L]; cbn [negb].
  2:{ exists false. split; [reflexivity|]. split; [discriminate|]. intros [E _]. congruence. }
  rewrite even_rsavp1 by assumption. cbn [bind]. destruct (Z.ltb_spec (OS2IP sig) (OS2IP n)) as [H|H].
  - set (em := I2OSP _ _). assert (Lm : length em = length n) by apply I2OSP_length.
    destruct (pkcs1_check_spec em t) as (b & E & Hb). exists b. split; [exact E|]. rewrite Hb, Lm. tauto.
  - exists false. split; [unfold pkcs1_check; rewrite (proj2 (Nat.ltb_lt _ _)) by (cbn; lia); reflexivity|]. split; [discriminate|]. intros (_ & Q & _). lia.
Qed.
Lemma accepted junk jt k m sig exp mod_ bs es ms digest : even_modulus ms -> all_bytes bs -> all_bytes es -> (length es <= 8)%nat -> Z.odd (OS2IP es) = true -> 3 <= OS2IP es -> reads m sig bs -> reads m exp es -> reads m mod_ ms -> length digest = hash_size k ->
  let T := digest_info (action_oid k) digest in
  exists b, verify_rsa_w junk jt k m sig (length bs) exp (length es) mod_ (length ms) digest = Ok (b, m) /\
  (b = true <-> length bs = length ms /\ OS2IP bs < OS2IP ms /\ (length T + 11 <= length ms)%nat /\ I2OSP (truncated_power (range_of ms) (OS2IP ms) (OS2IP bs) (effective (OS2IP es))) (length ms) = emsa_pkcs1 T (length ms)).
Proof.
  intros Fit Fb Fe Le Oe E3 Rb Re Rm Ld T. unfold verify_rsa_w. rewrite pkcs1_even_agrees by assumption.
  assert (P : RsaMemModel.prefix_of k ++ digest = T) by (unfold T; rewrite prefix_info by exact Ld; destruct k; reflexivity). rewrite P.
  destruct (pkcs1_even ms es T bs Fit Fe Le Oe E3 Fb) as (b & -> & Hb). exists b. split; [reflexivity|exact Hb].
Qed.

(** ** Exponent 3 *)
Lemma climb (f : Z -> Z) v : forall n, 0 <= n -> f 0 <= v -> (forall x, 0 <= x < n -> f (x + 1) <= f x + 1) -> v <= f n -> exists x, 0 <= x <= n /\ f x = v.
Proof.
  intros n Hn F0 Hs. revert n Hn Hs. apply (natlike_ind (fun n => (forall x, 0 <= x < n -> f (x + 1) <= f x + 1) -> v <= f n -> exists x, 0 <= x <= n /\ f x = v)).
  - intros _ H. exists 0. split; lia.
  - intros n Hn IH Hs H. unfold Z.succ in *. destruct (Z_le_gt_dec v (f n)) as [L|G].
    + destruct IH as (x & R & E); [intros x Hx; apply Hs; lia|exact L|]. exists x. split; [lia|exact E].
    + exists (n + 1). split; [lia|]. specialize (Hs n ltac:(lia)). lia.
Qed.
Lemma floor_step p q r : 0 < r -> q <= p + r -> q / r <= p / r + 1.
Proof. intros R H. rewrite <- (Z.div_add p 1 r) by lia. apply Z.div_le_mono; lia. Qed.
Definition cube (r c x : Z) : Z := high r (high r (high r x c) (high r x c)) x.
Lemma cube_step r c x : 0 < r -> 0 <= c < r -> 0 <= x -> 2 * x + 2 <= r -> cube r c (x + 1) <= cube r c x + 1.
Proof.
  intros R C X H. unfold cube, high. set (a := x * c / r). set (a' := (x + 1) * c / r).
  assert (A0 : 0 <= a) by (apply Z.div_pos; nia). assert (A1 : a' <= a + 1) by (apply floor_step; lia). assert (Am : a <= a') by (apply Z.div_le_mono; lia).
  assert (Ax : a <= x). { apply Z.div_le_upper_bound; nia. }
  set (s := a * a / r). set (s' := a' * a' / r). assert (S1 : s' <= s + 1). { apply floor_step; [exact R|]. clear -A1 Am A0 Ax H. nia. }
  assert (S0 : 0 <= s) by (apply Z.div_pos; nia). assert (S0' : 0 <= s') by (apply Z.div_pos; nia). assert (Sx : s <= a). { apply Z.div_le_upper_bound; [lia|]. nia. }
  apply floor_step; [exact R|]. assert (s' * (x + 1) <= (s + 1) * (x + 1)) by (apply Z.mul_le_mono_nonneg_r; lia). lia.
Qed.
Lemma cube_power r n x : truncated_power r n x 3 = let v := cube r (r * r mod n) x in if n <=? v then v - n else v.
Proof. reflexivity. Qed.
Lemma cube_top r c q : r = 8192 * q -> 1 <= q -> 256 * q <= c < r -> q - 1 <= cube r c (4096 * q - 1).
Proof.
  intros -> Q C. unfold cube, high. set (r := 8192 * q). set (x := 4096 * q - 1). assert (R : 0 < r) by (unfold r; lia).
  assert (A : 128 * q - 1 <= x * c / r). { apply Z.div_le_lower_bound; [exact R|]. unfold r, x. unfold r in C. nia. }
  set (a := x * c / r) in *. assert (S : 2 * q - 1 <= a * a / r). { apply Z.div_le_lower_bound; [exact R|]. clearbody a. unfold r. clear -A Q. assert (M : (128 * q - 1) * (128 * q - 1) <= a * a) by (apply Z.mul_le_mono_nonneg; lia). nia. }
  set (s := a * a / r) in *. clearbody s. clear A. apply Z.div_le_lower_bound; [exact R|]. unfold r, x. clear -S Q.
  assert (M : (2 * q - 1) * (4096 * q - 1) <= s * (4096 * q - 1)) by (apply Z.mul_le_mono_nonneg_r; lia). assert (M2 : 8192 * q * (q - 1) <= (2 * q - 1) * (4096 * q - 1)) by nia. lia.
Qed.
Lemma em_bytes t k : all_bytes t -> all_bytes (emsa_pkcs1 t k).
Proof. intros F. unfold emsa_pkcs1. repeat (apply Forall_app; split); try exact F; [repeat constructor; unfold is_byte; lia|apply Forall_forall; intros x Hx; apply repeat_spec in Hx; subst; unfold is_byte; lia|repeat constructor; unfold is_byte; lia]. Qed.
Lemma em_length t k : (length t + 11 <= k)%nat -> length (emsa_pkcs1 t k) = k.
Proof. intros L. unfold emsa_pkcs1. rewrite !app_length, repeat_length. cbn [length]. lia. Qed.
Lemma em_below t k : all_bytes t -> (length t + 11 <= k)%nat -> OS2IP (emsa_pkcs1 t k) < 2 * 256 ^ Z.of_nat (k - 2).
Proof.
  intros F L. pose proof (em_length t k L) as Le. pose proof (em_bytes t k F) as Fe. unfold emsa_pkcs1 in *. set (u := repeat 255 (k - length t - 3) ++ [0] ++ t) in *. cbn [app length] in Le, Fe |- *.
  rewrite !OS2IP_cons. inversion_clear Fe as [|? ? _ Fe']. inversion_clear Fe' as [|? ? _ Fu]. pose proof (OS2IP_range u Fu) as R. replace (k - 2)%nat with (length u) by lia. lia.
Qed.
Lemma forge n T : even_modulus n -> range_of n <= 2 * OS2IP n -> range_of n <= 32 * (range_of n * range_of n mod OS2IP n) -> all_bytes T -> (length T + 11 <= length n)%nat ->
  exists sig, all_bytes sig /\ length sig = length n /\ rsassa_pkcs1_v1_5_verify mod_exp_sw n [3] sig T = Ok true.
Proof.
  intros Fit Top Rr Ft Lt. pose proof Fit as (Fn & Nz & _). set (r := range_of n) in *. pose proof (OS2IP_range n Fn) as RN. fold (range_of n) in RN. fold r in RN. set (N := OS2IP n) in *. set (c := r * r mod N) in *.
  set (p := 256 ^ Z.of_nat (length n - 2)). assert (P : 1 <= p) by (unfold p; pose proof (Z.pow_pos_nonneg 256 (Z.of_nat (length n - 2))); lia). assert (Er : r = 65536 * p). { unfold r, range_of, p. change 65536 with (256 ^ 2). rewrite <- Z.pow_add_r by lia. f_equal. lia. }
  assert (C : 0 <= c < N) by (apply Z.mod_pos_bound; lia).
  pose proof (em_below T (length n) Ft Lt) as Em. fold p in Em. set (em := OS2IP (emsa_pkcs1 T (length n))) in *. assert (E0 : 0 <= em) by (apply OS2IP_range, em_bytes, Ft).
  pose proof (cube_top r c (8 * p) ltac:(lia) ltac:(lia) ltac:(lia)) as Tp.
  destruct (climb (cube r c) em (4096 * (8 * p) - 1)) as (x & Rx & Ex); [lia|unfold cube, high; rewrite Z.mul_0_r, Z.div_0_l by lia; exact E0|intros x Hx; apply cube_step; lia|lia|].
  assert (Vx : OS2IP (I2OSP x (length n)) = x). { apply I2OSP_OS2IP. fold (range_of n). fold r. lia. }
  exists (I2OSP x (length n)). split; [apply I2OSP_bytes|]. split; [apply I2OSP_length|].
  destruct (pkcs1_even n [3] T (I2OSP x (length n)) Fit) as (b & -> & Hb); [repeat constructor; unfold is_byte; lia|cbn; lia|reflexivity|cbn; lia|apply I2OSP_bytes|].
  f_equal. apply Hb. rewrite I2OSP_length, Vx. split; [reflexivity|]. fold N. split; [lia|]. split; [exact Lt|]. change (effective (OS2IP [3])) with 3. fold r. rewrite cube_power. fold c. cbv zeta. rewrite Ex. rewrite (proj2 (Z.leb_gt _ _)) by lia.
  unfold em. rewrite <- (em_length T (length n) Lt) at 2. apply OS2IP_I2OSP. apply em_bytes. exact Ft.
Qed.
Lemma forge_kind n k digest : even_modulus n -> range_of n <= 2 * OS2IP n -> range_of n <= 32 * (range_of n * range_of n mod OS2IP n) -> all_bytes digest -> length digest = hash_size k -> (length (digest_info (action_oid k) digest) + 11 <= length n)%nat ->
  exists sig, all_bytes sig /\ length sig = length n /\ verify_rsa mod_exp_sw k n [3] digest sig = Ok true.
Proof.
  intros Fit Top Rr Fd Ld Lt. rewrite prefix_info in Lt by exact Ld. destruct (forge n (prefix_of k ++ digest) Fit Top Rr) as (sig & F & L & V); [|exact Lt|].
  - apply Forall_app. split; [|exact Fd]. destruct k; repeat constructor; unfold is_byte; lia.
  - exists sig. split; [exact F|]. split; [exact L|]. rewrite verify_prefix. exact V.
Qed.
(** one such modulus and signature *)
Definition fx_n : list Z := 200 :: repeat 2 63.
Definition fx_sig : list Z := I2OSP 570833843652205482578210688956761261191796001057730134451076959963560570088751847588690481258052331982517327648719798775556538581455818722595588550552189 64.
Lemma fx_fit : even_modulus fx_n.
Proof. split; [unfold fx_n; cbn [repeat]; repeat constructor; unfold is_byte; lia|]. split; [reflexivity|]. split; [vm_compute; reflexivity|]. split; reflexivity. Qed.
Lemma accept_refute : exists n digest sig, even_modulus n /\ all_bytes digest /\ length digest = 32%nat /\ all_bytes sig /\ verify_rsa mod_exp_sw SHA256 n [3] digest sig = Ok true /\
  ~ rsassa_pkcs1_valid (OS2IP n) 3 (length n) (digest_info (action_oid SHA256) digest) sig.
Proof.
  exists fx_n, (repeat 7 32), fx_sig. split; [exact fx_fit|]. split; [cbn [repeat]; repeat constructor; unfold is_byte; lia|]. split; [reflexivity|]. split; [apply I2OSP_bytes|]. split.
  - rewrite verify_prefix. destruct (pkcs1_even fx_n [3] (RsaSignClaims.prefix_of SHA256 ++ repeat 7 32) fx_sig fx_fit) as (b & -> & Hb); [repeat constructor; unfold is_byte; lia|cbn; lia|reflexivity|cbn; lia|apply I2OSP_bytes|].
    f_equal. apply Hb. split; [reflexivity|]. split; [vm_compute; reflexivity|]. split; [apply Nat.leb_le; vm_compute; reflexivity|vm_compute; reflexivity].
  - intros (_ & _ & _ & E). vm_compute in E. discriminate.
Qed.
