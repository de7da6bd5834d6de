(** RSA signatures: the private operation inverts the public one, so a valid signature is the signer's. *)
From Coq Require Import List ZArith Znumtheory Zpow_facts Bool Lia.
From Verif Require Import Outcome UtilsModel UtilsSpec UtilsProofs RsaModel RsaSpec RsaProofs RsaClaims RsaPssSpec RsaPss RsaSignSpec Legendre.
Import ListNotations.
Open Scope Z_scope.

(** ** the permutation *)
Lemma fermat_all r m : prime r -> ~ (r | m) -> m ^ (r - 1) mod r = 1.
Proof.
  intros P N. destruct (Z.eq_dec r 2) as [->|E].
  - change (2 - 1) with 1. rewrite Z.pow_1_r. pose proof (Z.mod_pos_bound m 2). destruct (Z.eq_dec (m mod 2) 0) as [Q|Q]; [|lia].
    exfalso. apply N. apply Z.mod_divide; [lia|exact Q].
  - apply fermat; try assumption. pose proof (prime_ge_2 _ P). destruct (Z.odd r) eqn:O; [reflexivity|].
    exfalso. assert (D : (2 | r)). { rewrite <- Z.negb_even in O. apply negb_false_iff, Z.even_spec in O. destruct O as [q ->]. exists q. lia. }
    apply (prime_divisors r P) in D. lia.
Qed.
Lemma pow_one_more r m t : prime r -> 0 <= t -> (r - 1 | t) -> (r | m ^ (t + 1) - m).
Proof.
  intros P T [q Q]. pose proof (prime_ge_2 _ P). destruct (Zdivide_dec r m) as [D|D].
  - apply Z.divide_sub_r; [|exact D]. rewrite Z.add_1_r, Z.pow_succ_r by exact T. apply Z.divide_mul_l. exact D.
  - assert (q >= 0) by nia. rewrite Z.add_1_r, Z.pow_succ_r by exact T. replace (m * m ^ t - m) with (m * (m ^ t - 1)) by ring. apply Z.divide_mul_r.
    apply Z.mod_divide; [lia|]. rewrite Q, Z.mul_comm, Z.pow_mul_r by lia. rewrite Zminus_mod, Zpower_mod by lia. rewrite fermat_all by assumption.
    rewrite Z.pow_1_l by lia. rewrite !(Z.mod_1_l r) by lia. reflexivity.
Qed.
Lemma prime_prod r rs : prime r -> Forall prime rs -> ~ In r rs -> rel_prime r (fold_right Z.mul 1 rs).
Proof.
  intros P F. induction rs as [|s rs IH]; intros N; cbn [fold_right]; [apply rel_prime_sym, rel_prime_1|].
  inversion F as [|? ? Ps Fs]; subst. apply rel_prime_mult.
  - apply prime_rel_prime; [exact P|]. intros D. apply (prime_divisors s Ps) in D. pose proof (prime_ge_2 _ P). pose proof (prime_ge_2 _ Ps).
    assert (r = s) by lia. apply N. left. congruence.
  - apply IH; [exact Fs|]. intros I. apply N. right. exact I.
Qed.
Lemma prod_divides x rs : Forall prime rs -> NoDup rs -> Forall (fun r => (r | x)) rs -> (fold_right Z.mul 1 rs | x).
Proof.
  induction rs as [|r rs IH]; intros F N D; cbn [fold_right]; [apply Z.divide_1_l|].
  inversion F as [|? ? Pr Fr]; inversion N as [|? ? Nr Nd]; inversion D as [|? ? Dr Dd]; subst.
  destruct (IH Fr Nd Dd) as [y Y]. rewrite Y. apply Z.mul_divide_mono_r. apply Gauss with (fold_right Z.mul 1 rs).
  - rewrite Z.mul_comm, <- Y. exact Dr.
  - apply prime_prod; assumption.
Qed.
Lemma prod_pos rs : Forall prime rs -> 0 < fold_right Z.mul 1 rs.
Proof. induction 1 as [|r rs P F IH]; cbn [fold_right]; [lia|]. pose proof (prime_ge_2 _ P). nia. Qed.
Lemma key_pos n e d : rsa_key n e d -> 0 < n.
Proof. intros (_ & _ & rs & F & _ & -> & _). apply prod_pos. exact F. Qed.
Lemma key_sym n e d : rsa_key n e d -> rsa_key n d e.
Proof. intros (E & D & rs & F & N & P & K). split; [exact D|]. split; [exact E|]. exists rs. rewrite (Z.mul_comm d e). auto. Qed.
Lemma key_inverse n e d m : rsa_key n e d -> 0 <= m < n -> (m ^ d mod n) ^ e mod n = m.
Proof.
  intros (E & D & rs & F & N & P & K) M. rewrite <- Zpower_mod by lia. rewrite <- Z.pow_mul_r by lia.
  assert (ED : 1 <= e * d) by nia.
  assert (Q : (n | m ^ (e * d) - m)).
  { rewrite P. apply prod_divides; try assumption. rewrite Forall_forall in *. intros r Hr. replace (e * d) with (e * d - 1 + 1) by lia.
    apply pow_one_more; [auto|lia|auto]. }
  destruct Q as [q Q]. rewrite (Z.mul_comm d e). replace (m ^ (e * d)) with (m + q * n) by lia. rewrite Z.mod_add by lia. apply Z.mod_small. exact M.
Qed.
Lemma key_bijection n e d : rsa_key n e d -> forall x y, 0 <= x < n -> 0 <= y < n -> (x ^ e mod n = y <-> x = y ^ d mod n).
Proof.
  intros K x y X Y. split; intros Q.
  - rewrite <- Q. symmetry. apply (key_inverse n d e x (key_sym _ _ _ K) X).
  - rewrite Q. apply key_inverse; assumption.
Qed.
(** ** signatures of an encoded message *)
Lemma sign_length n d k em : length (rsa_sign n d k em) = k.
Proof. apply I2OSP_length. Qed.
Lemma sign_value n d k em : 0 < n <= 256 ^ Z.of_nat k -> OS2IP (rsa_sign n d k em) = OS2IP em ^ d mod n.
Proof. intros N. apply I2OSP_OS2IP. pose proof (Z.mod_pos_bound (OS2IP em ^ d) n). lia. Qed.
Lemma sign_iff n e d k l em sig : rsa_key n e d -> n <= 256 ^ Z.of_nat k -> all_bytes sig -> length sig = k -> OS2IP sig < n ->
  all_bytes em -> length em = l -> OS2IP em < n ->
  (OS2IP sig ^ e mod n < 256 ^ Z.of_nat l /\ I2OSP (OS2IP sig ^ e mod n) l = em <-> sig = rsa_sign n d k em).
Proof.
  intros K N Fs Ls Rs Fe Le Re. pose proof (key_pos _ _ _ K) as Pn. pose proof (OS2IP_range _ Fs). pose proof (OS2IP_range _ Fe) as Be. rewrite Le in Be.
  assert (A : OS2IP sig ^ e mod n < 256 ^ Z.of_nat l /\ I2OSP (OS2IP sig ^ e mod n) l = em <-> OS2IP sig ^ e mod n = OS2IP em).
  { split.
    - intros [L Q]. rewrite <- Q, I2OSP_OS2IP; [reflexivity|]. pose proof (Z.mod_pos_bound (OS2IP sig ^ e) n). lia.
    - intros Q. rewrite Q. split; [lia|]. rewrite <- Le. apply OS2IP_I2OSP. exact Fe. }
  rewrite A, (key_bijection n e d K) by lia. split; intros Q.
  - apply OS2IP_inj; [exact Fs|apply I2OSP_bytes|rewrite sign_length; exact Ls|]. rewrite sign_value by lia. exact Q.
  - rewrite Q at 1. apply sign_value. lia.
Qed.
(** ** PKCS#1 v1.5 *)
Lemma emsa_bytes T k : all_bytes T -> all_bytes (emsa_pkcs1 T k).
Proof.
  intros F. unfold emsa_pkcs1. apply Forall_app. split; [bytes|]. apply Forall_app. split.
  - apply Forall_forall. intros x Hx. apply repeat_spec in Hx. subst. split; [discriminate|reflexivity].
  - apply Forall_app. split; [bytes|exact F].
Qed.
Lemma emsa_length T k : (length T + 11 <= k)%nat -> length (emsa_pkcs1 T k) = k.
Proof. intros L. unfold emsa_pkcs1. rewrite !app_length, repeat_length. cbn [length]. lia. Qed.
Lemma modulus_range n k : all_bytes n -> no_leading_zero n -> length n = k -> 256 ^ Z.of_nat (k - 1) <= OS2IP n <= 256 ^ Z.of_nat k.
Proof.
  intros Fn Hn <-. pose proof (OS2IP_range _ Fn). split; [|lia]. destruct n as [|b t]; [contradiction|]. cbn in Hn. cbn [length].
  replace (S (length t) - 1)%nat with (length t) by lia. pose proof (OS2IP_range t (Forall_inv_tail Fn)). apply top_lower; lia.
Qed.
Lemma emsa_range T k : all_bytes T -> (length T + 11 <= k)%nat -> 0 <= OS2IP (emsa_pkcs1 T k) < 256 ^ Z.of_nat (k - 1).
Proof.
  intros F L. pose proof (emsa_bytes T k F) as Fe. pose proof (emsa_length T k L) as Le. unfold emsa_pkcs1 in *. cbn [app] in *.
  rewrite OS2IP_cons. cbn [length] in Le. inversion Fe as [|? ? ? F']; subst. pose proof (OS2IP_range _ F') as R.
  rewrite Z.mul_0_l, Z.add_0_l. cbn [length] in R |- *. replace (k - 1)%nat with (S (length (repeat 255 (k - length T - 3) ++ 0 :: T))) by lia. exact R.
Qed.
Lemma pkcs1_sign_iff n e d T sig : all_bytes n -> no_leading_zero n -> rsa_key (OS2IP n) e d -> all_bytes T -> all_bytes sig ->
  (rsassa_pkcs1_valid (OS2IP n) e (length n) T sig <-> (length T + 11 <= length n)%nat /\ sig = rsassa_pkcs1_sign (OS2IP n) d (length n) T).
Proof.
  intros Fn Hn K Ft Fs. pose proof (modulus_range n _ Fn Hn eq_refl) as Rn. pose proof (key_pos _ _ _ K) as Pn. unfold rsassa_pkcs1_valid, rsassa_pkcs1_sign. split.
  - intros (L & R & T11 & Q). split; [exact T11|]. pose proof (emsa_range T _ Ft T11). apply (sign_iff _ e d _ (length n)); try assumption; try lia; [apply emsa_bytes; exact Ft|apply emsa_length; exact T11|].
    split; [|exact Q]. pose proof (Z.mod_pos_bound (OS2IP sig ^ e) (OS2IP n)). lia.
  - intros (T11 & Q). pose proof (emsa_range T _ Ft T11).
    assert (L : length sig = length n) by (rewrite Q; apply sign_length).
    assert (R : OS2IP sig < OS2IP n) by (rewrite Q, sign_value by lia; apply Z.mod_pos_bound; lia).
    split; [exact L|]. split; [exact R|]. split; [exact T11|]. apply (sign_iff (OS2IP n) e d (length n) (length n)); try assumption; try lia; [apply emsa_bytes; exact Ft|apply emsa_length; exact T11].
Qed.
(** an encoded message determines the encoded T *)
Lemma emsa_inj T T' k : (length T + 11 <= k)%nat -> (length T' + 11 <= k)%nat -> emsa_pkcs1 T k = emsa_pkcs1 T' k -> T = T'.
Proof.
  intros L L' Q. unfold emsa_pkcs1 in Q. cbn [app] in Q. injection Q as Q.
  assert (G : forall a b (x y : list Z), repeat 255 a ++ 0 :: x = repeat 255 b ++ 0 :: y -> x = y).
  { induction a as [|a IH]; intros [|b] x y E; cbn [repeat app] in E; try discriminate; [congruence|]. injection E as E. apply (IH b). exact E. }
  exact (G _ _ _ _ Q).
Qed.
(** ** PSS *)
Lemma mask_head u x y : 0 <= u <= 7 -> 0 <= x < 2 ^ (8 - u) -> Z.lxor (Z.lxor x y mod 2 ^ (8 - u)) y mod 2 ^ (8 - u) = x.
Proof.
  intros U X. rewrite <- (Z.mod_small x (2 ^ (8 - u))) at 2 by exact X. rewrite <- !Z.land_ones by lia. apply Z.bits_inj'. intros i Hi.
  rewrite !Z.land_spec, !Z.lxor_spec, !Z.land_spec, !Z.lxor_spec. destruct (Z.testbit x i), (Z.testbit y i), (Z.testbit (Z.ones (8 - u)) i); reflexivity.
Qed.
Lemma xor_twice a : forall m, length a = length m -> xor_bytes (xor_bytes a m) m = a.
Proof.
  induction a as [|x a IH]; intros [|y m] L; try discriminate L; [reflexivity|]. unfold xor_bytes in *. cbn [combine map fst snd].
  rewrite IH by (cbn in L; lia). rewrite Z.lxor_assoc, Z.lxor_nilpotent, Z.lxor_0_r. reflexivity.
Qed.
Lemma mask_twice u a m : 0 <= u <= 7 -> length a = length m -> 0 <= hd 0 a < 2 ^ (8 - u) -> clear_top u (xor_bytes (clear_top u (xor_bytes a m)) m) = a.
Proof.
  intros U L H. destruct a as [|x a], m as [|y m]; try discriminate L; [reflexivity|]. cbn [hd] in H.
  pose proof (xor_twice a m ltac:(cbn in L; lia)) as T. unfold xor_bytes in *. cbn [combine map fst snd clear_top]. rewrite T, mask_head by assumption. reflexivity.
Qed.
Lemma xor_length a m : length a = length m -> length (xor_bytes a m) = length a.
Proof. intros L. unfold xor_bytes. rewrite map_length, combine_length. lia. Qed.
Lemma clear_length u l : length (clear_top u l) = length l.
Proof. destruct l; reflexivity. Qed.
Lemma xor_all_bytes a : forall m, all_bytes a -> all_bytes m -> all_bytes (xor_bytes a m).
Proof.
  induction a as [|x a IH]; intros [|y m] Fa Fm; try apply Forall_nil. inversion Fa; inversion Fm; subst. unfold xor_bytes. cbn [combine map fst snd].
  apply Forall_cons; [apply UtilsProofs.lxor_byte; assumption|]. apply IH; assumption.
Qed.
Lemma clear_bytes u l : 0 <= u <= 7 -> all_bytes l -> all_bytes (clear_top u l).
Proof.
  intros U F. destruct l as [|x l]; [exact F|]. inversion F; subst. apply Forall_cons; [|assumption]. unfold is_byte.
  assert (2 ^ (8 - u) <= 2 ^ 8) by (apply Z.pow_le_mono_r; lia). pose proof (Z.mod_pos_bound x (2 ^ (8 - u)) ltac:(apply Z.pow_pos_nonneg; lia)). change 256 with (2 ^ 8). lia.
Qed.
Lemma clear_hd u l : 0 <= u <= 7 -> 0 <= hd 0 (clear_top u l) < 2 ^ (8 - u).
Proof.
  intros U. assert (0 < 2 ^ (8 - u)) by (apply Z.pow_pos_nonneg; lia). destruct l as [|x l]; cbn [clear_top hd]; [lia|]. apply Z.mod_pos_bound. assumption.
Qed.
Definition pss_db (emlen hlen : nat) (salt : list Z) : list Z := repeat 0 (emlen - length salt - hlen - 2) ++ [1] ++ salt.
Lemma db_length emlen hlen salt : (hlen + length salt + 2 <= emlen)%nat -> length (pss_db emlen hlen salt) = (emlen - hlen - 1)%nat.
Proof. intros L. unfold pss_db. rewrite !app_length, repeat_length. cbn [length]. lia. Qed.
Lemma db_hd emlen hlen salt u : 0 <= u <= 7 -> 0 <= hd 0 (pss_db emlen hlen salt) < 2 ^ (8 - u).
Proof.
  intros U. assert (2 ^ 1 <= 2 ^ (8 - u)) by (apply Z.pow_le_mono_r; lia). unfold pss_db. destruct (emlen - length salt - hlen - 2)%nat; cbn [repeat app hd]; lia.
Qed.
Section PSS.
Variable hash : list Z -> list Z.
Variable hlen : nat.
Hypothesis OK : hash_ok hash hlen.
Lemma encode_iff slen mhash em embits : all_bytes em -> 0 <= 8 * Z.of_nat (length em) - embits <= 7 ->
  (emsa_pss_consistent hash hlen slen mhash em embits <->
   (hlen + slen + 2 <= length em)%nat /\ exists salt, all_bytes salt /\ length salt = slen /\ em = emsa_pss_encode hash hlen mhash salt (length em) embits).
Proof.
  destruct OK as (Hp & Hl & Hb). intros Fe U. unfold emsa_pss_consistent. cbv zeta. set (u := 8 * Z.of_nat (length em) - embits) in *.
  assert (ML : forall H, length (MGF1 hash hlen H (length em - hlen - 1)) = (length em - hlen - 1)%nat) by (intros H; apply MGF1_length; assumption).
  assert (MB : forall H, all_bytes (MGF1 hash hlen H (length em - hlen - 1))) by (intros H; apply MGF1_bytes; assumption).
  split.
  - intros (L & mdb & H & E & LH & Hh & salt & Ls & D & HH). split; [exact L|].
    assert (Lm : length mdb = (length em - hlen - 1)%nat) by (rewrite E, !app_length; cbn [length]; lia).
    assert (Fm : all_bytes mdb) by (rewrite E in Fe; apply Forall_app in Fe; tauto).
    assert (H0 : 0 <= hd 0 mdb) by (destruct mdb as [|x mdb]; cbn; [lia|]; inversion Fm as [|? ? B]; apply B).
    replace (length em - hlen - slen - 2)%nat with (length em - length salt - hlen - 2)%nat in D by lia.
    assert (Fd : all_bytes (pss_db (length em) hlen salt)) by (unfold pss_db; rewrite <- D; apply clear_bytes; [exact U|]; apply xor_all_bytes; [exact Fm|apply MB]).
    exists salt. split; [unfold pss_db in Fd; apply Forall_app in Fd; destruct Fd as [_ Fd]; apply Forall_app in Fd; tauto|]. split; [exact Ls|].
    unfold emsa_pss_encode. cbv zeta. rewrite HH. fold u. rewrite <- D. rewrite mask_twice; [exact E|exact U|rewrite ML; exact Lm|lia].
  - intros (L & salt & Fs & Ls & E). split; [exact L|].
    set (H := hash (repeat 0 8 ++ mhash ++ salt)) in *. unfold emsa_pss_encode in E. cbv zeta in E. fold u H in E. fold (pss_db (length em) hlen salt) in E.
    pose proof (db_length (length em) hlen salt ltac:(lia)) as Ld.
    eexists _, H. split; [exact E|]. split; [apply Hl|]. split; [apply clear_hd; exact U|]. exists salt. split; [exact Ls|]. split; [|reflexivity].
    rewrite mask_twice; [|exact U|rewrite ML; exact Ld|apply db_hd; exact U]. unfold pss_db. replace (length em - hlen - slen - 2)%nat with (length em - length salt - hlen - 2)%nat by lia. reflexivity.
Qed.
Lemma encode_length mhash salt emlen embits : (hlen + length salt + 2 <= emlen)%nat -> length (emsa_pss_encode hash hlen mhash salt emlen embits) = emlen.
Proof.
  destruct OK as (Hp & Hl & Hb). intros L. unfold emsa_pss_encode. cbv zeta. rewrite !app_length, clear_length. fold (pss_db emlen hlen salt). pose proof (db_length emlen hlen salt L) as Ld.
  rewrite xor_length, Ld, Hl; [cbn [length]; lia|]. rewrite Ld. symmetry. apply MGF1_length; assumption.
Qed.
Lemma encode_bytes mhash salt emlen embits : 0 <= 8 * Z.of_nat emlen - embits <= 7 -> all_bytes salt -> all_bytes (emsa_pss_encode hash hlen mhash salt emlen embits).
Proof.
  destruct OK as (Hp & Hl & Hb). intros U F. unfold emsa_pss_encode. cbv zeta. apply Forall_app. split.
  - apply clear_bytes; [exact U|]. apply xor_all_bytes; [|apply MGF1_bytes; assumption]. apply Forall_app. split; [|apply Forall_app; split; [bytes|exact F]].
    apply Forall_forall. intros x Hx. apply repeat_spec in Hx. subst. red. lia.
  - apply Forall_app. split; [apply Hb|bytes].
Qed.
(** the encoded message has at most embits bits *)
Lemma encode_range mhash salt emlen embits : (hlen + length salt + 2 <= emlen)%nat -> 0 <= 8 * Z.of_nat emlen - embits <= 7 -> all_bytes salt ->
  0 <= OS2IP (emsa_pss_encode hash hlen mhash salt emlen embits) < 2 ^ embits.
Proof.
  intros L U F. pose proof (encode_length mhash salt emlen embits L) as Le. pose proof (encode_bytes mhash salt emlen embits U F) as Fe. pose proof (OS2IP_range _ Fe) as R. split; [lia|].
  assert (Hh : 0 <= hd 0 (emsa_pss_encode hash hlen mhash salt emlen embits) < 2 ^ (8 - (8 * Z.of_nat emlen - embits))).
  { unfold emsa_pss_encode at 1 2. cbv zeta. set (u := 8 * Z.of_nat emlen - embits) in *. fold (pss_db emlen hlen salt).
    match goal with |- context [clear_top u ?l] => assert (E : clear_top u l <> []); [|pose proof (clear_hd u l U) as Q; destruct (clear_top u l); [contradiction|exact Q]] end.
    intros E. apply (f_equal (@length Z)) in E. rewrite clear_length, xor_length, db_length in E; [cbn in E; lia|lia|]. rewrite db_length by lia. symmetry. destruct OK as (Hp & Hl & Hb). apply MGF1_length; assumption. }
  destruct (emsa_pss_encode hash hlen mhash salt emlen embits) as [|x t]; [cbn in Le; lia|]. cbn [hd] in Hh. cbn [length] in Le. rewrite OS2IP_cons.
  pose proof (OS2IP_range t (Forall_inv_tail Fe)) as Rt. replace embits with (8 - (8 * Z.of_nat emlen - embits) + 8 * Z.of_nat (length t)) at 1 by lia.
  rewrite Z.pow_add_r by lia. assert (P8 : 256 ^ Z.of_nat (length t) = 2 ^ (8 * Z.of_nat (length t))) by (change 256 with (2 ^ 8); rewrite <- Z.pow_mul_r by lia; reflexivity).
  rewrite <- P8. nia.
Qed.
(** the bit length the code uses *)
Lemma pss_bytes_sign_iff n e d slen mhash sig : all_bytes n -> no_leading_zero n -> rsa_key (OS2IP n) e d -> all_bytes sig ->
  (pss_valid_bytes hash hlen slen (OS2IP n) e (length n) mhash sig <->
   (hlen + slen + 2 <= length n)%nat /\ exists salt, all_bytes salt /\ length salt = slen /\
     let em := emsa_pss_encode hash hlen mhash salt (length n) (8 * Z.of_nat (length n) - 1) in OS2IP em < OS2IP n /\ sig = rsa_sign (OS2IP n) d (length n) em).
Proof.
  intros Fn Hn K Fs. pose proof (modulus_range n _ Fn Hn eq_refl) as Rn. pose proof (key_pos _ _ _ K) as Pn. unfold pss_valid_bytes.
  set (m := OS2IP sig ^ e mod OS2IP n). assert (Rm : 0 <= m < OS2IP n) by (apply Z.mod_pos_bound; lia).
  rewrite encode_iff by (try apply I2OSP_bytes; rewrite I2OSP_length; lia). rewrite !I2OSP_length. split.
  - intros (L & R & H & salt & F & Ls & E). split; [exact H|]. exists salt. split; [exact F|]. split; [exact Ls|]. cbv zeta. rewrite <- E. rewrite I2OSP_OS2IP by lia. split; [lia|].
    apply (sign_iff _ e d _ (length n)); try assumption; try lia; [apply I2OSP_bytes|apply I2OSP_length|rewrite I2OSP_OS2IP; lia|]. split; [fold m; lia|reflexivity].
  - intros (H & salt & F & Ls & R & Q). assert (L : length sig = length n) by (rewrite Q; apply sign_length).
    assert (Rs : OS2IP sig < OS2IP n) by (rewrite Q, sign_value by lia; apply Z.mod_pos_bound; lia).
    split; [exact L|]. split; [exact Rs|]. split; [exact H|]. exists salt. split; [exact F|]. split; [exact Ls|].
    apply (sign_iff (OS2IP n) e d (length n) (length n)) in Q; try assumption; try lia; [apply Q|apply encode_bytes; [lia|exact F]|apply encode_length; lia].
Qed.
(** RFC 8017 *)
Lemma pss_sign_iff n e d slen mhash sig : all_bytes n -> no_leading_zero n -> rsa_key (OS2IP n) e d -> all_bytes sig ->
  (rsassa_pss_valid hash hlen slen (OS2IP n) e (length n) mhash sig <->
   (hlen + slen + 2 <= Z.to_nat ((Z.log2 (OS2IP n) + 7) / 8))%nat /\ exists salt, all_bytes salt /\ length salt = slen /\ sig = rsassa_pss_sign hash hlen (OS2IP n) d (length n) mhash salt).
Proof.
  intros Fn Hn K Fs. pose proof (modulus_range n _ Fn Hn eq_refl) as Rn. pose proof (key_pos _ _ _ K) as Pn. unfold rsassa_pss_valid, rsassa_pss_sign. cbv zeta.
  set (m := OS2IP sig ^ e mod OS2IP n). assert (Rm : 0 <= m < OS2IP n) by (apply Z.mod_pos_bound; lia).
  set (bits := Z.log2 (OS2IP n)). assert (B0 : 0 <= bits) by apply Z.log2_nonneg. assert (B2 : 2 ^ bits <= OS2IP n) by (apply Z.log2_spec; lia).
  set (l := Z.to_nat ((bits + 7) / 8)). assert (U : 0 <= 8 * Z.of_nat l - bits <= 7).
  { unfold l. pose proof (Z.div_mod (bits + 7) 8 ltac:(lia)). pose proof (Z.mod_pos_bound (bits + 7) 8 ltac:(lia)). pose proof (Z.div_pos (bits + 7) 8 ltac:(lia) ltac:(lia)). rewrite Z2Nat.id by lia. lia. }
  rewrite encode_iff by (try apply I2OSP_bytes; rewrite I2OSP_length; lia). rewrite !I2OSP_length. split.
  - intros (L & R & M & H & salt & F & Ls & E). split; [exact H|]. exists salt. split; [exact F|]. split; [exact Ls|]. rewrite <- E.
    apply (sign_iff _ e d _ l); try assumption; try lia; [apply I2OSP_bytes|apply I2OSP_length|rewrite I2OSP_OS2IP; lia|]. split; [exact M|reflexivity].
  - intros (H & salt & F & Ls & Q). assert (L : length sig = length n) by (rewrite Q; apply sign_length).
    assert (Rs : OS2IP sig < OS2IP n) by (rewrite Q, sign_value by lia; apply Z.mod_pos_bound; lia).
    split; [exact L|]. split; [exact Rs|]. pose proof (encode_range mhash salt l bits ltac:(lia) U F) as Er.
    apply (sign_iff (OS2IP n) e d (length n) l) in Q; try assumption; try lia; [|apply encode_bytes; [lia|exact F]|apply encode_length; lia].
    split; [apply Q|]. split; [exact H|]. exists salt. split; [exact F|]. split; [exact Ls|]. apply Q.
Qed.
End PSS.
