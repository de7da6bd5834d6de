(** The ECDSA actions of the example contract on the named curves. *)
From Coq Require Import List ZArith Znumtheory Bool Lia.
From Verif Require Import Outcome UtilsModel WordsModel WordsSpec UtilsSpec BigintModel BigintSpec NumModel FpModel FpSpec EcGroup ZpField EcModel EcSpec EcFeSpec EcCurveModel EcCurveSpec EcdsaModel EcdsaSpec EcdsaClaims EcLaws EcClaims NamedModel NamedSpec CurveVerify GroupSpec NamedGroup RsaSpec RsaClaims ShaModel ShaSpec ShaProofs RsaModel RsaProofs PowmModel PowmMain PowmClaims ContractModel ContractSpec ContractClaims ContractRsa RsaPssSpec RsaPss.
Import ListNotations.
Open Scope Z_scope.

(** roots are unique, so the constants of SHA-384 are *)
Lemma root_unique e x a b : 0 < e -> 0 <= a -> 0 <= b -> a ^ e <= x < (a + 1) ^ e -> b ^ e <= x < (b + 1) ^ e -> a = b.
Proof.
  intros He A0 B0 HA HB. destruct (Z.lt_trichotomy a b) as [L|[L|L]]; [|exact L|].
  - pose proof (Z.pow_le_mono_l (a + 1) b e ltac:(lia)). lia.
  - pose proof (Z.pow_le_mono_l (b + 1) a e ltac:(lia)). lia.
Qed.
Lemma forall2_unique (R : Z -> Z -> Prop) : (forall p a b, R p a -> R p b -> a = b) -> forall l l1 l2, Forall2 R l l1 -> Forall2 R l l2 -> l1 = l2.
Proof.
  intros U l l1 l2 H. revert l2. induction H as [|p a l l1 Ha H IH]; intros l2 H2; inversion H2 as [|? b ? l2' Hb H2']; subst; [reflexivity|]. f_equal; [apply (U p); assumption|apply IH; assumption].
Qed.
Lemma constants_unique K H0 : round_constants K -> initial_value H0 -> K = K_512 /\ H0 = sha384_initial.
Proof.
  intros A B. destruct sha384_constants as (A' & B' & _). split.
  - apply (forall2_unique cube_root_bits) with (l := primes); try assumption. intros p a b (r & Hr & R0 & ->) (r' & Hr' & R0' & ->). rewrite (root_unique 3 (p * 2 ^ 192) r r'); auto; reflexivity.
  - apply (forall2_unique square_root_bits) with (l := firstn 8 (skipn 8 primes)); try assumption. intros p a b (r & Hr & R0 & ->) (r' & Hr' & R0' & ->). rewrite (root_unique 2 (p * 2 ^ 128) r r'); auto; reflexivity.
Qed.

Lemma action_curve m k : In (m, k) ecdsa_actions -> In m named_curves /\ forall d, length d = hash_size k -> digest_fits m d.
Proof.
  intros H. split; [|intros d L; unfold digest_fits].
  - repeat (destruct H as [H|H]; [injection H as <- <-; unfold named_curves; cbn; tauto|]). destruct H.
  - repeat (destruct H as [H|H]; [injection H as <- <-; (left; discriminate) || (right; rewrite L; cbn; lia)|]). destruct H.
Qed.

Lemma action_table : map fst ecdsa_actions = named_curves /\ forall m k, In (m, k) ecdsa_actions -> k = matching_hash (bitlen (hexval (pm_n m))).
Proof. split; [reflexivity|]. intros m k H. repeat (destruct H as [H|H]; [injection H as <- <-; vm_compute; reflexivity|]). destruct H. Qed.

Section ACT.
Variables sha1 sha256 sha512 : list Z -> list Z.
Hypothesis HH : host_ok sha1 sha256 sha512.
Variable junk : list Z.
Hypothesis LJ : length junk = 128%nat.
Hypothesis FJ : all_bytes junk.
Variables (K H0 : list Z).
Hypothesis KC : round_constants K.
Hypothesis HC : initial_value H0.
Notation the_hash := (action_hash sha1 sha256 sha512 K H0).
Variables (wasm : bool) (m : params) (k : hash_kind) (C : curve).
Hypothesis IN : In (m, k) ecdsa_actions.
Hypothesis NC : named_curve wasm m = Ok C.
Variable Pp : prime (value (cu_p C)).
Notation c := (named_cap wasm m).
Variables (qx qy msg r s : list Z).
Hypothesis (Ax : all_bytes qx) (Ay : all_bytes qy) (Am : all_bytes msg) (Ar : all_bytes r) (As : all_bytes s).
Hypothesis Lm : Z.of_nat (length msg) < 2 ^ 64.
Notation act := (ecdsa_action sha1 sha256 sha512 junk wasm (m, k)).
Lemma a_hash : run_hash sha1 sha256 sha512 junk k msg = Ok (the_hash k msg).
Proof. destruct (constants_unique K H0 KC HC) as (-> & ->). apply run_hash_ok; assumption. Qed.
Lemma a_ok : all_bytes (the_hash k msg) /\ fits_order C (the_hash k msg).
Proof.
  destruct (constants_unique K H0 KC HC) as (-> & ->). destruct (the_hash_ok sha1 sha256 sha512 HH k) as (_ & HL & HB). split; [apply HB|].
  destruct (action_curve m k IN) as (IN' & F). apply (nFit wasm m C IN' NC). apply F, HL.
Qed.
Lemma named_action_total : act qx qy msg r s = Ok tt \/ act qx qy msg r s = Abort.
Proof.
  unfold ecdsa_action. cbn [fst snd]. rewrite NC. cbn [bind]. destruct (action_curve m k IN) as (IN' & _).
  apply (action_total c C Pp (nEC wasm m C IN' NC Pp) (run_hash sha1 sha256 sha512 junk k) qx qy msg (the_hash k msg)); auto using a_hash. apply a_ok.
Qed.
Lemma named_action_exact : satisfies C (be_value qx) (be_value qy) ->
  (action_valid c C Pp qx qy (the_hash k msg) r s -> act qx qy msg r s = Ok tt) /\ (~ action_valid c C Pp qx qy (the_hash k msg) r s -> act qx qy msg r s = Abort).
Proof.
  unfold ecdsa_action. cbn [fst snd]. rewrite NC. cbn [bind]. destruct (action_curve m k IN) as (IN' & _). intros SA.
  apply (action_exact c C Pp (nEC wasm m C IN' NC Pp) (nPN wasm m C IN' NC Pp)); auto using a_hash; try apply a_ok. apply (nB0 wasm m C IN' NC Pp).
Qed.
Lemma named_action_off : let z := leftmost (bitlen (hexval (pm_n m))) (the_hash k msg) mod hexval (pm_n m) in z <> 0 -> z <> hexval (pm_gx m) ->
  exists qx qy r, all_bytes qx /\ all_bytes qy /\ all_bytes r /\ be_value qx < value (cu_p C) /\ be_value qy < value (cu_p C) /\ ~ satisfies C (be_value qx) (be_value qy) /\ act qx qy msg r r = Ok tt.
Proof.
  cbv zeta. unfold ecdsa_action. cbn [fst snd]. rewrite NC. cbn [bind]. destruct (action_curve m k IN) as (IN' & _). intros Z0 ZG.
  destruct (n_value wasm m C IN' NC) as (EN & EP). rewrite <- EN in Z0, ZG.
  apply (action_off c C Pp (nEC wasm m C IN' NC Pp) (nPN wasm m C IN' NC Pp) _ msg (the_hash k msg)); auto using a_hash; try apply a_ok; [apply (nN wasm m C IN' NC Pp)| |apply (nG0 wasm m C IN' NC Pp)].
  intros x y EG Q. apply ZG. rewrite <- Q.
  destruct (named_holds wasm m IN') as (C' & K' & HC'). rewrite NC in K'. injection K' as <-. destruct HC' as (_ & _ & _ & _ & _ & _ & (gx & gy & Eg & Gx & Vx & _) & _).
  rewrite Eg in EG. unfold aff_pt, abs_aff in EG. cbn [option_map fst snd] in EG. destruct (_ && _); [discriminate|]. injection EG as <- _.
  rewrite <- Vx. unfold coord, fval. cbn [zval zmk]. apply Z.mod_small. apply Gx.
Qed.
End ACT.

(** the RSA actions *)
Section RSA.
Variables sha1 sha256 sha512 : list Z -> list Z.
Variables (junk K H0 : list Z) (k : hash_kind) (n e msg sig : list Z).
Notation the_hash := (action_hash sha1 sha256 sha512 K H0 k).
Hypothesis HH : host_ok sha1 sha256 sha512.
Hypothesis LJ : length junk = 128%nat.
Hypothesis FJ : all_bytes junk.
Hypothesis KC : round_constants K.
Hypothesis HC : initial_value H0.
Hypothesis (Am : all_bytes msg) (As : all_bytes sig).
Hypothesis Lm : Z.of_nat (length msg) < 2 ^ 64.
Lemma pkcs1_action_std mod_exp : exponent_ok e -> all_bytes n -> no_leading_zero n -> exact_for mod_exp n e ->
  let valid := rsassa_pkcs1_valid (OS2IP n) (OS2IP e) (length n) (digest_info (action_oid k) (the_hash msg)) sig in
  let act := rsa_action sha1 sha256 sha512 junk mod_exp k n e msg sig in
  (valid -> act = Ok tt) /\ (~ valid -> act = Abort).
Proof. destruct (constants_unique K H0 KC HC) as (-> & ->). intros. apply rsa_action_claim; assumption. Qed.
Lemma pss_action_std mod_exp salt_len : exponent_ok e -> all_bytes n -> full_top_byte n -> exact_for mod_exp n e ->
  let slen := match salt_len with Some s => s | None => Z.of_nat (hash_size k) end in
  0 <= slen -> Z.of_nat (hash_size k) + slen + 10 < 2 ^ 32 -> 8 * zlen n < 2 ^ 32 ->
  let valid := rsassa_pss_valid the_hash (hash_size k) (Z.to_nat slen) (OS2IP n) (OS2IP e) (length n) (the_hash msg) sig in
  let act := pss_action sha1 sha256 sha512 junk mod_exp k n e salt_len msg sig in
  (valid -> act = Ok tt) /\ (~ valid -> act = Abort).
Proof. destruct (constants_unique K H0 KC HC) as (-> & ->). intros. apply pss_action_claim; assumption. Qed.
Lemma pss_action_bytes_std mod_exp salt_len : exponent_ok e -> all_bytes n -> no_leading_zero n -> exact_for mod_exp n e ->
  let slen := match salt_len with Some s => s | None => Z.of_nat (hash_size k) end in
  0 <= slen < 2 ^ 32 -> 8 * zlen n < 2 ^ 32 ->
  let valid := pss_valid_bytes the_hash (hash_size k) (Z.to_nat slen) (OS2IP n) (OS2IP e) (length n) (the_hash msg) sig in
  let act := pss_action sha1 sha256 sha512 junk mod_exp k n e salt_len msg sig in
  (act = Ok tt <-> valid) /\ (act = Ok tt \/ act = Abort \/ act = UB) /\ (Z.of_nat (hash_size k) + slen + 2 < 2 ^ 32 -> act <> UB).
Proof. destruct (constants_unique K H0 KC HC) as (-> & ->). intros. apply pss_action_bytes; assumption. Qed.
Lemma action_sw salt_len : modulus_fit n -> exponent_fit e ->
  let slen := match salt_len with Some s => s | None => Z.of_nat (hash_size k) end in
  let pkcs1 := rsassa_pkcs1_valid (OS2IP n) (OS2IP e) (length n) (digest_info (action_oid k) (the_hash msg)) sig in
  let pss := rsassa_pss_valid the_hash (hash_size k) (Z.to_nat slen) (OS2IP n) (OS2IP e) (length n) (the_hash msg) sig in
  let act1 := rsa_action sha1 sha256 sha512 junk mod_exp_sw k n e msg sig in
  let act2 := pss_action sha1 sha256 sha512 junk mod_exp_sw k n e salt_len msg sig in
  ((pkcs1 -> act1 = Ok tt) /\ (~ pkcs1 -> act1 = Abort)) /\
  (full_top_byte n -> 0 <= slen -> Z.of_nat (hash_size k) + slen + 10 < 2 ^ 32 -> (pss -> act2 = Ok tt) /\ (~ pss -> act2 = Abort)).
Proof.
  intros Hn He. pose proof (powm_exact_for n e Hn He) as Ex. pose proof (exponent_fit_ok e He) as He'. destruct Hn as (An & Nn & _ & _ & L). split.
  - apply pkcs1_action_std; assumption.
  - intros. apply pss_action_std; try assumption. unfold zlen. change (2 ^ 27) with 134217728 in L. change (2 ^ 32) with 4294967296. lia.
Qed.
End RSA.
