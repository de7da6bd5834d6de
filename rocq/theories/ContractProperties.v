(** C52, C53: the actions of the example contract. *)
From Coq Require Import List ZArith Znumtheory Bool Lia.
From Verif Require Import Outcome UtilsModel UtilsSpec WordsModel WordsSpec BigintModel BigintSpec BigintProofs BigintBits BigintClaims NumModel FpModel FpSpec FpProofs FpClaims EcGroup EcGroupProofs ZpField EcModel EcSpec EcScalar EcFeSpec EcCurveModel EcClaims EcLaws EcCurveSpec EcCodec EcCurveClaims EcdsaModel EcdsaSpec EcdsaProofs EcdsaClaims EcdsaExamples NamedModel NamedSpec CurveVerify EcKey GroupSpec NamedGroup RsaModel RsaSpec RsaProofs RsaClaims ShaModel ShaSpec ShaProofs PowmModel PowmMain PowmClaims SafeSpec EcdsaSafe ContractModel ContractSpec ContractClaims ContractRsa ContractNamed.
Import ListNotations.
Open Scope Z_scope.

(** C52: with a key on the curve the check succeeds exactly for strings that fit, reduced coordinates and a signature the standard accepts; everything else aborts. *)
Theorem C52_check : forall c C (Pp : prime (value (cu_p C))), ecdsa_curve c C Pp -> value (cu_p C) <= 2 * (value (cu_n C)) -> forall hash qx qy msg h r s, value (cu_b C) <> 0 -> all_bytes qx -> all_bytes qy -> all_bytes r -> all_bytes s -> hash msg = Ok h -> all_bytes h -> fits_order C h ->
  satisfies C (be_value qx) (be_value qy) ->
  (action_valid c C Pp qx qy h r s -> check_ecdsa c C hash qx qy msg r s = Ok tt) /\ (~ action_valid c C Pp qx qy h r s -> check_ecdsa c C hash qx qy msg r s = Abort).
Proof. exact action_exact. Qed.
Print Assumptions C52_check.
(** C52: every ECDSA action succeeds or aborts, whatever the byte strings of the transaction. *)
Theorem C52_total : forall sha1 sha256 sha512, host_ok sha1 sha256 sha512 -> forall junk, length junk = 128%nat -> all_bytes junk -> forall K H0, round_constants K -> initial_value H0 ->
  forall wasm m k C, In (m, k) ecdsa_actions -> named_curve wasm m = Ok C -> forall Pp : prime (value (cu_p C)), forall qx qy msg r s, all_bytes qx -> all_bytes qy -> all_bytes msg -> all_bytes r -> all_bytes s -> Z.of_nat (length msg) < 2 ^ 64 ->
  ecdsa_action sha1 sha256 sha512 junk wasm (m, k) qx qy msg r s = Ok tt \/ ecdsa_action sha1 sha256 sha512 junk wasm (m, k) qx qy msg r s = Abort.
Proof. exact named_action_total. Qed.
Print Assumptions C52_total.
(** C52: with a key on the curve every ECDSA action succeeds exactly on the valid signatures for the digest of the message. *)
Theorem C52_action : forall sha1 sha256 sha512, host_ok sha1 sha256 sha512 -> forall junk, length junk = 128%nat -> all_bytes junk -> forall K H0, round_constants K -> initial_value H0 ->
  forall wasm m k C, In (m, k) ecdsa_actions -> named_curve wasm m = Ok C -> forall Pp : prime (value (cu_p C)), forall qx qy msg r s, all_bytes qx -> all_bytes qy -> all_bytes msg -> all_bytes r -> all_bytes s -> Z.of_nat (length msg) < 2 ^ 64 ->
  satisfies C (be_value qx) (be_value qy) ->
  let valid := action_valid (named_cap wasm m) C Pp qx qy (action_hash sha1 sha256 sha512 K H0 k msg) r s in
  (valid -> ecdsa_action sha1 sha256 sha512 junk wasm (m, k) qx qy msg r s = Ok tt) /\ (~ valid -> ecdsa_action sha1 sha256 sha512 junk wasm (m, k) qx qy msg r s = Abort).
Proof. exact named_action_exact. Qed.
Print Assumptions C52_action.
(** C52, refuted: that an ECDSA action succeeds only with a key on the curve.  For every message whose digest number is neither 0 nor the abscissa of the generator modulo n, some key off the curve and some signature are accepted. *)
Theorem C52_key_on_curve_refuted : forall sha1 sha256 sha512, host_ok sha1 sha256 sha512 -> forall junk, length junk = 128%nat -> all_bytes junk -> forall K H0, round_constants K -> initial_value H0 ->
  forall wasm m k C, In (m, k) ecdsa_actions -> named_curve wasm m = Ok C -> forall Pp : prime (value (cu_p C)), forall msg, all_bytes msg -> Z.of_nat (length msg) < 2 ^ 64 ->
  let z := leftmost (bitlen (hexval (pm_n m))) (action_hash sha1 sha256 sha512 K H0 k msg) mod hexval (pm_n m) in z <> 0 -> z <> hexval (pm_gx m) ->
  exists qx qy r, all_bytes qx /\ all_bytes qy /\ all_bytes r /\ be_value qx < value (cu_p C) /\ be_value qy < value (cu_p C) /\ ~ satisfies C (be_value qx) (be_value qy) /\ ecdsa_action sha1 sha256 sha512 junk wasm (m, k) qx qy msg r r = Ok tt.
Proof. exact named_action_off. Qed.
Print Assumptions C52_key_on_curve_refuted.
(** stand-ins for the hash functions of the host *)
Definition toy (n : nat) (m : list Z) : list Z := map (fun i => fold_left (fun a x => (a * 33 + x) mod 65536) m (Z.of_nat i) / 256) (seq 0 n).
Lemma toy_ok n : (0 < n)%nat -> (n <= 256)%nat -> hash_ok (toy n) n.
Proof.
  intros H0 H1. split; [exact H0|]. split; [intros m; unfold toy; rewrite map_length, seq_length; reflexivity|].
  intros m. apply Forall_forall. intros x Hx. apply in_map_iff in Hx. destruct Hx as (i & <- & Hi). apply in_seq in Hi.
  assert (R : forall l a, 0 <= a < 65536 -> 0 <= fold_left (fun a x => (a * 33 + x) mod 65536) l a < 65536) by (induction l as [|y l IH]; intros a Ha; [exact Ha|]; cbn [fold_left]; apply IH, Z.mod_pos_bound; reflexivity).
  specialize (R m (Z.of_nat i) ltac:(lia)). unfold is_byte. split; [apply Z.div_pos; lia|apply Z.div_lt_upper_bound; lia].
Qed.
Lemma toy_host : host_ok (toy 20) (toy 32) (toy 64).
Proof. split; [apply toy_ok; lia|]. split; apply toy_ok; lia. Qed.
Definition ack : list Z := [97; 99; 107].
Example C52_ex : ecdsa_curve ex_c E251 prime_251 /\ value (cu_b E251) <> 0 /\ value (cu_p E251) <= 2 * value (cu_n E251) /\ fits_order E251 [200; 17] /\ satisfies E251 (be_value [0; 60]) (be_value [57]) /\
  check_ecdsa ex_c E251 (fun _ => Ok [200; 17]) [0; 60] [57] ack [18] [190] = Ok tt /\ check_ecdsa ex_c E251 (fun _ => Ok [200; 17]) [0; 60] [57] ack [18] [191] = Abort /\
  check_ecdsa ex_c E251 (fun _ => Ok [200; 17]) [3] [93] ack [200] [200] = Ok tt /\ ~ satisfies E251 (be_value [3]) (be_value [93]) /\
  check_ecdsa ex_c E251 (fun _ => Ok [200; 17]) [254] [57] ack [18] [190] = Abort.
Proof.
  split; [exact E251_ok|]. split; [vm_compute; discriminate|]. split; [vm_compute; discriminate|]. split; [left; reflexivity|]. split; [vm_compute; reflexivity|]. do 3 (split; [vm_compute; reflexivity|]). split; [vm_compute; discriminate|]. vm_compute. reflexivity.
Qed.
Definition gx_bytes : list Z := I2OSP (hexval (pm_gx secp256r1)) 32.
Definition gy_bytes : list Z := I2OSP (hexval (pm_gy secp256r1)) 32.
(** the hypotheses of C52_action and C52_key_on_curve_refuted are met by the secp256r1 action, the generator as key and the toy hash *)
Example C52_action_ex : host_ok (toy 20) (toy 32) (toy 64) /\ In (secp256r1, SHA256) ecdsa_actions /\ (exists C, named_curve true secp256r1 = Ok C /\ prime (value (cu_p C)) /\ satisfies C (be_value gx_bytes) (be_value gy_bytes)) /\
  round_constants K_512 /\ initial_value sha384_initial /\
  let z := leftmost (bitlen (hexval (pm_n secp256r1))) (toy 32 ack) mod hexval (pm_n secp256r1) in z <> 0 /\ z <> hexval (pm_gx secp256r1).
Proof.
  split; [exact toy_host|]. assert (IN : In (secp256r1, SHA256) ecdsa_actions) by (cbn; tauto). split; [exact IN|].
  destruct (action_curve _ _ IN) as (IN' & _). split; [|split; [apply sha384_constants|split; [apply sha384_constants|vm_compute; split; discriminate]]].
  destruct (named_holds true secp256r1 IN') as (C & HC & HV). exists C. split; [exact HC|]. split; [apply (named_usable true secp256r1 C IN' HC)|].
  destruct HV as (_ & Ep & _ & Ea & _ & Eb & _). unfold satisfies, rhs. rewrite Ep, Ea, Eb. vm_compute. reflexivity.
Qed.

(** C53: over an exact exponentiation primitive the PKCS#1 actions succeed exactly on valid signatures of the digest of the message and abort on all others. *)
Theorem C53_pkcs1 : forall sha1 sha256 sha512 junk K H0 k n e msg sig, host_ok sha1 sha256 sha512 -> length junk = 128%nat -> all_bytes junk -> round_constants K -> initial_value H0 ->
  all_bytes msg -> all_bytes sig -> Z.of_nat (length msg) < 2 ^ 64 -> forall mod_exp, exponent_ok e -> all_bytes n -> no_leading_zero n -> exact_for mod_exp n e ->
  let valid := rsassa_pkcs1_valid (OS2IP n) (OS2IP e) (length n) (digest_info (action_oid k) (action_hash sha1 sha256 sha512 K H0 k msg)) sig in
  let act := rsa_action sha1 sha256 sha512 junk mod_exp k n e msg sig in
  (valid -> act = Ok tt) /\ (~ valid -> act = Abort).
Proof. exact pkcs1_action_std. Qed.
Print Assumptions C53_pkcs1.
(** C53: likewise the PSS actions, for moduli that fill their top byte and salt lengths that do not wrap (the cases C09 refutes are left out). *)
Theorem C53_pss_partial : forall sha1 sha256 sha512 junk K H0 k n e msg sig, host_ok sha1 sha256 sha512 -> length junk = 128%nat -> all_bytes junk -> round_constants K -> initial_value H0 ->
  all_bytes msg -> all_bytes sig -> Z.of_nat (length msg) < 2 ^ 64 -> forall mod_exp salt_len, exponent_ok e -> all_bytes n -> full_top_byte n -> exact_for mod_exp n e ->
  let slen := match salt_len with Some s => s | None => Z.of_nat (hash_size k) end in
  0 <= slen -> Z.of_nat (hash_size k) + slen + 10 < 2 ^ 32 -> 8 * zlen n < 2 ^ 32 ->
  let hash := action_hash sha1 sha256 sha512 K H0 k in
  let valid := rsassa_pss_valid hash (hash_size k) (Z.to_nat slen) (OS2IP n) (OS2IP e) (length n) (hash msg) sig in
  let act := pss_action sha1 sha256 sha512 junk mod_exp k n e salt_len msg sig in
  (valid -> act = Ok tt) /\ (~ valid -> act = Abort).
Proof. exact pss_action_std. Qed.
Print Assumptions C53_pss_partial.
(** C53: the same for both schemes over the exponentiation of powm.h, for the moduli and exponents it is made for. *)
Theorem C53_software_partial : forall sha1 sha256 sha512 junk K H0 k n e msg sig, host_ok sha1 sha256 sha512 -> length junk = 128%nat -> all_bytes junk -> round_constants K -> initial_value H0 ->
  all_bytes msg -> all_bytes sig -> Z.of_nat (length msg) < 2 ^ 64 -> forall salt_len, modulus_fit n -> exponent_fit e ->
  let hash := action_hash sha1 sha256 sha512 K H0 k in
  let slen := match salt_len with Some s => s | None => Z.of_nat (hash_size k) end in
  let pkcs1 := rsassa_pkcs1_valid (OS2IP n) (OS2IP e) (length n) (digest_info (action_oid k) (hash msg)) sig in
  let pss := rsassa_pss_valid hash (hash_size k) (Z.to_nat slen) (OS2IP n) (OS2IP e) (length n) (hash msg) sig in
  let act1 := rsa_action sha1 sha256 sha512 junk mod_exp_sw k n e msg sig in
  let act2 := pss_action sha1 sha256 sha512 junk mod_exp_sw k n e salt_len msg sig in
  ((pkcs1 -> act1 = Ok tt) /\ (~ pkcs1 -> act1 = Abort)) /\
  (full_top_byte n -> 0 <= slen -> Z.of_nat (hash_size k) + slen + 10 < 2 ^ 32 -> (pss -> act2 = Ok tt) /\ (~ pss -> act2 = Abort)).
Proof. exact action_sw. Qed.
Print Assumptions C53_software_partial.
(** a 512-bit key with exponent 3 and signatures of "ack" over the toy hash, PKCS#1 and PSS with a salt of 5 bytes *)
Definition ex_n : list Z := I2OSP 11422183735077130193860337217829886089372822578680062695841547586556554978519118177858568270114241445626147588239708319248529837971892397971528467156691817 64.
Definition ex_sig1 : list Z := I2OSP 1009725238978894163988039138639840295107848660138607673364675091991576728234576827915957919052226755532126032217790221202303078200033502704679265547524773 64.
Definition ex_sig2 : list Z := I2OSP 583206993082653828136947156632336277741107739493127357027408285517153119710858674567595422348365071299817662719647352273052402498544111201427637454810755 64.
Example C53_ex : modulus_fit ex_n /\ full_top_byte ex_n /\ exponent_fit [3] /\ all_bytes ex_sig1 /\ all_bytes ex_sig2 /\
  rsa_action (toy 20) (toy 32) (toy 64) [] ideal_exp SHA256 ex_n [3] ack ex_sig1 = Ok tt /\ pss_action (toy 20) (toy 32) (toy 64) [] ideal_exp SHA256 ex_n [3] (Some 5) ack ex_sig2 = Ok tt /\
  rsa_action (toy 20) (toy 32) (toy 64) [] ideal_exp SHA256 ex_n [3] ack ex_sig2 = Abort /\ pss_action (toy 20) (toy 32) (toy 64) [] ideal_exp SHA256 ex_n [3] (Some 4) ack ex_sig2 = Abort.
Proof.
  split; [split; [apply I2OSP_bytes|]; split; [vm_compute; reflexivity|]; split; [vm_compute; reflexivity|]; split; vm_compute; reflexivity|]. split; [vm_compute; discriminate|].
  split; [split; [repeat constructor; unfold is_byte; lia|]; split; [cbn; lia|]; split; [reflexivity|]; vm_compute; split; [discriminate|reflexivity]|]. do 2 (split; [apply I2OSP_bytes|]). do 3 (split; [vm_compute; reflexivity|]). vm_compute. reflexivity.
Qed.
