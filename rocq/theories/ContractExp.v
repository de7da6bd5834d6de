(** The RSA actions over the exponentiation of powm.h, for every public exponent (C53). *)
From Coq Require Import List ZArith Bool Lia.
From Verif Require Import Outcome UtilsModel UtilsSpec UtilsProofs RsaModel RsaSpec RsaProofs RsaClaims RsaPssSpec RsaPss PowmModel PowmSpec PowmMain PowmClaims ShaModel ShaSpec ShaProofs ContractModel ContractSpec ContractClaims ContractRsa ContractNamed RsaSignSpec RsaSignProofs RsaSignClaims PowmExp.
Import ListNotations.
Open Scope Z_scope.

Section RSA.
Variables sha1 sha256 sha512 : list Z -> list Z.
Variables (junk K H0 : list Z) (k : hash_kind) (n e msg sig : list Z).
Notation the_hash := (action_hash sha1 sha256 sha512 K H0 k).
Hypothesis HH : host_ok sha1 sha256 sha512.
Hypothesis LJ : length junk = 128%nat.
Hypothesis FJ : all_bytes junk.
Hypothesis KC : round_constants K.
Hypothesis HC : initial_value H0.
Hypothesis (Am : all_bytes msg) (As : all_bytes sig).
Hypothesis Lm : Z.of_nat (length msg) < 2 ^ 64.
Hypothesis Hn : modulus_fit n.
Lemma rsa_action_fixed : odd_exponent e -> rsa_action sha1 sha256 sha512 junk mod_exp_sw k n e msg sig = rsa_action sha1 sha256 sha512 junk (fixed_exp e) k n (used e) msg sig.
Proof. intros He. unfold rsa_action. destruct (run_hash _ _ _ _ k msg); cbn [bind]; try reflexivity. rewrite !verify_prefix, pkcs1_fixed by exact He. reflexivity. Qed.
Lemma pss_action_fixed s : odd_exponent e -> pss_action sha1 sha256 sha512 junk mod_exp_sw k n e s msg sig = pss_action sha1 sha256 sha512 junk (fixed_exp e) k n (used e) s msg sig.
Proof. intros He. unfold pss_action. destruct (run_hash _ _ _ _ k msg); cbn [bind]; try reflexivity. rewrite pss_fixed by exact He. reflexivity. Qed.
Lemma action_runs : exists d, run_hash sha1 sha256 sha512 junk k msg = Ok d /\ length d = hash_size k.
Proof.
  exists (action_hash sha1 sha256 sha512 K_512 sha384_initial k msg). split; [apply run_hash_ok; assumption|]. destruct (the_hash_ok sha1 sha256 sha512 HH k) as (_ & L & _). apply L. 
Qed.
Lemma rsa_action_table :
  let act := rsa_action sha1 sha256 sha512 junk mod_exp_sw k n e msg sig in
  let valid := rsassa_pkcs1_valid (OS2IP n) (effective (OS2IP e)) (length n) (digest_info (action_oid k) (the_hash msg)) sig in
  all_bytes e ->
  (length sig <> length n \/ OS2IP n <= OS2IP sig -> act = Abort) /\
  (length sig = length n -> OS2IP sig < OS2IP n ->
    (e = [] \/ 2 ^ 64 <= OS2IP e -> act = Abort) /\
    ((8 < length e)%nat -> OS2IP e < 2 ^ 64 -> act = UB) /\
    ((0 < length e <= 8)%nat -> Z.even (OS2IP e) = true \/ OS2IP e < 3 -> act = Abort)) /\
  (odd_exponent e -> (valid -> act = Ok tt) /\ (~ valid -> act = Abort)).
Proof.
  cbv zeta. intros Fe. destruct action_runs as (d & R & Ld). pose proof (table n e k d sig Hn Fe As Ld) as T. cbv zeta in T. destruct T as (T1 & T2). split; [|split].
  - intros B. unfold rsa_action. rewrite R. cbn [bind]. unfold assert_true. rewrite (T1 B). reflexivity.
  - intros L S. destruct (T2 L S) as (A1 & A2 & A3 & _). unfold rsa_action. rewrite R. cbn [bind]. unfold assert_true. split; [|split].
    + intros B. rewrite (A1 B). reflexivity.
    + intros B B'. rewrite (A2 B B'). reflexivity.
    + intros B B'. rewrite (A3 B B'). reflexivity.
  - intros He. rewrite rsa_action_fixed by exact He. rewrite <- (used_val e He). pose proof Hn as (An & Nn & _). apply (pkcs1_action_std sha1 sha256 sha512 junk K H0 k n (used e) msg sig); try assumption; [apply used_ok; exact He|apply fixed_exact; assumption].
Qed.
Lemma pss_action_table s :
  let slen := match s with Some x => x | None => Z.of_nat (hash_size k) end in
  let act := pss_action sha1 sha256 sha512 junk mod_exp_sw k n e s msg sig in
  let valid := pss_valid_bytes the_hash (hash_size k) (Z.to_nat slen) (OS2IP n) (effective (OS2IP e)) (length n) (the_hash msg) sig in
  all_bytes e -> 0 <= slen -> Z.of_nat (hash_size k) + slen + 10 < 2 ^ 32 ->
  (length sig <> length n \/ OS2IP n <= OS2IP sig -> act = Abort) /\
  (length sig = length n -> OS2IP sig < OS2IP n ->
    (e = [] \/ 2 ^ 64 <= OS2IP e -> act = Abort) /\
    ((8 < length e)%nat -> OS2IP e < 2 ^ 64 -> act = UB) /\
    ((0 < length e <= 8)%nat -> Z.even (OS2IP e) = true \/ OS2IP e < 3 -> act = Abort)) /\
  (odd_exponent e -> (valid -> act = Ok tt) /\ (~ valid -> act = Abort)) /\
  (odd_exponent e -> full_top_byte n -> (valid <-> rsassa_pss_valid the_hash (hash_size k) (Z.to_nat slen) (OS2IP n) (effective (OS2IP e)) (length n) (the_hash msg) sig)).
Proof.
  cbv zeta. intros Fe S0 S1. destruct action_runs as (d & R & Ld).
  pose proof (pss_table (fun m => answer (run_hash sha1 sha256 sha512 junk k m)) (hash_size k) n e s d sig Hn Fe As S0 S1) as T. cbv zeta in T. destruct T as (T1 & T2). split; [|split; [|split]].
  - intros B. unfold pss_action. rewrite R. cbn [bind]. unfold assert_true. rewrite (T1 B). reflexivity.
  - intros L S. destruct (T2 L S) as (A1 & A2 & A3). unfold pss_action. rewrite R. cbn [bind]. unfold assert_true. split; [|split].
    + intros B. rewrite (A1 B). reflexivity.
    + intros B B'. rewrite (A2 B B'). reflexivity.
    + intros B B'. rewrite (A3 B B'). reflexivity.
  - intros He. rewrite pss_action_fixed by exact He. rewrite <- (used_val e He). pose proof Hn as (An & Nn & _).
    assert (NL : no_leading_zero n) by exact Nn.
    pose proof (pss_action_bytes_std sha1 sha256 sha512 junk K H0 k n (used e) msg sig HH LJ FJ KC HC Am As Lm (fixed_exp e) s (used_ok e He) An NL (fixed_exact n e Hn He)) as P. cbv zeta in P.
    destruct (P ltac:(lia) (n_bits n Hn)) as (P1 & P2 & P3). split; [apply P1|]. intros NV. destruct P2 as [P2|[P2|P2]]; [exfalso; apply NV, P1, P2|exact P2|exfalso; revert P2; apply P3; lia].
  - intros He Hf. pose proof Hn as (An & _). apply (pss_bytes_std the_hash (hash_size k) mod_exp_sw); try assumption; reflexivity.
Qed.
End RSA.
Lemma exponent_dead : forall sha1 sha256 sha512 junk k n e msg sig s, host_ok sha1 sha256 sha512 -> length junk = 128%nat -> all_bytes junk ->
  all_bytes msg -> all_bytes sig -> Z.of_nat (length msg) < 2 ^ 64 -> modulus_fit n -> all_bytes e -> (8 < length e)%nat -> OS2IP e < 2 ^ 64 -> length sig = length n -> OS2IP sig < OS2IP n ->
  0 <= match s with Some x => x | None => Z.of_nat (hash_size k) end < 2 ^ 32 - 100 ->
  rsa_action sha1 sha256 sha512 junk mod_exp_sw k n e msg sig = UB /\ pss_action sha1 sha256 sha512 junk mod_exp_sw k n e s msg sig = UB.
Proof.
  intros sha1 sha256 sha512 junk k n e msg sig s HH LJ FJ Am As Lm Hn Fe L8 S64 L S SL. destruct (action_runs sha1 sha256 sha512 junk k msg HH LJ FJ Am Lm) as (d & R & Ld).
  pose proof (table n e k d sig Hn Fe As Ld) as T. cbv zeta in T. destruct T as (_ & T). destruct (T L S) as (_ & T2 & _).
  assert (HS : Z.of_nat (hash_size k) <= 64) by (destruct k; cbn; lia).
  pose proof (pss_table (fun m => answer (run_hash sha1 sha256 sha512 junk k m)) (hash_size k) n e s d sig Hn Fe As (proj1 SL) ltac:(lia)) as V. cbv zeta in V. destruct V as (_ & V). destruct (V L S) as (_ & V2 & _).
  unfold rsa_action, pss_action. rewrite R. cbn [bind]. unfold assert_true. rewrite (T2 L8 S64), (V2 L8 S64). split; reflexivity.
Qed.
