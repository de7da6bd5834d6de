(** Property C78: RSA verification over memory, with the software exponentiation: rsassa_pkcs1_v1_5_verify,
    rsassa_pss_mgf1_verify, is_s_valid, mgf1 and memxor read and write through pointers. *)
From Coq Require Import List ZArith Bool Lia.
From Verif Require Import Outcome UtilsSpec RsaModel RsaSpec RsaProofs RsaClaims RsaPssSpec PowmModel PowmSpec PowmClaims ContractModel ContractSpec RsaSignSpec PowmExp RawModel RawSpec RsaMemModel RsaMemProofs RsaMemPss RsaMemClaims.
Import ListNotations.
Open Scope Z_scope.

(** PKCS#1 v1.5, for every signature, every exponent and every placement of the three views in memory, overlapping or
    not: every access is in bounds except for exponents of more than eight bytes that fit 64 bits, the memory of the
    caller is as before, and the signatures accepted are those of RFC 8017. *)
Theorem C78_pkcs1 : forall junk jt k m sig exp mod_ bs es ms digest, modulus_fit ms -> all_bytes es -> all_bytes bs -> length digest = hash_size k -> reads m sig bs -> reads m exp es -> reads m mod_ ms ->
  let v := verify_rsa_w junk jt k m sig (length bs) exp (length es) mod_ (length ms) digest in
  (length bs <> length ms \/ OS2IP ms <= OS2IP bs -> v = Ok (false, m)) /\
  (length bs = length ms -> OS2IP bs < OS2IP ms ->
    (es = [] \/ 2 ^ 64 <= OS2IP es -> v = Abort) /\
    ((8 < length es)%nat -> OS2IP es < 2 ^ 64 -> v = UB) /\
    ((0 < length es <= 8)%nat -> Z.even (OS2IP es) = true \/ OS2IP es < 3 -> v = Ok (false, m)) /\
    (odd_exponent es -> exists b, v = Ok (b, m) /\ (b = true <-> rsassa_pkcs1_valid (OS2IP ms) (effective (OS2IP es)) (length ms) (digest_info (action_oid k) digest) bs))).
Proof. exact mem_table. Qed.
Print Assumptions C78_pkcs1.

(** With a key pair exactly the signature of its holder is accepted. *)
Theorem C78_key : forall junk jt k m sig exp mod_ bs es ms d digest, modulus_fit ms -> odd_exponent es -> rsa_key (OS2IP ms) (effective (OS2IP es)) d -> all_bytes digest -> length digest = hash_size k -> all_bytes bs ->
  reads m sig bs -> reads m exp es -> reads m mod_ ms ->
  let T := digest_info (action_oid k) digest in
  exists b, verify_rsa_w junk jt k m sig (length bs) exp (length es) mod_ (length ms) digest = Ok (b, m) /\ (b = true <-> (length T + 11 <= length ms)%nat /\ bs = rsassa_pkcs1_sign (OS2IP ms) d (length ms) T).
Proof. exact mem_key. Qed.
Print Assumptions C78_key.

(** PSS: the mask is removed in place, in the vector that also holds the seed.  The signatures accepted are those
    EMSA-PSS-VERIFY accepts, with emBits taken from the length of the modulus in bytes. *)
Theorem C78_pss : forall hash hlen, hash_ok hash hlen -> Z.of_nat hlen < 2 ^ 31 -> forall junk jb m sig exp mod_ bs es ms salt_len digest, modulus_fit ms -> odd_exponent es -> all_bytes bs -> all_bytes digest -> length digest = hlen ->
  reads m sig bs -> reads m exp es -> reads m mod_ ms ->
  let slen := match salt_len with Some s => s | None => Z.of_nat hlen end in
  0 <= slen < 2 ^ 32 ->
  let run := pss_w hash hlen junk jb m sig (length bs) exp (length es) mod_ (length ms) salt_len digest in
  (run = Ok (true, m) <-> pss_valid_bytes hash hlen (Z.to_nat slen) (OS2IP ms) (effective (OS2IP es)) (length ms) digest bs) /\
  (run = Ok (true, m) \/ run = Ok (false, m) \/ run = UB) /\ (Z.of_nat hlen + slen + 2 < 2 ^ 32 -> run <> UB).
Proof. exact mem_pss. Qed.
Print Assumptions C78_pss.
Theorem C78_pss_other : forall hash hlen junk jb m sig exp mod_ bs es ms salt_len digest, hash_ok hash hlen -> modulus_fit ms -> all_bytes es -> all_bytes bs -> length digest = hlen -> reads m sig bs -> reads m exp es -> reads m mod_ ms ->
  let slen := match salt_len with Some s => s | None => Z.of_nat hlen end in
  0 <= slen -> Z.of_nat hlen + slen + 10 < 2 ^ 32 ->
  let v := pss_w hash hlen junk jb m sig (length bs) exp (length es) mod_ (length ms) salt_len digest in
  (length bs <> length ms \/ OS2IP ms <= OS2IP bs -> v = Ok (false, m)) /\
  (length bs = length ms -> OS2IP bs < OS2IP ms ->
    (es = [] \/ 2 ^ 64 <= OS2IP es -> v = Abort) /\
    ((8 < length es)%nat -> OS2IP es < 2 ^ 64 -> v = UB) /\
    ((0 < length es <= 8)%nat -> Z.even (OS2IP es) = true \/ OS2IP es < 3 -> v = Ok (false, m))).
Proof. exact mem_pss_other. Qed.
Print Assumptions C78_pss_other.

(** The run over memory is the function of C08 and C09 with the primitive of C11, outcome by outcome. *)
Theorem C78_pkcs1_agrees : forall junk jt m sig exp mod_ bs es ms prefix digest, modulus_fit ms -> all_bytes bs -> all_bytes es -> reads m sig bs -> reads m exp es -> reads m mod_ ms ->
  pkcs1_w junk jt m sig (length bs) exp (length es) mod_ (length ms) prefix digest = (let* b := rsassa_pkcs1_v1_5_verify mod_exp_sw ms es bs (prefix ++ digest) in Ok (b, m)).
Proof. exact pkcs1_agrees. Qed.
Print Assumptions C78_pkcs1_agrees.
Theorem C78_pss_agrees : forall hash hlen junk jb m sig exp mod_ bs es ms salt digest, hash_ok hash hlen -> length digest = hlen -> 0 <= match salt with Some s => s | None => Z.of_nat hlen end ->
  modulus_fit ms -> all_bytes bs -> all_bytes es -> reads m sig bs -> reads m exp es -> reads m mod_ ms ->
  pss_w hash hlen junk jb m sig (length bs) exp (length es) mod_ (length ms) salt digest = (let* b := rsassa_pss_mgf1_verify mod_exp_sw hash hlen ms es salt digest bs in Ok (b, m)).
Proof. exact pss_agrees. Qed.
Print Assumptions C78_pss_agrees.

(** The parts: the range check, memxor of arrays in different blocks, and mgf1 into a mask that may lie in the block
    of the seed as long as the two do not overlap; only the mask changes. *)
Theorem C78_is_s_valid : forall m s n bs ns, all_bytes bs -> all_bytes ns -> no_leading_zero ns -> reads m s bs -> reads m n ns -> valid_w m s (length bs) n (length ns) = Ok (OS2IP bs <? OS2IP ns).
Proof. exact mem_valid. Qed.
Print Assumptions C78_is_s_valid.
Theorem C78_memxor : forall m dst src ds ss num, all_bytes ds -> all_bytes ss -> reads m dst ds -> reads m src ss -> fst dst <> fst src ->
  exists m1 out, memxor_w m dst (length ds) src (length ss) num = Ok m1 /\ reads m1 dst out /\ memxor_result ds ss num out /\ only m m1 [(dst, Nat.min num (Nat.min (length ds) (length ss)))].
Proof. exact mem_memxor. Qed.
Print Assumptions C78_memxor.
Theorem C78_mgf1 : forall hash hlen jb m seed mask sd mk, hash_ok hash hlen -> all_bytes mk -> reads m seed sd -> reads m mask mk -> apart mask (length mk) seed (length sd) -> (fst mask < length m)%nat -> (fst seed < length m)%nat ->
  Z.of_nat (length mk) <= 2 ^ 32 * Z.of_nat hlen ->
  exists m1, mgf1_w hash jb m seed (length sd) mask (length mk) = Ok m1 /\ reads m1 mask (xor_bytes mk (MGF1 hash hlen sd (length mk))) /\ only m (leave m m1) [(mask, length mk)].
Proof. exact mem_mgf1. Qed.
Print Assumptions C78_mgf1.

(** ** Examples *)
(** the signature in a block of its own, the modulus and the exponent in one block *)
Definition ex_m : memory := [lx_other; lx_n ++ lx_e; [255; 0; 1; 2; 3; 4; 5; 6; 7; 8; 9; 10; 11; 12; 13; 14; 15; 16]].
Ltac bts := repeat constructor; unfold is_byte; lia.
Lemma reads_front m b l r : nth_error m b = Some (l ++ r) -> reads m (b, 0%nat) l.
Proof. intros E j Hj. unfold rd. cbn [fst snd Nat.add]. rewrite E. rewrite nth_error_app1 by exact Hj. apply nth_error_nth'. exact Hj. Qed.
Lemma reads_back m b l r : nth_error m b = Some (l ++ r) -> reads m (b, length l) r.
Proof. intros E j Hj. unfold rd. cbn [fst snd]. rewrite E. rewrite nth_error_app2 by lia. replace (length l + j - length l)%nat with j by lia. apply nth_error_nth'. exact Hj. Qed.
Lemma ex_sig : reads ex_m (0, 0)%nat lx_other. Proof. apply (reads_front _ _ _ []). rewrite app_nil_r. reflexivity. Qed.
Lemma ex_mod : reads ex_m (1, 0)%nat lx_n. Proof. apply (reads_front _ _ _ lx_e). reflexivity. Qed.
Lemma ex_exp : reads ex_m (1, length lx_n)%nat lx_e. Proof. apply reads_back. reflexivity. Qed.
Example C78_pkcs1_ex : verify_rsa_w (fun _ _ => 77) (fun _ => 5) SHA1 ex_m (0, 0)%nat (length lx_other) (1, length lx_n)%nat (length lx_e) (1, 0)%nat (length lx_n) lx_digest = Ok (true, ex_m).
Proof.
  destruct (C78_pkcs1 (fun _ _ => 77) (fun _ => 5) SHA1 ex_m (0, 0)%nat (1, length lx_n)%nat (1, 0)%nat lx_other lx_e lx_n lx_digest lx_n_fit (proj1 lx_e_odd) (I2OSP_bytes _ _) eq_refl ex_sig ex_exp ex_mod) as (_ & T).
  destruct (T eq_refl ltac:(vm_compute; reflexivity)) as (_ & _ & _ & T'). destruct (T' lx_e_odd) as (b & E & Hb). rewrite E. do 2 f_equal. apply Hb. exact lx_other_valid.
Qed.
(** the modulus taken as the signature is answered with false *)
Example C78_pkcs1_range_ex : verify_rsa_w (fun _ _ => 77) (fun _ => 5) SHA1 ex_m (1, 0)%nat (length lx_n) (1, length lx_n)%nat (length lx_e) (1, 0)%nat (length lx_n) lx_digest = Ok (false, ex_m).
Proof.
  destruct (C78_pkcs1 (fun _ _ => 77) (fun _ => 5) SHA1 ex_m (1, 0)%nat (1, length lx_n)%nat (1, 0)%nat lx_n lx_e lx_n lx_digest lx_n_fit (proj1 lx_e_odd) (I2OSP_bytes _ _) eq_refl ex_mod ex_exp ex_mod) as (T & _).
  apply T. right. apply Z.le_refl.
Qed.
Example C78_is_s_valid_ex : valid_w ex_m (0, 0)%nat (length lx_other) (1, 0)%nat (length lx_n) = Ok true.
Proof. rewrite (C78_is_s_valid ex_m (0, 0)%nat (1, 0)%nat lx_other lx_n (I2OSP_bytes _ _) (I2OSP_bytes _ _)); [vm_compute; reflexivity|vm_compute; reflexivity|exact ex_sig|exact ex_mod]. Qed.
Ltac rds := intros [|[|[|[|[|[|[|[|[|[|[|[|[|[|[|[|[|[|?]]]]]]]]]]]]]]]]]] ?; cbn in *; (reflexivity || lia).
Definition ex_x : memory := [[1; 2; 3; 4; 5; 6; 7; 8; 9; 10; 11; 12; 13; 14; 15; 16; 17; 18]; [255; 255; 255; 255; 255; 255; 255; 255; 255; 255; 255; 255; 255; 255; 255; 255; 255]].
(** one block of sixteen and one byte of the tail *)
Example C78_memxor_ex : exists m1, memxor_w ex_x (0, 0)%nat 18 (1, 0)%nat 17 20 = Ok m1 /\ m1 = [[254; 253; 252; 251; 250; 249; 248; 247; 246; 245; 244; 243; 242; 241; 240; 239; 238; 18]; repeat 255 17] /\ only ex_x m1 [((0, 0)%nat, 17%nat)].
Proof.
  destruct (C78_memxor ex_x (0, 0)%nat (1, 0)%nat (nth 0 ex_x []) (nth 1 ex_x []) 20) as (m1 & out & E & _ & _ & O); [bts|bts|rds|rds|discriminate|].
  exists m1. split; [exact E|]. split; [|exact O]. assert (Q : memxor_w ex_x (0, 0)%nat 18 (1, 0)%nat 17 20 = Ok [[254; 253; 252; 251; 250; 249; 248; 247; 246; 245; 244; 243; 242; 241; 240; 239; 238; 18]; repeat 255 17]) by (vm_compute; reflexivity). cbn [nth length ex_x] in E. rewrite Q in E. injection E as <-. reflexivity.
Qed.
(** a hash of two bytes *)
Definition ex_hash (m : list Z) : list Z := [fold_left (fun a b => (a * 3 + b) mod 256) m 7; Z.of_nat (length m) mod 256].
Lemma ex_hash_ok : hash_ok ex_hash 2.
Proof.
  split; [lia|]. split; [reflexivity|]. intros m. constructor; [|constructor; [|constructor]]; unfold is_byte; [|apply Z.mod_pos_bound; lia].
  assert (G : forall l a, 0 <= a < 256 -> 0 <= fold_left (fun a b => (a * 3 + b) mod 256) l a < 256) by (induction l as [|b l IH]; intros a Ha; [exact Ha|apply IH; apply Z.mod_pos_bound; lia]). apply G. lia.
Qed.
(** mask and seed in the same block *)
Example C78_mgf1_ex : exists m1, mgf1_w ex_hash (fun _ => 9) ex_x (0, 5)%nat 2 (0, 0)%nat 5 = Ok m1 /\ reads m1 (0, 0)%nat (xor_bytes [1; 2; 3; 4; 5] (MGF1 ex_hash 2 [6; 7] 5)) /\ only ex_x (leave ex_x m1) [((0, 0)%nat, 5%nat)].
Proof. apply (C78_mgf1 ex_hash 2 (fun _ => 9) ex_x (0, 5)%nat (0, 0)%nat [6; 7] [1; 2; 3; 4; 5] ex_hash_ok); [bts|rds|rds|right; left; cbn; lia|cbn; lia|cbn; lia|cbn; lia]. Qed.
(** PSS with a modulus of 64 bytes; the signature overlaps it: its second byte and the 63 after it *)
Definition ex_p : memory := [(200 :: repeat 1 63) ++ [1]; [8; 3; 0; 0; 0; 5]].
Lemma ex_p_fit : modulus_fit (200 :: repeat 1 63).
Proof. split; [cbn [repeat]; bts|]. split; [reflexivity|]. split; [vm_compute; reflexivity|]. split; reflexivity. Qed.
Example C78_pss_ex : let run := pss_w ex_hash 2 (fun _ _ => 77) (fun _ => 5) ex_p (0, 1)%nat 64 (1, 1)%nat 5 (0, 0)%nat 64 (Some 3) [5; 6] in
  (run = Ok (true, ex_p) <-> pss_valid_bytes ex_hash 2 3 (OS2IP (200 :: repeat 1 63)) (2 ^ 33 + 5) 64 [5; 6] (repeat 1 64)) /\ (run = Ok (true, ex_p) \/ run = Ok (false, ex_p)).
Proof.
  destruct (C78_pss ex_hash 2 ex_hash_ok ltac:(cbn; lia) (fun _ _ => 77) (fun _ => 5) ex_p (0, 1)%nat (1, 1)%nat (0, 0)%nat (repeat 1 64) lx_e (200 :: repeat 1 63) (Some 3) [5; 6] ex_p_fit lx_e_odd) as (A & B & C).
  - cbn [repeat]. bts.
  - bts.
  - reflexivity.
  - apply (reads_back ex_p 0 [200] (repeat 1 64)). reflexivity.
  - apply (reads_back ex_p 1 [8] lx_e). reflexivity.
  - apply (reads_front ex_p 0 _ [1]). reflexivity.
  - lia.
  - split; [exact A|]. destruct B as [E|[E|E]]; [left; exact E|right; exact E|]. exfalso. apply C; [reflexivity|exact E].
Qed.
Example C78_pss_other_ex : pss_w ex_hash 2 (fun _ _ => 77) (fun _ => 5) ex_p (0, 1)%nat 64 (1, 0)%nat 1 (0, 0)%nat 64 (Some 3) [5; 6] = Ok (false, ex_p).
Proof.
  destruct (C78_pss_other ex_hash 2 (fun _ _ => 77) (fun _ => 5) ex_p (0, 1)%nat (1, 0)%nat (0, 0)%nat (repeat 1 64) [8] (200 :: repeat 1 63) (Some 3) [5; 6] ex_hash_ok ex_p_fit) as (_ & T).
  - bts.
  - cbn [repeat]. bts.
  - reflexivity.
  - apply (reads_back ex_p 0 [200] (repeat 1 64)). reflexivity.
  - apply (reads_front ex_p 1 [8] lx_e). reflexivity.
  - apply (reads_front ex_p 0 _ [1]). reflexivity.
  - lia.
  - reflexivity.
  - apply T; [reflexivity|vm_compute; reflexivity|cbn; lia|left; reflexivity].
Qed.
