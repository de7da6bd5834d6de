(** Property theorems C11 (the portable RSA exponentiation of c/powm.h) and C45 (its branch-free helpers). *)
From Coq Require Import List ZArith Bool Lia.
From Verif Require Import Outcome UtilsModel UtilsSpec UtilsProofs MgfModel RsaModel RsaSpec RsaProofs RsaClaims WordsModel WordsSpec PowmModel PowmProofs PowmArith PowmReduce PowmConv PowmMont PowmSpec PowmMain PowmClaims.
Import ListNotations.
Open Scope Z_scope.

(** C45: NOT is negation on 0 and 1. *)
Theorem C45_not : forall b,
  NOT (bit b) = bit (negb b).
Proof. exact NOT_spec. Qed.
Print Assumptions C45_not.
(** C45: MUX selects by the control bit. *)
Theorem C45_mux : forall b x y,
  w32 x -> w32 y -> MUX (bit b) x y = if b then x else y.
Proof. exact MUX_spec. Qed.
Print Assumptions C45_mux.
(** C45: EQ is equality of words. *)
Theorem C45_eq : forall x y,
  w32 x -> w32 y -> EQ x y = bit (x =? y).
Proof. exact EQ_spec. Qed.
Print Assumptions C45_eq.
(** C45: NEQ is its negation. *)
Theorem C45_neq : forall x y,
  w32 x -> w32 y -> NEQ x y = bit (negb (x =? y)).
Proof. exact NEQ_spec. Qed.
Print Assumptions C45_neq.
(** C45: GT is the unsigned comparison. *)
Theorem C45_gt : forall x y,
  w32 x -> w32 y -> GT x y = bit (y <? x).
Proof. exact GT_spec. Qed.
Print Assumptions C45_gt.
(** C45: GE, derived from GT. *)
Theorem C45_ge : forall x y,
  w32 x -> w32 y -> GE x y = bit (y <=? x).
Proof. exact GE_spec. Qed.
Print Assumptions C45_ge.
(** C45: LT, derived from GT. *)
Theorem C45_lt : forall x y,
  w32 x -> w32 y -> LT x y = bit (x <? y).
Proof. exact LT_spec. Qed.
Print Assumptions C45_lt.
(** C45: BIT_LENGTH is the number of binary digits of a word. *)
Theorem C45_bit_length : forall x,
  w32 x -> BIT_LENGTH x = bits x.
Proof. exact BIT_LENGTH_spec. Qed.
Print Assumptions C45_bit_length.
(** C45: br_i32_bit_length is the number of binary digits of the value of a word array. *)
Theorem C45_bit_length_array : forall x,
  all_words x -> 32 * Z.of_nat (length x) < B -> br_i32_bit_length x = bits (eval x).
Proof. exact br_i32_bit_length_spec. Qed.
Print Assumptions C45_bit_length_array.
(** C45: br_divrem is the division of a double word by a word, for a quotient that fits a word. *)
Theorem C45_divrem : forall hi lo d,
  0 < d < B -> w32 lo -> 0 <= hi < d -> br_divrem hi lo d = ((hi * B + lo) / d, (hi * B + lo) mod d).
Proof. exact br_divrem_spec. Qed.
Print Assumptions C45_divrem.
(** C45: br_i32_ninv32 of an odd word is the negated inverse modulo 2^32. *)
Theorem C45_ninv32 : forall x,
  w32 x -> Z.odd x = true -> w32 (br_i32_ninv32 x) /\ (x * br_i32_ninv32 x + 1) mod B = 0.
Proof. exact ninv32_spec. Qed.
Print Assumptions C45_ninv32.
Example C45_ex : GT 4294967295 1 = 1 /\ GT 1 4294967295 = 0 /\ GT 2147483648 2147483647 = 1 /\ EQ 0 0 = 1 /\ NEQ 0 4294967295 = 1 /\ MUX 0 5 4294967295 = 4294967295 /\
  BIT_LENGTH 0 = 0 /\ BIT_LENGTH 65536 = 17 /\ br_i32_bit_length [7; 1; 0] = 33 /\ br_divrem 4000000000 4294967295 4000000001 = (4294967295, 4000000000) /\
  (br_i32_ninv32 3 * 3 + 1) mod 4294967296 = 0.
Proof.
  split; [reflexivity|]. split; [reflexivity|]. split; [reflexivity|]. split; [reflexivity|]. split; [reflexivity|]. split; [reflexivity|]. split; [reflexivity|]. split; [reflexivity|]. split; [reflexivity|].
  split; [rewrite C45_divrem; [reflexivity|split; reflexivity|split; [discriminate|reflexivity]|split; [discriminate|reflexivity]]|reflexivity].
Qed.
(** C11: for an odd modulus of whole words without leading zero byte and an odd exponent of at least 3, the software exponentiation writes the big-endian base^exponent mod modulus; the base has to be below the modulus, or the modulus has its top bit set. *)
Theorem C11_exact : forall base e m,
  modulus_fit m -> exponent_fit e -> all_bytes base -> length base = length m ->
  (OS2IP base < OS2IP m \/ 2 ^ (8 * Z.of_nat (length m)) <= 2 * OS2IP m) ->
  mod_exp_sw base e m = Ok (Some (I2OSP (OS2IP base ^ OS2IP e mod OS2IP m) (length m))).
Proof. exact powm_exact_claim. Qed.
Print Assumptions C11_exact.
(** C11, every odd exponent of at most 8 bytes: the result is congruent to the base raised to [effective e], that is to the exponent without its bits from 32 up to the one below the top bit, and it is that power reduced when the base is below the modulus or the modulus has its top bit set. *)
Theorem C11_total : forall base e m,
  modulus_fit m -> all_bytes e -> (length e <= 8)%nat -> Z.odd (OS2IP e) = true -> 3 <= OS2IP e -> all_bytes base -> length base = length m ->
  exists v, mod_exp_sw base e m = Ok (Some (I2OSP v (length m))) /\ 0 <= v < 2 ^ (8 * Z.of_nat (length m)) /\
    v mod OS2IP m = OS2IP base ^ effective (OS2IP e) mod OS2IP m /\
    (OS2IP base < OS2IP m \/ 2 ^ (8 * Z.of_nat (length m)) <= 2 * OS2IP m -> v = OS2IP base ^ effective (OS2IP e) mod OS2IP m).
Proof. exact powm_total. Qed.
Print Assumptions C11_total.
(** C11: the software exponentiation is an exact primitive in the sense the RSA theorems require. *)
Theorem C11_exact_for : forall m e,
  modulus_fit m -> exponent_fit e -> exact_for mod_exp_sw m e.
Proof. exact powm_exact_for. Qed.
Print Assumptions C11_exact_for.
(** C11 with C08: PKCS#1 v1.5 verification on top of the software exponentiation accepts exactly the valid signatures. *)
Theorem C11_pkcs1 : forall n e sig digest,
  modulus_fit n -> exponent_fit e -> all_bytes sig ->
  (length digest = 20%nat -> exists b, verify_rsa_sha1 mod_exp_sw n e digest sig = Ok b /\
     (b = true <-> rsassa_pkcs1_valid (OS2IP n) (OS2IP e) (length n) (digest_info oid_sha1 digest) sig)) /\
  (length digest = 32%nat -> exists b, verify_rsa_sha256 mod_exp_sw n e digest sig = Ok b /\
     (b = true <-> rsassa_pkcs1_valid (OS2IP n) (OS2IP e) (length n) (digest_info oid_sha256 digest) sig)) /\
  (length digest = 48%nat -> exists b, verify_rsa_sha384 mod_exp_sw n e digest sig = Ok b /\
     (b = true <-> rsassa_pkcs1_valid (OS2IP n) (OS2IP e) (length n) (digest_info oid_sha384 digest) sig)) /\
  (length digest = 64%nat -> exists b, verify_rsa_sha512 mod_exp_sw n e digest sig = Ok b /\
     (b = true <-> rsassa_pkcs1_valid (OS2IP n) (OS2IP e) (length n) (digest_info oid_sha512 digest) sig)).
Proof. exact pkcs1_sw. Qed.
Print Assumptions C11_pkcs1.
(** C11 with C09: PSS verification on top of the software exponentiation accepts exactly the valid signatures. *)
Theorem C11_pss : forall hash hlen n e salt_len digest sig,
  hash_ok hash hlen -> modulus_fit n -> full_top_byte n -> exponent_fit e -> all_bytes sig -> all_bytes digest ->
  let slen := match salt_len with Some s => s | None => Z.of_nat hlen end in
  0 <= slen -> Z.of_nat hlen + slen + 10 < 2 ^ 32 ->
  exists b, rsassa_pss_mgf1_verify mod_exp_sw hash hlen n e salt_len digest sig = Ok b /\
  (b = true <-> rsassa_pss_valid hash hlen (Z.to_nat slen) (OS2IP n) (OS2IP e) (length n) digest sig).
Proof. exact pss_sw. Qed.
Print Assumptions C11_pss.
(** C11: even exponents and exponents 0 and 1 are refused with the error code. *)
Theorem C11_refused_exponents : forall m e base,
  modulus_fit m -> all_bytes e -> (length e <= 8)%nat -> all_bytes base -> length base = length m ->
  Z.even (OS2IP e) = true \/ OS2IP e < 2 -> mod_exp_sw base e m = Ok None.
Proof. exact powm_refuses. Qed.
Print Assumptions C11_refused_exponents.
(** C11: a modulus that is not made of whole words is written past the end of the stack array by br_i32_decode. *)
Theorem C11_modulus_length_ub : forall m e base,
  all_bytes m -> no_leading_zero m -> (length m mod 4 <> 0)%nat -> Z.of_nat (length m) < 2 ^ 27 -> (length e <= 8)%nat ->
  mod_exp_sw base e m = UB.
Proof. exact powm_length_ub. Qed.
Print Assumptions C11_modulus_length_ub.
(** C11: an exponent of more than 8 bytes, leading zeros included, is copied before the start of the 8-byte array. *)
Theorem C11_exponent_length_ub : forall m e base,
  Z.of_nat (length m) < 2 ^ 27 -> (8 < length e)%nat -> mod_exp_sw base e m = UB.
Proof. exact powm_exponent_ub. Qed.
Print Assumptions C11_exponent_length_ub.
Definition wx_m : list Z := [97; 0; 0; 0; 0; 0; 0; 7].
Definition wx_b : list Z := [96; 1; 2; 3; 4; 5; 6; 7].
Lemma wx_m_fit : modulus_fit wx_m.
Proof. split; [bytes|]. split; [reflexivity|]. split; [reflexivity|]. split; reflexivity. Qed.
Lemma wx_e_fit : exponent_fit [1; 0; 1].
Proof. split; [bytes|]. split; [cbn; lia|]. split; [reflexivity|]. split; [discriminate|reflexivity]. Qed.
Example C11_ex : mod_exp_sw wx_b [0; 0; 5] wx_m = Ok (Some (I2OSP (OS2IP wx_b ^ 5 mod OS2IP wx_m) 8)) /\
  mod_exp_sw wx_b [1; 0; 1] wx_m = Ok (Some (I2OSP (OS2IP wx_b ^ 65537 mod OS2IP wx_m) 8)) /\
  mod_exp_sw wx_b [4] wx_m = Ok None /\ mod_exp_sw wx_b [3] (5 :: wx_m) = UB.
Proof.
  split; [vm_compute; reflexivity|]. split; [|split].
  - apply (C11_exact wx_b [1; 0; 1] wx_m wx_m_fit wx_e_fit); [bytes|reflexivity|left; reflexivity].
  - apply C11_refused_exponents; [exact wx_m_fit|bytes|cbn; lia|bytes|reflexivity|left; reflexivity].
  - apply C11_modulus_length_ub; [bytes|reflexivity|discriminate|reflexivity|cbn; lia].
Qed.
Example C11_total_ex : effective (OS2IP [3; 0; 0; 0; 5]) = 2 ^ 33 + 5 /\ OS2IP [3; 0; 0; 0; 5] = 2 ^ 33 + 2 ^ 32 + 5 /\
  exists v, mod_exp_sw wx_b [3; 0; 0; 0; 5] wx_m = Ok (Some (I2OSP v (length wx_m))) /\ v = OS2IP wx_b ^ effective (OS2IP [3; 0; 0; 0; 5]) mod OS2IP wx_m.
Proof.
  split; [reflexivity|]. split; [reflexivity|].
  destruct (C11_total wx_b [3; 0; 0; 0; 5] wx_m wx_m_fit) as (v & V1 & _ & _ & V4); [bytes|cbn; lia|reflexivity|cbn; lia|bytes|reflexivity|]. exists v. split; [exact V1|]. apply V4. left. reflexivity.
Qed.
Example C11_pkcs1_ex : forall d, length d = 32%nat ->
  exists b, verify_rsa_sha256 mod_exp_sw (200 :: repeat 1 63) [1; 0; 1] d (repeat 3 64) = Ok b /\
  (b = true <-> rsassa_pkcs1_valid (OS2IP (200 :: repeat 1 63)) 65537 64 (digest_info oid_sha256 d) (repeat 3 64)).
Proof.
  intros d Hd. apply (proj1 (proj2 (C11_pkcs1 (200 :: repeat 1 63) [1; 0; 1] (repeat 3 64) d ltac:(split; [cbn [repeat]; bytes|]; split; [reflexivity|]; split; [reflexivity|]; split; reflexivity) wx_e_fit ltac:(cbn [repeat]; bytes))) Hd).
Qed.
(** The exponent 3 written with 9 bytes passes the range check of rsa.hpp:144-148 and leads to the out-of-bounds copy. *)
Theorem C11_long_exponent_refuted : exists m e base, modulus_fit m /\ all_bytes e /\ OS2IP e = 3 /\ all_bytes base /\ length base = length m /\ OS2IP base < OS2IP m /\
  powm mod_exp_sw base e m = UB.
Proof. exact powm_long_exponent_refute. Qed.
Print Assumptions C11_long_exponent_refuted.
(** Exponents of more than 33 bits give a wrong result: exponent bits from 32 up (below the top one) are ignored because the masked 64-bit value is returned as an int (powm.h:993-997). *)
Theorem C11_big_exponent_refuted : exists m e base, modulus_fit m /\ all_bytes e /\ length e = 5%nat /\ Z.odd (OS2IP e) = true /\ all_bytes base /\ length base = length m /\ OS2IP base < OS2IP m /\
  exists r, mod_exp_sw base e m = Ok (Some r) /\ r <> I2OSP (OS2IP base ^ OS2IP e mod OS2IP m) (length m).
Proof. exact powm_big_exponent_refute. Qed.
Print Assumptions C11_big_exponent_refuted.
(** An even modulus gives a wrong result. *)
Theorem C11_even_modulus_refuted : exists m e base, all_bytes m /\ no_leading_zero m /\ length m = 4%nat /\ exponent_fit e /\ all_bytes base /\ length base = length m /\ OS2IP base < OS2IP m /\
  mod_exp_sw base e m = Ok (Some [0; 0; 0; 0]) /\ OS2IP base ^ OS2IP e mod OS2IP m <> 0.
Proof. exact powm_even_modulus_refute. Qed.
Print Assumptions C11_even_modulus_refuted.
(** A base above a modulus whose top bit is clear gives a result that is not reduced. *)
Theorem C11_unreduced_base_refuted : exists m e base, modulus_fit m /\ exponent_fit e /\ all_bytes base /\ length base = length m /\
  exists r, mod_exp_sw base e m = Ok (Some r) /\ r <> I2OSP (OS2IP base ^ OS2IP e mod OS2IP m) (length m) /\ OS2IP m <= OS2IP r.
Proof. exact powm_unreduced_refute. Qed.
Print Assumptions C11_unreduced_base_refuted.
(** A modulus with leading zero words gives a wrong result. *)
Theorem C11_leading_zero_refuted : exists m e base, all_bytes m /\ Z.odd (OS2IP m) = true /\ length m = 8%nat /\ exponent_fit e /\ all_bytes base /\ length base = length m /\ OS2IP base < OS2IP m /\
  exists r, mod_exp_sw base e m = Ok (Some r) /\ r <> I2OSP (OS2IP base ^ OS2IP e mod OS2IP m) (length m).
Proof. exact powm_leading_zero_refute. Qed.
Print Assumptions C11_leading_zero_refuted.
