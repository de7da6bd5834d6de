(** Exact behaviour where the earlier theorems of the same properties ask for room, reduced arguments or small sizes: C12, C18, C21, C23, C25, C26, C39. *)
From Coq Require Import List ZArith Znumtheory Bool Lia.
From Verif Require Import Outcome UtilsModel UtilsSpec MgfModel RsaModel RsaSpec RsaProofs RsaClaims WordsModel WordsSpec BigintModel BigintSpec BigintProofs BigintClaims BigintExact NafExactSpec NafExact
  NumModel NumExactSpec NumExact FpModel FpSpec FpClaims EcGroup EcGroupProofs ZpField EcModel EcSpec EcScalar EcFeSpec EcCurveModel EcClaims EcLaws EcCurveSpec EcCodec EcCurveClaims EcdsaModel EcdsaSpec EcdsaProofs EcdsaClaims EcdsaExamples EcdsaExactSpec EcdsaExact ExactClaims.
Import ListNotations.
Open Scope Z_scope.

(** C12: PSS with any sizes and any 32-bit salt length: a verdict, an abort, or undefined behaviour, the last only when the length check wraps. *)
Theorem C12_pss_sizes : forall hash hlen mod_exp n e salt_len digest sig, hash_ok hash hlen -> Z.of_nat hlen < 2 ^ 31 -> primitive mod_exp -> all_bytes digest ->
  let slen := match salt_len with Some s => s | None => Z.of_nat hlen end in
  0 <= slen < 2 ^ 32 -> 8 * zlen n < 2 ^ 32 ->
  let run := rsassa_pss_mgf1_verify mod_exp hash hlen n e salt_len digest sig in
  (exists b, run = Ok b /\ (b = true -> length sig = length n /\ Z.of_nat hlen + slen + 2 <= zlen n)) \/
  run = Abort \/ (run = UB /\ 2 ^ 32 <= Z.of_nat hlen + slen + 2 /\ length sig = length n).
Proof. exact pss_sizes_any. Qed.
Print Assumptions C12_pss_sizes.
Example C12_pss_sizes_ex : hash_ok (const_hash 1) 1 /\ primitive ideal_exp /\
  rsassa_pss_mgf1_verify ideal_exp (const_hash 1) 1 [200; 0; 1] [1] (Some (2 ^ 32 - 5)) [5] [1; 1; 188] = Ok false.
Proof. split; [apply const_hash_ok; red; lia|]. split; [intros b e n; cbn; split; [apply I2OSP_bytes|apply I2OSP_length]|]. vm_compute. reflexivity. Qed.

(** C18: at full capacity the digits come out up to the first -1 met while the part not yet recoded still fills the capacity; there the recoding stops, and the value of the digits is negative. *)
Theorem C18_naf_full : forall c x L, valid c x -> neg x = false -> can_resize c (size x + 1) = false -> is_naf L (value x) ->
  let l := naf_cut (2 ^ (32 * (Z.of_nat (size x) - 1))) L in
  to_naf c x = Ok l /\ to_rnaf c x = Ok (rev l) /\ (l = L \/ last l 0 = -1 /\ naf_value l < 0).
Proof. exact naf_full_claim. Qed.
Print Assumptions C18_naf_full.
(** in one word: 10 comes out whole and 7 stops at once *)
Example C18_naf_full_ex : is_naf [0; 1; 0; 1] 10 /\ to_naf (Fixed 1) (of_int (Fixed 1) 10) = Ok [0; 1; 0; 1] /\ naf_cut 1 [0; 1; 0; 1] = [0; 1; 0; 1] /\
  is_naf [-1; 0; 0; 1] 7 /\ to_naf (Fixed 1) (of_int (Fixed 1) 7) = Ok [-1] /\ naf_cut 1 [-1; 0; 0; 1] = [-1].
Proof.
  assert (N : forall l v, forallb (fun d => (d =? -1) || (d =? 0) || (d =? 1)) l = true -> naf_value l = v -> non_adjacent l -> last l 0 = 1 -> is_naf l v).
  { intros l v F E A La. split; [exact E|]. split; [|split; [exact A|right; exact La]]. apply Forall_forall. intros d I. rewrite forallb_forall in F. specialize (F d I). cbn beta in F. lia. }
  split; [apply N; try reflexivity; cbn; tauto|]. split; [vm_compute; reflexivity|]. split; [reflexivity|].
  split; [apply N; try reflexivity; cbn; tauto|]. split; [vm_compute; reflexivity|reflexivity].
Qed.

(** C21: modular exponentiation of any base, exponent and modulus: exponent 0 gives 1, exponent 1 the base unreduced, and otherwise the truncated remainder of the power; division by a zero modulus aborts. *)
Theorem C21_modexp_total : forall c z x y m, valid c z -> valid c x -> valid c y -> valid c m -> room c (2 * Nat.max (size x) (size m)) ->
  if neg y then modexp c z x y m = Ok None else modexp_any c (modexp c z x y m) (value x) (value y) (value m).
Proof. exact modexp_total. Qed.
Print Assumptions C21_modexp_total.
Theorem C21_modexp_word_total : forall c z x w m, valid c z -> valid c x -> 0 <= w < 2 ^ 32 -> valid c m -> room c (2 * Nat.max (size x) (size m)) ->
  modexp_any c (modexp_word c z x w m) (value x) w (value m).
Proof. exact modexp_word_total. Qed.
Print Assumptions C21_modexp_word_total.
(** C21: the members return what the functions compute and abort exactly when those fail. *)
Theorem C21_modexp_member : forall c x y m, valid c x -> valid c y -> valid c m -> room c (2 * Nat.max (size x) (size m)) ->
  if neg y || ((value m =? 0) && (2 <=? value y)) then op_modexp c x y m = Abort
  else exists r, op_modexp c x y m = Ok r /\ valid c r /\ powm_result (value x) (value y) (value m) (value r).
Proof. exact op_modexp_total. Qed.
Print Assumptions C21_modexp_member.
Theorem C21_pow_member : forall n x y, valid (Flex n) x -> valid (Flex n) y ->
  if neg y then op_pow (Flex n) x y = Abort
  else exists r, op_pow (Flex n) x y = Ok r /\ valid (Flex n) r /\ value r = value x ^ value y.
Proof. exact op_pow_total. Qed.
Print Assumptions C21_pow_member.
Theorem C21_pow_member_any : forall c x y, valid c x -> valid c y ->
  (exists r, op_pow c x y = Ok r /\ neg y = false /\ valid c r /\ value r = value x ^ value y) \/ op_pow c x y = Abort.
Proof. exact op_pow_fixed. Qed.
Print Assumptions C21_pow_member_any.
(** (-10)^5 rem -7, 10^1 mod 7, 10^2 mod 0, 10^-1, and 3^30 in one word *)
Example C21_total_ex : let c := Flex 4 in let i := of_int c in
  (exists r, op_modexp c (i (-10)) (i 5) (i (-7)) = Ok r /\ value r = -5) /\ (exists r, op_modexp c (i 10) (i 1) (i 7) = Ok r /\ value r = 10) /\
  op_modexp c (i 10) (i 2) (i 0) = Abort /\ op_pow c (i 10) (i (-1)) = Abort /\ (exists r, op_pow c (i (-3)) (i 31) = Ok r /\ value r = (-3) ^ 31) /\
  op_pow (Fixed 1) (of_int (Fixed 1) 3) (of_int (Fixed 1) 30) = Abort.
Proof. cbv zeta. repeat split; try (eexists; split; vm_compute; reflexivity); vm_compute; reflexivity. Qed.

(** C23: the sign a result carries when it is zero, for sums, differences and products (in place or not), and the signs of quotient and remainder. *)
Theorem C23_zero_sign : forall c sX sY z x y, valid c z -> valid c x -> valid c y -> (sX = true -> z = x) -> (sY = true -> z = y) ->
  (value (add c z x y) = 0 -> neg (add c z x y) = neg x) /\
  (value (sub c z x y) = 0 -> neg (sub c z x y) = neg x) /\
  (forall r, mul c sX sY z x y = (true, r) -> value r = 0 -> neg r = xorb (negb sX && neg x) (negb sY && neg y)) /\
  (forall q r q' r', div_mod c q r x y = Ok (true, q', r') ->
     neg r' = neg x /\ match q' with Some k => neg k = xorb (neg x) (neg y) | None => True end) /\
  neg (neg_op x) = negb (neg x) /\ neg (abs_op x) = false.
Proof. exact zero_sign_claim. Qed.
Print Assumptions C23_zero_sign.
(** -5 + 5 is a negative zero and 5 + -5 is not *)
Example C23_zero_sign_ex : let c := Flex 4 in let i := of_int c in
  neg (op_add c (i (-5)) (i 5)) = true /\ value (op_add c (i (-5)) (i 5)) = 0 /\ neg (op_add c (i 5) (i (-5))) = false /\ neg (op_mul c (i (-5)) (i 0)) = true.
Proof. repeat split. Qed.

(** C25: sums and differences at every capacity: 0 exactly when magnitudes are added and there is no room for one word more than the longer operand, and exact otherwise. *)
Theorem C25_add_sub_exact : forall c z x y, valid c z -> valid c x -> valid c y ->
  value (add c z x y) = (if eqb (neg x) (neg y) && negb (can_resize c (Nat.max (size x) (size y) + 1)) then 0 else value x + value y) /\
  value (sub c z x y) = (if negb (eqb (neg x) (neg y)) && negb (can_resize c (Nat.max (size x) (size y) + 1)) then 0 else value x - value y).
Proof. exact add_exact. Qed.
Print Assumptions C25_add_sub_exact.
(** C25: products: [mul] reports a lack of room and leaves its destination, the operator then gives 0. *)
Theorem C25_mul_exact : forall c sX sY z x y, valid c z -> valid c x -> valid c y -> (sX = true -> z = x) -> (sY = true -> z = y) ->
  fst (mul c sX sY z x y) = can_resize c (size x + size y) /\
  value (snd (mul c sX sY z x y)) = (if can_resize c (size x + size y) then value x * value y else value z).
Proof. exact mul_exact. Qed.
Print Assumptions C25_mul_exact.
Theorem C25_op_mul_exact : forall c x y, valid c x -> valid c y -> value (op_mul c x y) = (if can_resize c (size x + size y) then value x * value y else 0).
Proof. exact op_mul_exact. Qed.
Print Assumptions C25_op_mul_exact.
(** C25: left shifts write out of bounds exactly when there is no room for the words shifted in. *)
Theorem C25_shl_exact : forall c z x n, valid c z -> valid c x -> 0 <= n ->
  if can_resize c (size x + Z.to_nat ((n + 31) / 32)) then exists r, shl c z x n = Ok r /\ valid c r /\ value r = value x * 2 ^ n
  else shl c z x n = UB.
Proof. exact shl_exact. Qed.
Print Assumptions C25_shl_exact.
(** C25, C26: operations with a word and with a signed machine integer, at every capacity. *)
Theorem C25_word_exact : forall c same z x w, valid c z -> valid c x -> 0 <= w < 2 ^ 32 -> (same = true -> z = x) ->
  value (addu1 c same z x w) = (if negb (neg x) && negb (can_resize c (size x + 1)) then 0 else value x + w) /\
  value (subu1 c same z x w) = (if neg x && negb (can_resize c (size x + 1)) then 0 else value x - w) /\
  value (mulu1 c z x w) = (if can_resize c (size x + 1) then value x * w else 0).
Proof. exact word_ops_exact. Qed.
Print Assumptions C25_word_exact.
Theorem C25_int_exact : forall c same z x k, valid c z -> valid c x -> - 2 ^ 31 <= k < 2 ^ 31 -> (same = true -> z = x) ->
  value (adds1 c same z x k) = (if eqb (neg x) (k <? 0) && negb (can_resize c (size x + 1)) then 0 else value x + k) /\
  value (subs1 c same z x k) = (if negb (eqb (neg x) (k <? 0)) && negb (can_resize c (size x + 1)) then 0 else value x - k) /\
  value (muls1 c z x k) = (if can_resize c (size x + 1) then value x * k else 0).
Proof. exact int_ops_exact. Qed.
Print Assumptions C25_int_exact.
(** in one word: 7 + -3, 7 + 3, -7 - 3, 7 * 3, 7 * -3, 7 << 1, 7 << 0 *)
Example C25_exact_ex : let c := Fixed 1 in let i := of_int c in
  value (op_add c (i 7) (i (-3))) = 4 /\ value (op_add c (i 7) (i 3)) = 0 /\ value (op_sub c (i (-7)) (i 3)) = 0 /\ value (op_sub c (i (-7)) (i (-3))) = -4 /\
  value (op_mul c (i 7) (i 3)) = 0 /\ mul c true false (i 7) (i 7) (i 3) = (false, i 7) /\ value (muls1 c (i 7) (i 7) (-3)) = 0 /\
  shl c (i 7) (i 7) 1 = UB /\ shl c (i 7) (i 7) 0 = Ok (i 7) /\ value (subu1 c true (i 7) (i 7) 9) = -2 /\ value (addu1 c true (i 7) (i 7) 9) = 0.
Proof. repeat split. Qed.

(** C26: division by a word drops the sign of the dividend, for every dividend. *)
Theorem C26_div_word : forall c z x w, valid c z -> valid c x -> 0 <= w < 2 ^ 32 ->
  if w =? 0 then divu1 c z x w = Abort
  else exists q, divu1 c z x w = Ok q /\ valid c q /\ neg q = false /\ value q = Z.abs (value x) / w.
Proof. exact divu1_exact. Qed.
Print Assumptions C26_div_word.
Example C26_div_word_ex : exists q, divu1 (Flex 4) (zero (Flex 4)) (of_int (Flex 4) (-7)) 2 = Ok q /\ value q = 3.
Proof. eexists. split; [vm_compute; reflexivity|reflexivity]. Qed.

(** C39: for every size of p and n, verification compares the abscissa with r and with r + n. *)
Theorem C39_verify_exact : forall c C (Pp : prime (value (cu_p C))), ecdsa_curve c C Pp -> forall q msg r s,
  good2 c (cu_p C) q -> on_curve (kval (cu_p C) Pp (cu_a C)) (kval (cu_p C) Pp (cu_b C)) (aff_pt (cu_p C) Pp q) -> all_bytes msg -> valid c r -> valid c s ->
  exists v, ecdsa_verify c C q msg r s = Ok v /\
    (v = true <-> accepts_once (coord (cu_p C) Pp) (kval (cu_p C) Pp (cu_a C)) (aff_pt (cu_p C) Pp (cu_g C)) (value (cu_n C)) (aff_pt (cu_p C) Pp q) (leftmost (8 * byte_length (cu_n C)) msg) (value r) (value s)).
Proof. exact verify_exact. Qed.
Print Assumptions C39_verify_exact.
(** C39: which is the standard's condition and an abscissa below 2n. *)
Theorem C39_once_standard : forall c C (Pp : prime (value (cu_p C))), ecdsa_curve c C Pp -> forall X e r s,
  accepts_once (coord (cu_p C) Pp) (kval (cu_p C) Pp (cu_a C)) (aff_pt (cu_p C) Pp (cu_g C)) (value (cu_n C)) X e r s <->
  accepts (coord (cu_p C) Pp) (kval (cu_p C) Pp (cu_a C)) (aff_pt (cu_p C) Pp (cu_g C)) (value (cu_n C)) X e r s /\
  forall w x y, (s * w) mod (value (cu_n C)) = 1 ->
    padd (kval (cu_p C) Pp (cu_a C)) (zmul (kval (cu_p C) Pp (cu_a C)) ((e * w) mod (value (cu_n C))) (aff_pt (cu_p C) Pp (cu_g C))) (zmul (kval (cu_p C) Pp (cu_a C)) ((r * w) mod (value (cu_n C))) X) = Aff x y ->
    coord (cu_p C) Pp x < 2 * value (cu_n C).
Proof. exact once_standard. Qed.
Print Assumptions C39_once_standard.
(** a curve over GF(13) with a base point of order 5: abscissas reach beyond 2n *)
Example C39_exact_ex : ecdsa_curve ex_c E13 prime_E13 /\ good2 ex_c (cu_p E13) (Some (el ex_c 13 11, el ex_c 13 5)) /\ on_c E13 prime_E13 (Some (el ex_c 13 11, el ex_c 13 5)) /\
  2 * value (cu_n E13) < value (cu_p E13).
Proof. split; [exact E13_ok|]. split; [split; apply el_elem; cbn; lia|]. split; [apply on_small; lia|]. vm_compute. reflexivity. Qed.
