(** The statements behind the properties C27-C30. *)
From Coq Require Import List ZArith Znumtheory Bool Lia.
From Verif Require Import Outcome WordsModel WordsSpec BigintModel BigintSpec BigintProofs BigintClosure BigintClaims NumModel JacobiSpec FpModel FpSpec FpProofs FpSqrt.
Import ListNotations.
Open Scope Z_scope.

(** C28 for a prime modulus *)
Lemma prime_inv_claim c p b : modulus_ok c p -> prime (value p) -> elem c p b -> value (fv b) <> 0 ->
  exists r, fe_inv c b = Ok r /\ elem c p r /\ (value (fv r) * value (fv b)) mod value p = 1.
Proof.
  intros Hp Pp Hb N. pose proof Hb as (_ & _ & R). destruct (fe_inv_claim c p Hp b Hb (prime_gcd c p Hp (value (fv b)) Pp ltac:(lia))) as (r & E & F & M).
  exists r. split; [exact E|]. split; [exact F|]. rewrite M. apply Z.mod_small. lia.
Qed.
Lemma prime_div_claim c p a b : modulus_ok c p -> prime (value p) -> elem c p a -> elem c p b -> value (fv b) <> 0 ->
  exists r, fe_div c a b = Ok r /\ elem c p r /\ (value (fv r) * value (fv b)) mod value p = value (fv a).
Proof.
  intros Hp Pp Ha Hb N. pose proof Hb as (_ & _ & R). pose proof Ha as (_ & _ & Ra). destruct (fe_div_claim c p Hp a b Ha Hb (prime_gcd c p Hp (value (fv b)) Pp ltac:(lia))) as (r & E & F & M).
  exists r. split; [exact E|]. split; [exact F|]. rewrite M. apply Z.mod_small. lia.
Qed.
(** any modulus: what is not invertible makes the program stop *)
Lemma not_invertible_claim c p a b : modulus_ok c p -> elem c p a -> elem c p b -> Z.gcd (value (fv b)) (value p) <> 1 -> fe_inv c b = Abort /\ fe_div c a b = Abort.
Proof. intros Hp Ha Hb. apply (fe_div_abort c p Hp); assumption. Qed.
Lemma zero_div_claim c p a b : modulus_ok c p -> elem c p a -> elem c p b -> value (fv b) = 0 -> fe_inv c b = Abort /\ fe_div c a b = Abort.
Proof. intros Hp Ha Hb Z0. apply (fe_div_abort c p Hp a b Ha Hb). rewrite Z0. apply (gcd_zero c p Hp). Qed.
(** C29: the number of roots, so that with its negation sqrt gives all of them *)
Lemma roots_claim p r s : prime p -> (r * r) mod p = (s * s) mod p -> s mod p = r mod p \/ s mod p = (- r) mod p.
Proof.
  intros Pp E. pose proof (prime_ge_2 _ Pp). assert (D : (p | (s - r) * (s + r))).
  { apply Z.mod_divide; [lia|]. replace ((s - r) * (s + r)) with (s * s - r * r) by ring. rewrite Zminus_mod, E, Z.sub_diag. apply Z.mod_0_l. lia. }
  apply prime_mult in D; [|exact Pp]. destruct D as [D|D]; [left|right]; apply Z.mod_divide in D; try lia.
  - replace s with (s - r + r) by ring. rewrite Zplus_mod, D, Z.add_0_l. apply Z.mod_mod. lia.
  - replace s with (s + r + - r) by ring. rewrite Zplus_mod, D, Z.add_0_l. apply Z.mod_mod. lia.
Qed.
(** C30: the operators with the scalar on the left *)
Lemma scalar_left_sum_claim c p k kb f : modulus_ok c p -> elem c p f -> - 2 ^ 31 <= k < 2 ^ 31 -> 0 <= k < value p -> reduced c p kb ->
  returns c p (int_plus_fe c k f) (k + value (fv f)) /\ returns c p (big_plus_fe c kb f) (value kb + value (fv f)) /\
  returns c p (int_times_fe c k f) (k * value (fv f)) /\ returns c p (big_times_fe c kb f) (value kb * value (fv f)).
Proof.
  intros Hp Hf K R Hk. rewrite (Z.add_comm k), (Z.add_comm (value kb)), (Z.mul_comm k), (Z.mul_comm (value kb)).
  split; [apply fe_add_int_claim; auto; lia|]. split; [|split; [apply fe_mul_int_claim; auto; lia|apply fe_mul_big_claim; auto]].
  apply (fe_add_claim c p Hp f (mkfe kb (Some p)) Hf). split; [reflexivity|exact Hk].
Qed.
(** what they compute: the operands of - and / are swapped *)
Lemma scalar_left_swapped_claim c p k kb f : modulus_ok c p -> elem c p f -> - 2 ^ 31 <= k < 2 ^ 31 -> 0 <= k < value p -> reduced c p kb ->
  returns c p (int_minus_fe c k f) (value (fv f) - k) /\ returns c p (big_minus_fe c kb f) (value (fv f) - value kb) /\
  (Z.gcd (value kb) (value p) = 1 -> exists r, big_div_fe c kb f = Ok r /\ elem c p r /\ (value (fv r) * value kb) mod value p = value (fv f)).
Proof.
  intros Hp Hf K R Hk. split; [apply fe_sub_int_claim; auto; lia|]. split; [|intros G].
  - apply (fe_sub_claim c p Hp f (mkfe kb (Some p)) Hf). split; [reflexivity|exact Hk].
  - destruct (fe_div_big_claim c p Hp f kb Hf Hk G) as (r & E & F & M). exists r. split; [exact E|]. split; [exact F|]. rewrite M. apply Z.mod_small. apply Hf.
Qed.
Lemma prime_7 : prime 7.
Proof.
  constructor; [lia|]. intros n Hn. assert (H : n = 1 \/ n = 2 \/ n = 3 \/ n = 4 \/ n = 5 \/ n = 6) by lia.
  apply Zgcd_1_rel_prime. destruct H as [->|[->|[->|[->|[->| ->]]]]]; reflexivity.
Qed.
Lemma prime_17 : prime 17.
Proof.
  constructor; [lia|]. intros n Hn. apply Zgcd_1_rel_prime.
  assert (H : n = 1 \/ n = 2 \/ n = 3 \/ n = 4 \/ n = 5 \/ n = 6 \/ n = 7 \/ n = 8 \/ n = 9 \/ n = 10 \/ n = 11 \/ n = 12 \/ n = 13 \/ n = 14 \/ n = 15 \/ n = 16) by lia.
  repeat destruct H as [->|H]; try reflexivity. subst n. reflexivity.
Qed.
Definition fx_c : cap := Flex 4.
Definition fx (k : Z) : bigint := of_int fx_c k.
Definition fxe (k p : Z) : fe := mkfe (fx k) (Some (fx p)).
Lemma fx_valid k : Z.abs k < 2 ^ 32 -> valid fx_c (fx k) /\ value (fx k) = k.
Proof. intros H. destruct (of_int_value fx_c k I H) as ((V & _) & E). split; assumption. Qed.
Lemma fx_mod p : 1 < p < 2 ^ 32 -> modulus_ok fx_c (fx p) /\ value (fx p) = p.
Proof. intros H. destruct (fx_valid p ltac:(lia)) as (V & E). split; [|exact E]. split; [exact V|]. rewrite E. split; [lia|exact I]. Qed.
Lemma fx_elem k p : 0 <= k < p -> p < 2 ^ 32 -> elem fx_c (fx p) (fxe k p).
Proof. intros H H'. destruct (fx_valid p ltac:(lia)) as (_ & E). destruct (fx_valid k ltac:(lia)) as (V & E'). split; [reflexivity|]. split; [exact V|]. cbn [fv fxe]. rewrite E, E'. exact H. Qed.
Lemma minus_refute : exists p k f r, modulus_ok fx_c p /\ prime (value p) /\ elem fx_c p f /\ 0 <= k < value p /\
  int_minus_fe fx_c k f = Ok r /\ big_minus_fe fx_c (fx k) f = Ok r /\ value (fv r) <> (k - value (fv f)) mod value p.
Proof.
  exists (fx 7), 5, (fxe 3 7). eexists. split; [apply fx_mod; lia|]. split; [exact prime_7|]. split; [apply fx_elem; lia|]. split; [vm_compute; split; [discriminate|reflexivity]|].
  split; [vm_compute; reflexivity|]. split; [vm_compute; reflexivity|]. vm_compute. discriminate.
Qed.
Lemma div_refute : exists p k f r, modulus_ok fx_c p /\ prime (value p) /\ elem fx_c p f /\ reduced fx_c p k /\ value k <> 0 /\ value (fv f) <> 0 /\
  big_div_fe fx_c k f = Ok r /\ (value (fv r) * value (fv f)) mod value p <> value k.
Proof.
  exists (fx 7), (fx 5), (fxe 3 7). eexists. split; [apply fx_mod; lia|]. split; [exact prime_7|]. split; [apply fx_elem; lia|]. split; [apply (fx_elem 5 7); lia|].
  split; [vm_compute; discriminate|]. split; [vm_compute; discriminate|]. split; [vm_compute; reflexivity|]. vm_compute. discriminate.
Qed.
(** C27: operands that are not reduced *)
Lemma unreduced_operand_refute : exists p f x r s, modulus_ok fx_c p /\ elem fx_c p f /\ valid fx_c x /\ 0 <= value x /\
  fe_add_big fx_c f x = Ok r /\ ~ reduced fx_c p (fv r) /\ fe_mul_big fx_c f x = Ok s /\ ~ reduced fx_c p (fv s).
Proof.
  exists (fx 7), (fxe 1 7), (fx 20). do 2 eexists. split; [apply fx_mod; lia|]. split; [apply fx_elem; lia|]. split; [apply fx_valid; lia|]. split; [vm_compute; discriminate|].
  split; [vm_compute; reflexivity|]. split; [intros (_ & _ & H); vm_compute in H; discriminate|]. split; [vm_compute; reflexivity|]. intros (_ & _ & H). vm_compute in H. discriminate.
Qed.
(** fp_normalize: inputs of the byte length of p beyond one step of p, and negative multiples of p *)
Lemma normalize_refute : exists p a b d ra rb rd, modulus_ok fx_c p /\ produced fx_c a /\ produced fx_c b /\ produced fx_c d /\
  value a = 250 /\ fp_normalize fx_c a p = Ok ra /\ value p <= value ra /\ value b = -200 /\ fp_normalize fx_c b p = Ok rb /\ value rb < 0 /\
  value d = -1010 /\ fp_normalize fx_c d p = Ok rd /\ value rd = value p.
Proof.
  exists (fx 101), (fx 250), (fx (-200)), (fx (-1010)). do 3 eexists. split; [apply fx_mod; lia|]. do 3 (split; [apply P_int; cbn; lia|]).
  split; [reflexivity|]. split; [vm_compute; reflexivity|]. split; [vm_compute; discriminate|]. split; [reflexivity|]. split; [vm_compute; reflexivity|]. split; [vm_compute; reflexivity|].
  split; [reflexivity|]. split; [vm_compute; reflexivity|]. reflexivity.
Qed.
(** the elements made by zero() and one() have no modulus: arithmetic on them dereferences a null pointer *)
Lemma null_modulus_ub c x y : fm x = None -> fe_add c x y = UB /\ fe_sub c x y = UB /\ fe_neg c x = UB /\ fe_inv c x = UB.
Proof. intros E. unfold fe_add, fe_add_big, fe_sub, fe_sub_big, fe_neg, fe_inv, with_m. rewrite E. repeat split. Qed.
