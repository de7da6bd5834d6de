(** Builds with assertions: the statements of AssertProperties.v. *)
From Coq Require Import List ZArith Bool Lia PeanoNat.
From Verif Require Import Outcome LoopModel WordsModel WordsProofs UtilsSpec BigintModel BigintSpec BigintProofs BigintBits BigintClaims NumModel NumProofs NumClaims JacobiSpec JacobiProofs
  AssertModel AssertSpec AssertProofs AssertRefine AssertSim AssertExact AssertLoops AssertPow.
Import ListNotations.
Open Scope Z_scope.

Lemma word_claim c same z x y : valid c z -> valid c x -> 0 <= y < 2 ^ 32 -> (same = true -> z = x) ->
  exact_or_stop c (neg x = false -> room c (size x + 1)) (value x + y) (d_addu1 c same z x y) /\
  exact_or_stop c (neg x = true -> room c (size x + 1)) (value x - y) (d_subu1 c same z x y) /\
  exact_or_stop c (room c (size x + 1)) (value x * y) (d_mulu1 c z x y).
Proof.
  intros Hz Hx Hy Hs. pose proof (valid_storage _ _ Hz) as Sz. split; [apply d_addu1_ok; assumption|]. split; [apply d_subu1_ok; assumption|].
  apply d_mulu1_ok; [assumption..|rewrite B_val; exact Hy].
Qed.
Lemma int_claim c same z x y : valid c z -> valid c x -> - 2 ^ 31 <= y < 2 ^ 31 -> (same = true -> z = x) ->
  exact_or_stop c (y <> - 2 ^ 31 /\ (neg x = (y <? 0) -> room c (size x + 1))) (value x + y) (d_adds1 c same z x y) /\
  exact_or_stop c (y <> - 2 ^ 31 /\ (neg x = (0 <=? y) -> room c (size x + 1))) (value x - y) (d_subs1 c same z x y) /\
  exact_or_stop c (y <> - 2 ^ 31 /\ room c (size x + 1)) (value x * y) (d_muls1 c z x y).
Proof.
  intros Hz Hx Hy Hs. pose proof (valid_storage _ _ Hz) as Sz. split; [apply d_adds1_ok; assumption|]. split; [apply d_subs1_ok; assumption|]. apply d_muls1_ok; assumption.
Qed.
Lemma assign_claim c z x : valid c z ->
  (- 2 ^ 31 <= x < 2 ^ 31 -> exact_or_stop c (x <> - 2 ^ 31) x (d_assign_int c z x)) /\
  (0 <= x < 2 ^ 64 -> exact_or_stop c (room c 2) x (d_assign_u64 c z x)) /\
  (- 2 ^ 63 <= x < 2 ^ 63 -> exact_or_stop c (x <> - 2 ^ 31 /\ room c 2) x (d_assign_i64 c z x)).
Proof.
  intros Hz. pose proof (valid_storage _ _ Hz) as Sz. split; [|split]; intros Hx.
  - apply d_assign_int_exact; [exact Sz|apply (valid_room1 c z Hz)|exact Hx].
  - apply d_assign_u64_exact; assumption.
  - apply d_assign_i64_exact; assumption.
Qed.
Lemma int64_refute c z : valid c z -> room c 2 -> d_assign_i64 c z (- 2 ^ 31) = Abort /\
  exists r, d_assign_i64 c z (- 2 ^ 63) = Ok r /\ valid c r /\ value r = - 2 ^ 63.
Proof.
  intros Hz R. destruct (assign_claim c z (- 2 ^ 31) Hz) as (_ & _ & H1). destruct (assign_claim c z (- 2 ^ 63) Hz) as (_ & _ & H2). split.
  - apply H1; [change (2 ^ 63) with 9223372036854775808; lia|]. intros [N _]. apply N. reflexivity.
  - apply H2; [lia|]. split; [discriminate|exact R].
Qed.
Lemma div_claim c q r x y : valid c q -> valid c r -> valid c x -> valid c y ->
  exact_or_stop c (value y <> 0) (Z.quot (value x) (value y)) (let* d := d_div_q c q x y in Ok (snd d)) /\
  exact_or_stop c (value y <> 0) (Z.rem (value x) (value y)) (let* d := d_mod_r c r x y in Ok (snd d)).
Proof.
  intros Hq Hr Hx Hy. rewrite (d_div_q_eq c q x y (valid_storage _ _ Hq) Hx Hy), (d_mod_r_eq c r x y (valid_storage _ _ Hr) Hx Hy). split; split; intros N.
  - destruct (div_q_claim c q x y Hq Hx Hy N) as (q' & -> & P). exists q'. split; [reflexivity|exact P].
  - assert (E : value y = 0) by lia. unfold div_q. rewrite (div_mod_by_zero c _ _ x y Hx Hy E). reflexivity.
  - destruct (mod_r_claim c r x y Hr Hx Hy N) as (q' & -> & P). exists q'. split; [reflexivity|exact P].
  - assert (E : value y = 0) by lia. unfold mod_r. rewrite (div_mod_by_zero c _ _ x y Hx Hy E). reflexivity.
Qed.
Lemma quot_rem_debug_claim c q r x y : valid c q -> valid c r -> valid c x -> valid c y -> value y <> 0 ->
  (d_quot_rem c (Some q) r x y = Abort /\ ~ room c (size x + 1) /\ value x mod value y <> 0 /\ neg x <> neg y) \/
  exists q' r', d_quot_rem c (Some q) r x y = Ok (Some q', r') /\ valid c q' /\ valid c r' /\ value q' = value x / value y /\ value r' = value x mod value y.
Proof.
  intros Hq Hr Hx Hy N. destruct (d_quot_rem_ok c q r x y (valid_storage _ _ Hq) (valid_storage _ _ Hr) Hx Hy N) as [(E & R & M & X)|H]; [left|right; exact H].
  do 3 (split; [assumption|]). intros E'. rewrite E', xorb_nilpotent in X. discriminate X.
Qed.
Lemma div_word_claim c q x y : valid c q -> valid c x ->
  (- 2 ^ 31 <= y < 2 ^ 31 -> exact_or_stop c (y <> 0 /\ y <> - 2 ^ 31) (Z.quot (value x) y) (d_divs1 c q x y) /\
                             exact_or_stop c (y <> 0 /\ y <> - 2 ^ 31) (Z.rem (value x) y) (d_mods1 c q x y)) /\
  (0 <= y < 2 ^ 32 -> exact_or_stop c (y <> 0 /\ neg x = false) (value x / y) (d_divu1 c q x y)).
Proof.
  intros Hq Hx. pose proof (valid_storage _ _ Hq) as Sq. split; intros Hy; [split; [apply d_divs1_exact|apply d_mods1_exact]|apply d_divu1_exact]; assumption.
Qed.
Lemma shift_claim c z x n : valid c z -> valid c x -> 0 <= n ->
  exact_or_stop c (room c (size x + Z.to_nat ((n + 31) / 32))) (value x * 2 ^ n) (d_shl c z x n) /\
  exists r, d_shr c z x n = Ok r /\ valid c r /\ value r = Z.quot (value x) (2 ^ n).
Proof. intros Hz Hx Hn. pose proof (valid_storage _ _ Hz) as Sz. split; [apply d_shl_exact|apply d_shr_exact]; assumption. Qed.
Lemma bits_claim c z x y w : valid c z -> valid c x -> valid c y -> 0 <= w < 2 ^ 32 -> neg z = false ->
  exact_or_stop c (neg x = false /\ neg y = false) (Z.lor (value x) (value y)) (d_or_bit c z x y) /\
  exact_or_stop c (neg x = false /\ neg y = false) (Z.land (value x) (value y)) (d_and_bit c z x y) /\
  exact_or_stop c (neg x = false) (Z.lor (value x) w) (d_or_bitu1 x w) /\
  exact_or_stop c (neg x = false) (Z.land (value x) w) (d_and_bitu1 c z x w).
Proof. intros Hz Hx Hy Hw Nz. split; [apply d_or_exact; assumption|]. split; [apply d_and_exact; assumption|]. apply d_bits_word; assumption. Qed.
Lemma gcd_debug_claim c x y : valid c x -> valid c y -> exists r, d_gcd c x y = Ok r /\ valid c r /\ Z.abs (value r) = Z.gcd (value x) (value y).
Proof. intros Hx Hy. rewrite (d_gcd_eq c x y Hx Hy). destruct (gcd_spec c x y Hx Hy) as (r & E & V & P & _). exists r. auto. Qed.
Lemma jacobi_debug_claim c m n : valid c m -> valid c n ->
  (Z.odd (value n) = true -> 0 < value n -> exists j, d_jacobi c m n = Ok j /\ jacobi_symbol (value m) (value n) j) /\
  (Z.odd (value n) = false -> d_jacobi c m n = Abort).
Proof.
  intros Hm Hn. split; intros O.
  - intros P. rewrite (d_jacobi_eq c m n Hm Hn O). destruct (jacobi_claim c m n Hm Hn P O) as (j & E & J & _). exists j. split; assumption.
  - unfold d_jacobi. rewrite (is_odd_spec c n Hn), O. reflexivity.
Qed.
Lemma refines_claim c s a b z x y n w v i :
  below (d_add c z x y) (Ok (add c z x y)) /\ below (d_sub c z x y) (Ok (sub c z x y)) /\
  below (d_add1_signed c s z x w a) (Ok (add1_signed c s z x w a)) /\ below (d_adds1 c s z x w) (Ok (adds1 c s z x w)) /\ below (d_subs1 c s z x w) (Ok (subs1 c s z x w)) /\
  below (d_mul c a b z x y) (Ok (mul c a b z x y)) /\ below (d_mulu1 c z x w) (Ok (mulu1 c z x w)) /\ below (d_muls1 c z x w) (Ok (muls1 c z x w)) /\
  below (d_div_mod c (Some z) n x y) (div_mod c (Some z) n x y) /\ below (d_quot_rem c (Some z) n x y) (quot_rem c (Some z) n x y) /\
  below (d_divs1 c z x w) (divs1 c z x w) /\ below (d_mods1 c z x w) (mods1 z x w) /\ below (d_divu1 c z x w) (divu1 c z x w) /\ below (d_modu1 c z x w) (modu1 z x w) /\
  below (d_shl c z x w) (shl c z x w) /\ below (d_shr c z x w) (Ok (shr z x w)) /\ below (d_or_bit c z x y) (Ok (or_bit z x y)) /\ below (d_and_bit c z x y) (Ok (and_bit z x y)) /\
  below (d_set_bit c x i v) (set_bit c x i v) /\ below (d_bit_length x) (Ok (bit_length x)) /\ below (d_to_naf c x) (to_naf c x) /\
  below (d_pow c z x y) (pow c z x y) /\ below (d_modexp c z x y n) (modexp c z x y n) /\ below (d_modinv c z x y) (modinv c z x y) /\
  below (d_gcd c x y) (gcd c x y) /\ below (d_lcm c z x y) (lcm c z x y) /\ below (d_jacobi c x y) (jacobi c x y).
Proof.
  split; [apply b_add|]. split; [apply b_sub|]. split; [apply b_add1|]. split; [apply b_adds1|]. split; [apply b_subs1|]. split; [apply b_mul|]. split; [apply b_mulu1|]. split; [apply b_muls1|].
  split; [apply b_div_mod|]. split; [apply b_quot_rem|]. split; [apply b_divs1|]. split; [apply b_mods1|]. split; [apply b_divu1|]. split; [apply b_modu1|]. split; [apply b_shl|]. split; [apply b_shr|].
  split; [apply b_or_bit|]. split; [apply b_and_bit|]. split; [apply b_set_bit|]. split; [apply b_bit_length|]. split; [apply b_naf|]. split; [apply b_pow|]. split; [apply b_modexp|]. split; [apply b_modinv|].
  split; [apply b_gcd|]. split; [apply b_lcm|apply b_jacobi].
Qed.
Lemma add_debug_claim c z x y : valid c z -> valid c x -> valid c y ->
  exact_or_stop c (neg x = neg y -> room c (Nat.max (size x) (size y) + 1)) (value x + value y) (d_add c z x y).
Proof. intros Hz. apply d_add_ok. apply valid_storage. exact Hz. Qed.
Lemma sub_debug_claim c z x y : valid c z -> valid c x -> valid c y ->
  exact_or_stop c (neg x <> neg y -> room c (Nat.max (size x) (size y) + 1)) (value x - value y) (d_sub c z x y).
Proof. intros Hz. apply d_sub_ok. apply valid_storage. exact Hz. Qed.
Lemma mul_debug_claim c sX sY z x y : valid c z -> valid c x -> valid c y -> (sX = true -> z = x) -> (sY = true -> z = y) ->
  (room c (size x + size y) -> exists r, d_mul c sX sY z x y = Ok (true, r) /\ valid c r /\ value r = value x * value y) /\
  (~ room c (size x + size y) -> d_mul c sX sY z x y = Abort).
Proof. intros Hz. apply d_mul_ok. apply valid_storage. exact Hz. Qed.
Lemma compare_debug_claim x y : d_compares1 x y = if y =? - 2 ^ 31 then Abort else Ok (compares1 x y).
Proof. unfold d_compares1, invalid_var. destruct (y =? - 2 ^ 31); reflexivity. Qed.
