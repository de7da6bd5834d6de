(** Builds with assertions: whatever does not stop is what the release build computes, for all arguments. *)
From Coq Require Import List ZArith Bool Lia PeanoNat.
From Verif Require Import Outcome LoopModel WordsModel BigintModel NumModel AssertModel AssertSpec.
Import ListNotations.
Open Scope Z_scope.

Lemma below_refl {A} (f : outcome A) : below f f. Proof. right. reflexivity. Qed.
Lemma below_bind {A C} (d f : outcome A) (g h : A -> outcome C) : below d f -> (forall v, f = Ok v -> below (g v) (h v)) -> below (bind d g) (bind f h).
Proof. intros [->| ->] H; [left; reflexivity|]. destruct f; cbn [bind]; [apply H; reflexivity|right; reflexivity..]. Qed.
Lemma below_check {A} b (d f : outcome A) : (b = true -> below d f) -> below (let* _ := check b in d) f.
Proof. intros H. destruct b; cbn [check bind]; [apply H; reflexivity|left; reflexivity]. Qed.
Lemma below_ok {A C} (d f : outcome A) (g : A -> C) : below d f -> below (let* r := d in Ok (g r)) (let* r := f in Ok (g r)).
Proof. intros H. apply below_bind; [exact H|]. intros. apply below_refl. Qed.
Lemma below_pure {A} (d : outcome A) (v : A) : below d (Ok v) -> d = Abort \/ d = Ok v. Proof. auto. Qed.
Lemma below_pbind {A C} (d : outcome A) (v : A) (g : A -> outcome C) (h : outcome C) : below d (Ok v) -> below (g v) h -> below (bind d g) h.
Proof. intros [->| ->] H; [left; reflexivity|exact H]. Qed.
Ltac chk := repeat (apply below_check; intros _); try apply below_refl.

Lemma b_assign_word c z w : below (d_assign_word c z w) (Ok (assign_word z w)). Proof. unfold d_assign_word. chk. Qed.
Lemma b_assign_int c z x : below (d_assign_int c z x) (Ok (assign_int z x)).
Proof. unfold d_assign_int. chk. eapply below_pbind; [apply b_assign_word|]. apply below_refl. Qed.
Lemma b_assign_u64 c z x : below (d_assign_u64 c z x) (assign_u64 c z x). Proof. unfold d_assign_u64. chk. Qed.
Lemma b_assign_i64 c z x : below (d_assign_i64 c z x) (assign_i64 c z x).
Proof. unfold d_assign_i64, assign_i64. chk. apply below_ok. apply b_assign_u64. Qed.
Lemma b_uadd c z x y : below (d_uadd c z x y) (Ok (uadd c z x y)).
Proof. unfold d_uadd. destruct (if Nat.ltb (size x) (size y) then (size y, size x) else (size x, size y)). chk. Qed.
Lemma b_uadd1 c z x y : below (d_uadd1 c z x y) (Ok (uadd1 c z x y)). Proof. unfold d_uadd1. chk. Qed.
Lemma b_usub1 c z x y : below (d_usub1 c z x y) (Ok (usub1 c z x y)). Proof. unfold d_usub1. chk. Qed.
Lemma b_usub c z x y : below (d_usub c z x y) (Ok (usub c z x y)). Proof. unfold d_usub. chk. Qed.
Lemma b_add_signed c z x xN y yN : below (d_add_signed c z x xN y yN) (Ok (add_signed c z x xN y yN)).
Proof.
  unfold d_add_signed, add_signed. destruct (negb (xorb xN yN)); [|destruct (0 <=? ucompare x y)];
    (eapply below_pbind; [first [apply b_uadd|apply b_usub]|apply below_refl]).
Qed.
Lemma b_add c z x y : below (d_add c z x y) (Ok (add c z x y)). Proof. apply b_add_signed. Qed.
Lemma b_sub c z x y : below (d_sub c z x y) (Ok (sub c z x y)). Proof. apply b_add_signed. Qed.
Lemma b_add1 c s z x y n : below (d_add1_signed c s z x y n) (Ok (add1_signed c s z x y n)).
Proof.
  unfold d_add1_signed, add1_signed. destruct (negb (xorb (neg x) n)); [|destruct (Nat.ltb 1 (size x) || (word0 x >=? y))];
    (eapply below_pbind; [first [apply b_uadd1|apply b_usub1|apply b_assign_word]|apply below_refl]).
Qed.
Lemma b_adds1 c s z x y : below (d_adds1 c s z x y) (Ok (adds1 c s z x y)). Proof. unfold d_adds1. chk. apply b_add1. Qed.
Lemma b_subs1 c s z x y : below (d_subs1 c s z x y) (Ok (subs1 c s z x y)). Proof. unfold d_subs1. chk. apply b_add1. Qed.
Lemma b_mul c a b z x y : below (d_mul c a b z x y) (Ok (mul c a b z x y)). Proof. unfold d_mul. chk. Qed.
Lemma b_op_mul c x y : below (d_op_mul c x y) (Ok (op_mul c x y)).
Proof. unfold d_op_mul, op_mul. eapply below_pbind; [apply b_mul|apply below_refl]. Qed.
Lemma b_mulu1 c z x y : below (d_mulu1 c z x y) (Ok (mulu1 c z x y)). Proof. unfold d_mulu1. chk. Qed.
Lemma b_muls1 c z x y : below (d_muls1 c z x y) (Ok (muls1 c z x y)).
Proof. unfold d_muls1. chk. eapply below_pbind; [apply b_mulu1|apply below_refl]. Qed.
Lemma b_divs1 c q x y : below (d_divs1 c q x y) (divs1 c q x y). Proof. unfold d_divs1, divs1, d_div_mods1_q. apply below_ok. chk. Qed.
Lemma b_mods1 c r x y : below (d_mods1 c r x y) (mods1 r x y).
Proof. unfold d_mods1, mods1, d_div_mods1_r. apply below_bind; [chk|]. intros v _. eapply below_pbind; [apply b_assign_int|apply below_refl]. Qed.
Lemma b_divu1 c q x y : below (d_divu1 c q x y) (divu1 c q x y). Proof. unfold d_divu1, divu1. chk. Qed.
Lemma b_modu1 c r x y : below (d_modu1 c r x y) (modu1 r x y).
Proof. unfold d_modu1, modu1. chk. apply below_bind; [apply below_refl|]. intros v _. eapply below_pbind; [apply b_assign_word|apply below_refl]. Qed.
Lemma b_udiv c q r x y : below (d_udiv c q r x y) (udiv c q r x y).
Proof.
  unfold d_udiv. destruct (Nat.ltb (size x) (size y)) eqn:L; [apply below_refl|]. apply below_check. intros Q.
  destruct (div (size x - size y + 1) (words x) (words y)) as [[[qw xw] rn]| | |] eqn:E; cbn [bind]; [chk|left; reflexivity|right..]; unfold udiv; rewrite L, Q, E; reflexivity.
Qed.
Lemma b_div_mod c q r x y : below (d_div_mod c q r x y) (div_mod c q r x y).
Proof. unfold d_div_mod, div_mod. apply below_bind; [apply b_udiv|]. intros. apply below_refl. Qed.
Lemma b_div_q c q x y : below (d_div_q c q x y) (div_q c q x y).
Proof. unfold d_div_q, div_q. apply below_bind; [apply b_div_mod|]. intros. apply below_refl. Qed.
Lemma b_mod_r c r x y : below (d_mod_r c r x y) (mod_r c r x y).
Proof. unfold d_mod_r, mod_r. apply below_bind; [apply b_div_mod|]. intros. apply below_refl. Qed.
Lemma b_quot_rem c q r x y : below (d_quot_rem c q r x y) (quot_rem c q r x y).
Proof.
  unfold d_quot_rem, quot_rem. apply below_bind; [apply b_udiv|]. intros [[ok q1] r1] _. destruct (_ && _); [|apply below_refl].
  destruct q1 as [q1|]; cbn [option_map].
  - eapply below_pbind; [eapply below_pbind; [apply b_uadd1|apply below_refl]|]. eapply below_pbind; [apply b_usub|apply below_refl].
  - cbn [bind]. eapply below_pbind; [apply b_usub|apply below_refl].
Qed.
Lemma b_shl c y x n : below (d_shl c y x n) (shl c y x n). Proof. unfold d_shl. chk. Qed.
Lemma b_shr c y x n : below (d_shr c y x n) (Ok (shr y x n)). Proof. unfold d_shr. destruct (_ <=? _); chk. Qed.
Lemma b_or_bit c z x y : below (d_or_bit c z x y) (Ok (or_bit z x y)).
Proof. unfold d_or_bit. apply below_check. intros _. destruct (if Nat.ltb (size x) (size y) then (size y, size x) else (size x, size y)). chk. Qed.
Lemma b_and_bit c z x y : below (d_and_bit c z x y) (Ok (and_bit z x y)).
Proof. unfold d_and_bit. apply below_check. intros _. destruct (if Nat.ltb (size x) (size y) then (size y, size x) else (size x, size y)). chk. Qed.
Lemma b_bit_length x : below (d_bit_length x) (Ok (bit_length x)).
Proof. unfold d_bit_length. destruct (is_zero x) eqn:E; [unfold bit_length; rewrite E; apply below_refl|chk]. Qed.
Lemma b_set_bit c x i v : below (d_set_bit c x i v) (set_bit c x i v).
Proof. unfold d_set_bit. chk. eapply below_pbind; [apply b_bit_length|apply below_refl]. Qed.
Lemma b_compares1 x y : below (d_compares1 x y) (Ok (compares1 x y)). Proof. unfold d_compares1. chk. Qed.

(** *** loops *)
Definition lbelow {S A} (d f : loopres S (outcome A)) : Prop := d = Done Abort \/ d = f.
Lemma loop2_below {S A} (d f : S -> loopres S (outcome A)) : (forall s, lbelow (d s) (f s)) -> forall k s, lbelow (loop2 k d s) (loop2 k f s).
Proof.
  intros H. induction k as [|k IH]; intros s; cbn [loop2]; [apply H|].
  destruct (IH s) as [->| ->]; [left; reflexivity|]. destruct (loop2 k f s) as [s'|r]; [apply IH|right; reflexivity].
Qed.
Lemma run_below {S A} (d f : S -> loopres S (outcome A)) k s : (forall s, lbelow (d s) (f s)) -> below (run_loop k d s) (run_loop k f s).
Proof. intros H. unfold run_loop. destruct (loop2_below d f H k s) as [->| ->]; [left; reflexivity|right; reflexivity]. Qed.
Lemma step_below {S A} (d : outcome (loopres S (outcome A))) f : below d (Ok f) -> lbelow (step_of d) f.
Proof. intros [->| ->]; [left; reflexivity|right; reflexivity]. Qed.
Lemma step_below' {S A} (d g : outcome (loopres S (outcome A))) : below d g -> lbelow (step_of d) (step_of g).
Proof. intros [->| ->]; [left; reflexivity|right; reflexivity]. Qed.

Lemma b_naf c x : below (d_to_naf c x) (to_naf c x).
Proof.
  unfold d_to_naf. eapply below_pbind; [apply b_bit_length|]. apply run_below. intros [num acc]. unfold d_naf_step, naf_step.
  destruct (compareu1 num 0 >? 0); [|right; reflexivity]. destruct (is_odd num).
  - destruct (b_mods1 c (zero c) num 4) as [E|E]; rewrite E; [left; reflexivity|]. destruct (mods1 (zero c) num 4) as [m| | |]; [|right; reflexivity..]. cbn [bind].
    apply step_below. eapply below_pbind; [apply b_subs1|]. eapply below_pbind; [apply b_shr|apply below_refl].
  - apply step_below. eapply below_pbind; [apply b_shr|apply below_refl].
Qed.

Lemma b_plain_mul c s z x y : below (d_plain_mul c s z x y) (plain_mul c s z x y).
Proof. unfold d_plain_mul, plain_mul. eapply below_pbind; [apply b_mul|]. destruct (mul c s false z x y). apply below_refl. Qed.
Lemma b_plain_sqr c s z x : below (d_plain_sqr c s z x) (plain_sqr c s z x).
Proof. unfold d_plain_sqr, plain_sqr, d_sqr. eapply below_pbind; [apply b_mul|]. unfold sqr. destruct (mul c s s z x x). apply below_refl. Qed.
Lemma b_mod_mul c m s z x y : below (d_mod_mul c m s z x y) (mod_mul c m s z x y).
Proof.
  unfold d_mod_mul, mod_mul. eapply below_pbind; [apply b_mul|]. destruct (mul c s false z x y) as [ok z1]. destruct ok; [|apply below_refl].
  apply below_bind; [apply b_mod_r|]. intros. apply below_refl.
Qed.
Lemma b_mod_sqr c m s z x : below (d_mod_sqr c m s z x) (mod_sqr c m s z x).
Proof.
  unfold d_mod_sqr, mod_sqr, d_sqr. eapply below_pbind; [apply b_mul|]. unfold sqr. destruct (mul c s s z x x) as [ok z1]. destruct ok; [|apply below_refl].
  apply below_bind; [apply b_mod_r|]. intros. apply below_refl.
Qed.

Section POW.
Variables (c : cap) (dm pm : bool -> bigint -> bigint -> bigint -> pow_res) (ds ps : bool -> bigint -> bigint -> pow_res).
Hypothesis Hm : forall s z x y, below (dm s z x y) (pm s z x y).
Hypothesis Hs : forall s z x, below (ds s z x) (ps s z x).
Lemma b_then d f g h : below d f -> (forall z, below (g z) (h z)) -> below (then_ d g) (then_ f h).
Proof. intros H1 H2. unfold then_. apply below_bind; [exact H1|]. intros [z|] _; [apply H2|apply below_refl]. Qed.
Lemma b_table x n : forall p, below (pow_table c dm x p n) (pow_table c pm x p n).
Proof.
  induction n as [|n IH]; intros p; cbn [pow_table]; [apply below_refl|]. apply below_bind; [apply Hm|]. intros [t|] _; [|apply below_refl].
  apply below_bind; [apply IH|]. intros; apply below_refl.
Qed.
Lemma b_digits tbl l : forall z, below (pow_digits c dm ds tbl z l) (pow_digits c pm ps tbl z l).
Proof.
  induction l as [|d l IH]; intros z; cbn [pow_digits]; [apply below_refl|]. apply b_then; [|exact IH]. unfold pow_digit.
  do 4 (apply b_then; [apply Hs|intros ?]). destruct (d =? 0); [apply below_refl|apply Hm].
Qed.
Lemma b_pow_words z x y : below (pow_words c dm ds z x y) (pow_words c pm ps z x y).
Proof.
  unfold pow_words. do 2 (destruct (_ && _); [apply below_refl|]). destruct (_ && _); [apply Hs|].
  destruct (_ && _); [apply b_then; [apply Hs|intros; apply Hm]|]. destruct (_ && _); [apply b_then; [apply Hs|intros; apply Hs]|].
  apply below_bind; [apply b_table|]. intros [l|] _; [apply b_digits|apply below_refl].
Qed.
End POW.
Lemma b_pow c z x y : below (d_pow c z x y) (pow c z x y).
Proof. unfold d_pow, pow. destruct (neg y); [apply below_refl|]. eapply below_pbind; [apply b_assign_int|]. apply b_pow_words; [apply b_plain_mul|apply b_plain_sqr]. Qed.
Lemma b_modexp c z x y m : below (d_modexp c z x y m) (modexp c z x y m).
Proof. unfold d_modexp, modexp. destruct (neg y); [apply below_refl|]. eapply below_pbind; [apply b_assign_int|]. apply b_pow_words; [apply b_mod_mul|apply b_mod_sqr]. Qed.

Lemma b_add_if_neg c a m : below (d_add_if_neg c a m) (Ok (add_if_neg c a m)).
Proof. unfold d_add_if_neg, add_if_neg. destruct (neg a); [apply b_add|apply below_refl]. Qed.
Lemma b_modinv_step c m st : lbelow (d_modinv_step c m st) (modinv_step c m st).
Proof.
  destruct st as [s t a b]. unfold d_modinv_step, modinv_step.
  destruct (b_div_mod c (Some (zero c)) s s t) as [E|E]; rewrite E; [left; reflexivity|].
  destruct (div_mod c (Some (zero c)) s s t) as [[[ok [q|]] s']| | |]; cbn [bind]; try (right; reflexivity); [|destruct ok; right; reflexivity].
  destruct ok; [|right; reflexivity]. destruct (is_zero s').
  - destruct (is_one t); [|right; reflexivity]. apply step_below. eapply below_pbind; [apply b_add_if_neg|apply below_refl].
  - destruct (b_op_mul c b q) as [->| ->]; [left; reflexivity|]. cbn [bind]. destruct (b_sub c a a (op_mul c b q)) as [->| ->]; [left; reflexivity|]. cbn [bind].
    set (a' := sub c a a (op_mul c b q)). destruct (b_div_mod c (Some (zero c)) t t s') as [E2|E2]; rewrite E2; [left; reflexivity|].
    destruct (div_mod c (Some (zero c)) t t s') as [[[ok2 [q2|]] t']| | |]; cbn [bind]; try (right; reflexivity); [|destruct ok2; right; reflexivity].
    destruct ok2; [|right; reflexivity]. destruct (is_zero t').
    + destruct (is_one s'); [|right; reflexivity]. apply step_below. eapply below_pbind; [apply b_add_if_neg|apply below_refl].
    + apply step_below. eapply below_pbind; [apply b_op_mul|]. eapply below_pbind; [apply b_sub|apply below_refl].
Qed.
Lemma b_modinv c y x m : below (d_modinv c y x m) (modinv c y x m).
Proof.
  unfold d_modinv, modinv. apply below_bind; [apply below_refl|]. intros _ _. destruct (is_zero x).
  { eapply below_pbind; [apply b_assign_int|]. apply below_refl. }
  destruct (is_one x). { eapply below_pbind; [apply b_assign_int|]. apply below_refl. }
  apply below_bind; [apply b_div_mod|]. intros [[ok [q|]] t] _; [|apply below_refl]. destruct ok; [|apply below_refl]. destruct (is_zero t); [apply below_refl|].
  apply run_below. apply b_modinv_step.
Qed.
Lemma b_gcd c x y : below (d_gcd c x y) (gcd c x y).
Proof.
  unfold d_gcd, gcd. apply run_below. intros [u v]. unfold d_gcd_step, gcd_step. destruct (is_zero v); [right; reflexivity|].
  destruct (b_mod_r c v u v) as [E|E]; rewrite E; [left; reflexivity|]. destruct (mod_r c v u v) as [[ok r]| | |]; right; reflexivity.
Qed.
Lemma b_div_in_place c x y : below (d_div_in_place c x y) (div_in_place c x y).
Proof. unfold d_div_in_place. destruct (Nat.ltb (size x) (size y)); chk. Qed.
Lemma b_lcm c z x y : below (d_lcm c z x y) (lcm c z x y).
Proof. unfold d_lcm, lcm. apply below_bind; [apply b_gcd|]. intros g _. apply below_bind; [apply b_div_in_place|]. intros q _. eapply below_pbind; [apply b_mul|apply below_refl]. Qed.
Lemma b_ctz c x : below (d_count_trailing_zero c x) (count_trailing_zero x).
Proof.
  unfold d_count_trailing_zero, count_trailing_zero. apply run_below. intros [u s]. unfold d_ctz_step, ctz_step. destruct (is_even u); [|right; reflexivity].
  apply step_below. eapply below_pbind; [apply b_shr|apply below_refl].
Qed.
Lemma b_jacobi_step c st : lbelow (d_jacobi_step c st) (jacobi_step c st).
Proof.
  destruct st as [[[m n] j] start]. unfold d_jacobi_step, jacobi_step.
  set (sw := if start then Ok (m, n, j) else let j0 := if (get_low32bit m mod 4 =? 3) && (get_low32bit n mod 4 =? 3) then - j else j in let* r := mod_r c (zero c) n m in Ok (snd r, m, j0)).
  match goal with |- lbelow (step_of (bind ?X _)) _ => assert (W : below X sw) end.
  { unfold sw. destruct start; [apply below_refl|]. cbv zeta. apply below_ok. apply b_mod_r. }
  destruct W as [->| ->]; [left; reflexivity|]. destruct sw as [[[m' n'] j']| | |]; cbn [bind]; try (right; reflexivity).
  destruct (b_ctz c m') as [E|E]; rewrite E; [left; reflexivity|]. destruct (count_trailing_zero m') as [[m2 s]| | |]; cbn [bind]; try (right; reflexivity).
Qed.
Lemma b_jacobi c m n : below (d_jacobi c m n) (jacobi c m n).
Proof.
  unfold d_jacobi, jacobi. apply below_check. intros _. destruct (is_one n); [apply below_refl|]. eapply below_pbind; [apply b_compares1|].
  apply below_bind; [destruct (_ || _); [apply below_ok; apply b_quot_rem|apply below_refl]|]. intros m' _. destruct (is_zero m'); [apply below_refl|]. destruct (is_one m'); [apply below_refl|].
  apply below_bind; [apply b_gcd|]. intros g _. eapply below_pbind; [apply b_compares1|]. destruct (negb _); [apply below_refl|]. apply run_below. apply b_jacobi_step.
Qed.
