(** Field operations on an operand that is not reduced but no longer than the modulus, as far as decompression uses them. *)
From Coq Require Import List ZArith Znumtheory Zpow_facts Bool Lia Setoid Morphisms.
From Verif Require Import Outcome LoopModel LoopProofs WordsModel WordsSpec BigintModel BigintSpec BigintProofs BigintBytes BigintClaims NumModel NumProofs NumPow NumClaims JacobiSpec Residues Legendre JacobiProofs FpModel FpSpec FpProofs FpSqrt.
Import ListNotations.
Open Scope Z_scope.

Section WIDE.
Variable c : cap.
Variable p : bigint.
Hypothesis Hp : modulus_ok c p.
Hypothesis Pp : prime (value p).
Hypothesis P3 : 3 < value p.
Let Vp : valid c p. Proof. apply Hp. Qed.
Notation P := (value p).
Lemma w_odd : Z.odd P = true.
Proof. destruct (prime_2_or_odd P Pp) as [E|E]; [lia|exact E]. Qed.
Definition wide (x : bigint) : Prop := valid c x /\ 0 <= value x /\ (size x <= size p)%nat.
Lemma red_wide x : reduced c p x -> wide x.
Proof. intros H. pose proof (red_size c p Hp x H). destruct H. split; [assumption|]. split; [lia|assumption]. Qed.
Lemma wide_mul x y : wide x -> wide y -> exists r, op_mod c (op_mul c x y) p = Ok r /\ represents c p r (value x * value y).
Proof.
  intros (Vx & Rx & Sx) (Vy & Ry & Sy). destruct (op_mul_val c p Hp x y Vx Vy Sx Sy) as (V & E). rewrite <- E. apply op_mod_pos; [exact Hp|exact V|]. rewrite E. nia.
Qed.
Lemma wide_sqr x : wide x -> exists r, sqr_mod c x p = Ok r /\ represents c p r (value x * value x).
Proof.
  intros (Vx & Rx & Sx). unfold sqr_mod, sqr. destruct (mul_spec c false false (zero c) x x) as (r & -> & V & E); eauto using (room_sum c p Hp), (zst c p Hp); try discriminate.
  cbn [snd]. rewrite <- E. apply op_mod_pos; [exact Hp|exact V|]. rewrite E. nia.
Qed.
Lemma wide_same x y : wide x -> valid c y -> value y = value x -> wide y.
Proof. intros (Vx & Rx & Sx) Vy E. split; [exact Vy|]. split; [lia|]. pose proof (size_le c y x Vy Vx ltac:(lia)). lia. Qed.
Notation "a == b" := (cgr p a b) (at level 70).
#[local] Instance cgr_eqv : Equivalence (cgr p).
Proof. split; [intros a; constructor; reflexivity|intros a b [H]; constructor; congruence|intros a b d [H] [H']; constructor; congruence]. Qed.
#[local] Instance pow_cgrw : Proper (cgr p ==> eq ==> cgr p) Z.pow.
Proof. intros a b [E] k k' <-. constructor. rewrite (Zpower_mod a), (Zpower_mod b), E by lia. reflexivity. Qed.
#[local] Instance mul_cgrw : Proper (cgr p ==> cgr p ==> cgr p) Z.mul.
Proof. intros a b [E] d e [E']. constructor. rewrite (Zmult_mod a), (Zmult_mod b), E, E'. reflexivity. Qed.
Lemma wide_modexp x y : wide x -> valid c y -> neg y = false -> exists r, op_modexp c x y p = Ok r /\ wide r /\ value r == value x ^ value y /\ (2 <= value y -> reduced c p r).
Proof.
  intros Wx Vy Ny. pose proof Wx as (Vx & Rx & Sx). unfold op_modexp.
  assert (Py : 0 <= value y) by (pose proof (magnitude_range _ _ Vy); rewrite value_sgn, Ny; cbn; lia).
  pose proof (modexp_spec c (zero c) x y p (zst c p Hp) Vx Vy Vp Rx Ny ltac:(lia)) as H. destruct (modexp c (zero c) x y p) as [[r|]| | |]; try contradiction.
  - cbn [bind]. exists r. split; [reflexivity|]. destruct H as (Vr & Nr & Er & H2 & H1 & H0). split; [|split; [constructor; exact Er|intros Q; split; [exact Vr|auto]]].
    assert (D : value y = 0 \/ value y = 1 \/ 2 <= value y) by lia. destruct D as [D|[D|D]].
    + apply red_wide. split; [exact Vr|]. rewrite H0 by exact D. lia.
    + apply (wide_same x r Wx Vr). auto.
    + apply red_wide. split; [exact Vr|]. auto.
  - exfalso. apply H. apply room_le with (2 * size p)%nat; [apply Hp|lia].
Qed.
Lemma wide_sqrt34 n : wide n -> ~ (P | value n) -> square_mod (value n) P -> P mod 4 = 3 ->
  exists e, divs1 c (zero c) (adds1 c false (zero c) p 1) 4 = Ok e /\ exists r, op_modexp c n e p = Ok r /\ reduced c p r /\ value r ^ 2 == value n.
Proof.
  intros Hn N0 Sq M. pose proof (zst c p Hp) as Zs.
  destruct (adds1_spec c false (zero c) p 1 Zs Vp ltac:(unfold int32; lia) (room_r c p Hp p (le_n _)) ltac:(discriminate)) as (V1 & E1).
  destruct (divs1_spec c (zero c) _ 4 Zs V1 ltac:(unfold int32; lia) ltac:(lia)) as (e & Ee & Ve & E). exists e. split; [exact Ee|].
  rewrite E1, Z.quot_div_nonneg in E by lia. pose proof (Z_div_mod_eq_full P 4) as D. rewrite M in D.
  assert (Ev : value e = P / 4 + 1) by (rewrite E; symmetry; apply (Zdiv_unique _ _ _ 0); lia). assert (1 <= P / 4) by lia.
  destruct (wide_modexp n e Hn Ve (neg_of_pos c p w_odd e Ve ltac:(lia))) as (r & Er & _ & Rr & Hr). exists r. split; [exact Er|]. split; [apply Hr; lia|].
  rewrite Rr. rewrite <- Z.pow_mul_r by lia. pose proof (half_eq P (Op' c p Hp w_odd)) as Hh. replace (value e * 2) with (Z.succ (half P)) by lia. rewrite Z.pow_succ_r by lia.
  rewrite (gs_power p Pp w_odd _ N0), (square_gs p Pp w_odd _ N0 Sq). rewrite Z.mul_1_r. reflexivity.
Qed.
Lemma wide_sqrt_general n : wide n -> ~ (P | value n) -> square_mod (value n) P ->
  exists r, (let q := subs1 c false (zero c) p 1 in
      let* qs := run_loop (32 * size q + 1) ctz_step (q, 0) in
      let '(q, s) := qs in
      let* z := run_loop (32 * size p + 1) (find_z_step c p) (of_int c 2) in
      let* cc := op_modexp c z q p in
      let* e := divs1 c (zero c) (subs1 c false (zero c) q 1) 2 in
      let* r := op_modexp c n e p in
      let* r2 := sqr_mod c r p in
      let* t := op_mod c (op_mul c r2 n) p in
      let* r := op_mod c (op_mul c n r) p in
      tonelli (Z.to_nat s) c p cc r t (Z.to_nat s)) = Ok r /\ reduced c p r /\ value r ^ 2 == value n.
Proof.
  intros Hn N0 Sq. pose proof (zst c p Hp) as Zs. cbv zeta. pose proof w_odd as Op.
  destruct (subs1_spec c false (zero c) p 1 Zs Vp ltac:(unfold int32; lia) (room_r c p Hp p (le_n _)) ltac:(discriminate)) as (V1 & E1).
  destruct (ctz_spec c (subs1 c false (zero c) p 1) V1 ltac:(lia)) as (q & s & Eq & Vq & S0 & Es & Oq & Pq). unfold count_trailing_zero in Eq. rewrite Eq. cbn [bind].
  rewrite E1 in Es. destruct (half_split c p Hp Op s (value q) S0 Es Oq) as (S1 & Hh).
  assert (Hq : reduced c p q). { split; [exact Vq|]. pose proof (Z.pow_le_mono_r 2 1 s ltac:(lia) ltac:(lia)). clear -Es Pq P3 H. nia. }
  destruct (find_z c p Hp Pp Op) as (z & -> & Hz & Z2 & Gz). cbn [bind]. destruct (modexp_val c p Hp w_odd z q Hz Vq (neg_of_pos c p w_odd q Vq Pq)) as (cc & -> & Rc & Ec). cbn [bind].
  destruct (subs1_spec c false (zero c) q 1 Zs Vq ltac:(unfold int32; lia) (room_r c p Hp q (red_size c p Hp q Hq)) ltac:(discriminate)) as (V2 & E2).
  destruct (divs1_spec c (zero c) _ 2 Zs V2 ltac:(unfold int32; lia) ltac:(lia)) as (e & Ee & Ve & Ev). rewrite Ee. cbn [bind].
  assert (Ne : neg e = false). { apply (divs1_pos c (zero c) _ 2 e) in Ee; [exact Ee| |reflexivity|lia]. apply subs1_pos; [exact Vq|apply (neg_of_pos c p w_odd); assumption|exact Pq]. }
  rewrite E2, Z.quot_div_nonneg in Ev by lia.
  assert (Q2 : value q = 2 * value e + 1). { rewrite Ev. rewrite Zodd_mod in Oq. apply Zeq_bool_eq in Oq. pose proof (Z_div_mod_eq_full (value q) 2) as D. rewrite Oq in D.
    assert (X : (value q - 1) / 2 = value q / 2) by (symmetry; apply (Zdiv_unique_full _ _ _ 0); [left; lia|lia]) || assert (X : (value q - 1) / 2 = value q / 2) by (apply (Z.div_unique_exact); lia). lia. }
  destruct (wide_modexp n e Hn Ve Ne) as (r & -> & Rr & Er & _). cbn [bind].
  destruct (wide_sqr r Rr) as (r2 & -> & R2). cbn [bind]. destruct (rep_eqm c p Hp w_odd _ _ R2) as (Rr2 & Er2).
  destruct (wide_mul r2 n (red_wide _ Rr2) Hn) as (t & -> & Rt0). cbn [bind]. destruct (rep_eqm c p Hp w_odd _ _ Rt0) as (Rt & Et).
  destruct (wide_mul n r Hn Rr) as (r' & -> & Rr0). cbn [bind]. destruct (rep_eqm c p Hp w_odd _ _ Rr0) as (Rr' & Er').
  assert (E0 : 0 <= value e) by (rewrite Ev; apply Z.div_pos; lia).
  assert (Tq : value t == value n ^ value q).
  { rewrite Et, Er2, Er, <- Z.pow_add_r by lia. replace (value n ^ (value e + value e) * value n) with (value n ^ Z.succ (value e + value e)) by (rewrite Z.pow_succ_r by lia; ring). apply cgr_eq. f_equal. lia. }
  apply (tonelli_val c p Hp Pp Op (value n) (Z.to_nat s) cc r' t (Z.to_nat s) Rc Rr' Rt).
  - lia.
  - rewrite Er', Et, Er2. apply cgr_eq. ring.
  - rewrite Tq, <- Z.pow_mul_r, <- Hh by (try apply Z.pow_nonneg; lia). rewrite (gs_power p Pp Op _ N0), (square_gs p Pp Op _ N0 Sq). reflexivity.
  - assert (Zn : value z <> 0) by lia.
    rewrite Ec, <- Z.pow_mul_r, <- Hh by (try apply Z.pow_nonneg; lia). rewrite (gs_power p Pp Op _ (red_ndiv c p w_odd z Hz Zn)), Gz. reflexivity.
Qed.
Lemma wide_fp_sqrt n : wide n ->
  exists r, fp_sqrt c n p = Ok r /\ reduced c p r /\ (square_mod (value n) P -> (value r * value r) mod P = value n mod P) /\ (~ square_mod (value n) P -> value r = 0).
Proof.
  intros Hn. pose proof Hn as (Vn & Rn & Sn). unfold fp_sqrt.
  destruct (jacobi_prime_claim c n p Vn Vp Pp ltac:(lia)) as (j & -> & J0 & J1 & J2). cbn [bind].
  destruct (Z.eqb_spec j 1) as [E|E]; cbn [negb].
  - destruct (proj1 J1 E) as (D & Sq).
    destruct (mods1_spec c (zero c) p 4 (zst c p Hp) Vp ltac:(unfold int32; lia) ltac:(lia)) as (p4 & -> & V4 & E4 & _). cbn [bind]. rewrite Z.rem_mod_nonneg in E4 by lia.
    pose proof (compares1_spec c p4 3 V4 ltac:(unfold int32; lia)) as C. unfold cmp_result in C. destruct (Z.eqb_spec (compares1 p4 3) 0) as [Q|Q].
    + destruct (wide_sqrt34 n Hn D Sq ltac:(lia)) as (e & -> & r & Er & Hr & R). cbn [bind]. exists r. split; [exact Er|]. split; [exact Hr|]. split; [intros _; apply cgr_sq; exact R|intros Ns; contradiction].
    + destruct (wide_sqrt_general n Hn D Sq) as (r & Er & Hr & R). exists r. split; [exact Er|]. split; [exact Hr|]. split; [intros _; apply cgr_sq; exact R|intros Ns; contradiction].
  - destruct (zero_red c p Hp) as (Z1 & Z2). exists (of_int c 0). split; [reflexivity|]. split; [exact Z1|]. rewrite Z2. split; [|reflexivity]. intros Sq.
    assert (D : (P | value n)). { destruct (Zdivide_dec P (value n)) as [D|D]; [exact D|]. exfalso. apply E, J1. split; assumption. }
    apply Zdivide_mod in D. rewrite D. reflexivity.
Qed.
Definition wide_fe (x : fe) : Prop := fm x = Some p /\ wide (fv x).
Lemma wide_fe_sqrt x : wide_fe x ->
  exists r, fe_sqrt c x = Ok r /\ elem c p r /\ (square_mod (value (fv x)) P -> (value (fv r) * value (fv r)) mod P = value (fv x) mod P) /\
    (~ square_mod (value (fv x)) P -> value (fv r) = 0).
Proof.
  intros (Ex & Hx). pose proof Hx as (Vx & _). unfold fe_sqrt, with_m. rewrite (is_one_value c) by exact Vx. destruct (Z.eqb_spec (value (fv x)) 1) as [E|E].
  - exists x. split; [reflexivity|]. split; [split; [exact Ex|split; [exact Vx|lia]]|]. rewrite E. split; [reflexivity|]. intros N. exfalso. apply N. exists 1. reflexivity.
  - rewrite Ex. destruct (wide_fp_sqrt (fv x) Hx) as (r & -> & Hr & A & B0). cbn [bind]. eexists. split; [reflexivity|]. cbn [fv]. split; [split; [reflexivity|exact Hr]|]. auto.
Qed.
Lemma wide_fe_sqr x : wide_fe x -> returns c p (fe_sqr c x) (value (fv x) * value (fv x)).
Proof.
  intros (Ex & Hx). pose proof Hx as (Vx & _). unfold fe_sqr, with_m. rewrite (is_one_value c) by exact Vx. destruct (Z.eqb_spec (value (fv x)) 1) as [E|E].
  - exists x. split; [reflexivity|]. split; [split; [exact Ex|split; [exact Vx|lia]]|]. rewrite E. symmetry. apply Z.mod_small. lia.
  - rewrite Ex. unfold fp_sqr, fp_mul. destruct (wide_mul (fv x) (fv x) Hx Hx) as (r & -> & R). cbn [bind]. eexists. split; [reflexivity|]. apply denotes_of. exact R.
Qed.
Lemma wide_fe_mul t x : elem c p t -> wide_fe x -> exists r, fe_mul c t x = Ok r /\ wide_fe r /\ value (fv r) mod P = (value (fv t) * value (fv x)) mod P.
Proof.
  intros (Et & Ht) (Ex & Hx). pose proof Hx as (Vx & _). pose proof (red_wide _ Ht) as Wt. pose proof Ht as (Vt & Rt).
  unfold fe_mul, fe_mul_big, with_m. rewrite !(is_one_value c) by assumption. rewrite Et. cbn [bind]. destruct (Z.eqb_spec (value (fv t)) 1) as [E|E].
  - eexists. split; [reflexivity|]. split; [split; [reflexivity|exact Hx]|]. cbn [fv]. rewrite E. f_equal. lia.
  - destruct (Z.eqb_spec (value (fv x)) 1) as [E'|E'].
    + exists t. split; [reflexivity|]. split; [split; assumption|]. rewrite E'. f_equal. lia.
    + unfold fp_mul. destruct (wide_mul (fv t) (fv x) Wt Hx) as (r & -> & R & Er). cbn [bind]. eexists. split; [reflexivity|]. cbn [fv]. split; [split; [reflexivity|apply red_wide; exact R]|]. rewrite Er. apply Z.mod_mod. lia.
Qed.
Lemma wide_fe_add t b : wide_fe t -> reduced c p b -> exists r, fe_add_big c t b = Ok r /\ wide_fe r /\ value (fv r) mod P = (value (fv t) + value b) mod P.
Proof.
  intros (Et & Ht) Hb. pose proof Ht as (Vt & Rt & St). pose proof Hb as (Vb & Rb). unfold fe_add_big, with_m. rewrite Et. cbn [bind]. eexists. split; [reflexivity|]. cbn [fv].
  unfold fp_add, fp_add_tail. destruct (op_add_val c p Hp (fv t) b Vt Vb St (red_size c p Hp b Hb)) as (V & E). set (s := op_add c (fv t) b) in *.
  pose proof (compare_spec c s p V Vp) as C. unfold cmp_result in C. destruct (Z.geb_spec (compare s p) 0).
  - assert (NS : neg s = false) by (apply (neg_of_pos c p w_odd); [exact V|lia]). assert (NP : neg p = false) by (apply (neg_of_pos c p w_odd); [exact Vp|lia]).
    destruct (sub_same_claim c s s p V V Vp ltac:(congruence)) as (V' & E'). split.
    + split; [reflexivity|]. cbn [fv]. split; [exact V'|]. split; [lia|]. pose proof (size_le c (sub c s s p) (fv t) V' Vt ltac:(lia)). lia.
    + rewrite E', E. replace (value (fv t) + value b - P) with (value (fv t) + value b + (-1) * P) by lia. apply Z_mod_plus_full.
  - split; [|rewrite E; reflexivity]. split; [reflexivity|]. cbn [fv]. apply red_wide. split; [exact V|lia].
Qed.
End WIDE.
