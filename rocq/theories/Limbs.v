(** Arithmetic modulo an odd number on lists of 28-bit limbs held in machine integers, for evaluating the
    certificates of the named curves.  No code of the library is modelled here.  Every operation that could
    leave its range checks and returns [None], so the lemmas need no bounds on the numbers. *)
From Coq Require Import List ZArith Znumtheory Zpow_facts Bool Lia Uint63.
Import ListNotations.
Open Scope Z_scope.

Definition mask : int := 268435455%uint63.
Definition sh : int := 28%uint63.
(** the number a list of limbs stands for *)
Fixpoint V (l : list int) : Z := match l with [] => 0 | x :: l => to_Z x + 2 ^ 28 * V l end.
(** acc + a b + m p *)
Fixpoint inner (a m : int) (acc b p : list int) : list int :=
  match acc, b, p with
  | x :: acc, y :: b, z :: p => (x + a * y + m * z)%uint63 :: inner a m acc b p
  | _, _, _ => []
  end.
(** division by 2^28 of a multiple *)
Definition push (l : list int) : option (list int) :=
  match l with
  | x :: y :: l => if (x land mask =? 0)%uint63 then Some ((y + (x >> sh))%uint63 :: l ++ [0%uint63]) else None
  | _ => None
  end.
Fixpoint outer (p' : int) (p b a acc : list int) : option (list int) :=
  match a with
  | [] => Some acc
  | x :: a =>
      match acc, b with
      | c :: _, y :: _ =>
          let m := (((c + x * y) * p') land mask)%uint63 in
          match push (inner x m acc b p) with Some acc => outer p' p b a acc | None => None end
      | _, _ => None
      end
  end.
(** carries *)
Fixpoint norm (c : int) (l : list int) : option (list int) :=
  match l with
  | [] => if (c =? 0)%uint63 then Some [] else None
  | x :: l => let t := (x + c)%uint63 in match norm (t >> sh)%uint63 l with Some r => Some ((t land mask)%uint63 :: r) | None => None end
  end.
Definition zeros (l : list int) : list int := map (fun _ => 0%uint63) l.
Fixpoint zip_add (a b : list int) : list int := match a, b with x :: a, y :: b => (x + y)%uint63 :: zip_add a b | _, _ => [] end.
(** c + a - b *)
Fixpoint zip_sub (c a b : list int) : option (list int) :=
  match c, a, b with
  | z :: c, x :: a, y :: b => if (y <=? z)%uint63 then match zip_sub c a b with Some r => Some ((x + (z - y))%uint63 :: r) | None => None end else None
  | _, _, _ => Some []
  end.
(** limbs of a number *)
Fixpoint limbs (k : nat) (z : Z) : list int :=
  match k with O => [] | S k => of_Z (Z.land z 268435455) :: limbs k (Z.shiftr z 28) end.

(** a modulus: its limbs, the negated inverse of the low limb, a multiple of it with large limbs for subtraction *)
Record modulus := mkmod { m_p : list int; m_inv : int; m_c : list int }.
Definition mulm (m : modulus) (a b : list int) : option (list int) :=
  match outer (m_inv m) (m_p m) b a (zeros (m_p m)) with Some acc => norm 0%uint63 acc | None => None end.
Definition addm (a b : list int) : option (list int) := norm 0%uint63 (zip_add a b).
Definition subm (m : modulus) (a b : list int) : option (list int) := match zip_sub (m_c m) a b with Some l => norm 0%uint63 l | None => None end.
Definition below (k : int) (l : list int) : bool := forallb (fun x => (x <? k)%uint63) l.
Definition mod_ok (m : modulus) : bool :=
  (length (m_p m) <=? 24)%nat && (length (m_c m) =? length (m_p m))%nat && below 268435456%uint63 (m_p m) && below 1099511627776%uint63 (m_c m)
  && (1 <? V (m_p m)) && Z.odd (V (m_p m)) && (V (m_c m) mod V (m_p m) =? 0).
Definition inject (m : modulus) (z : Z) : list int := limbs (length (m_p m)) ((z * 2 ^ (28 * Z.of_nat (length (m_p m)))) mod V (m_p m)).

Definition lt_all (K : Z) (l : list int) : Prop := Forall (fun x => to_Z x < K) l.
Lemma wB_eq : wB = 2 ^ 63. Proof. reflexivity. Qed.
Lemma pos x : 0 <= to_Z x. Proof. apply to_Z_bounded. Qed.
Lemma add_z x y : to_Z x + to_Z y < 2 ^ 63 -> to_Z (x + y)%uint63 = to_Z x + to_Z y.
Proof. intros H. rewrite add_spec. apply Z.mod_small. pose proof (pos x). pose proof (pos y). rewrite wB_eq. lia. Qed.
Lemma mul_z x y : to_Z x * to_Z y < 2 ^ 63 -> to_Z (x * y)%uint63 = to_Z x * to_Z y.
Proof. intros H. rewrite mul_spec. apply Z.mod_small. pose proof (pos x). pose proof (pos y). rewrite wB_eq. nia. Qed.
Lemma mask_z x : to_Z (x land mask)%uint63 = to_Z x mod 2 ^ 28.
Proof. rewrite land_spec'. change (to_Z mask) with (Z.ones 28). apply Z.land_ones. lia. Qed.
Lemma mask_lt x : to_Z (x land mask)%uint63 < 2 ^ 28.
Proof. rewrite mask_z. apply Z.mod_pos_bound. lia. Qed.
Lemma shr_z x : to_Z (x >> sh)%uint63 = to_Z x / 2 ^ 28.
Proof. rewrite lsr_spec. reflexivity. Qed.
Lemma shr_lt x k : 0 <= k -> to_Z x < 2 ^ (28 + k) -> to_Z (x >> sh)%uint63 < 2 ^ k.
Proof. intros K H. rewrite shr_z. apply Z.div_lt_upper_bound; [lia|]. rewrite <- Z.pow_add_r by lia. exact H. Qed.
Lemma V_pos l : 0 <= V l.
Proof. induction l as [|x l IH]; cbn [V]; [lia|]. pose proof (pos x). lia. Qed.

Lemma prod_lt a b : to_Z a < 2 ^ 28 -> to_Z b < 2 ^ 28 -> to_Z a * to_Z b < 2 ^ 56.
Proof.
  intros A B. pose proof (pos a). pose proof (pos b). change (2 ^ 56) with (2 ^ 28 * 2 ^ 28). apply Z.le_lt_trans with (2 ^ 28 * to_Z b).
  - apply Z.mul_le_mono_nonneg_r; lia.
  - apply Z.mul_lt_mono_pos_l; lia.
Qed.
Lemma inner_ok a m : to_Z a < 2 ^ 28 -> to_Z m < 2 ^ 28 -> forall acc b p K, length b = length acc -> length p = length acc -> lt_all (2 ^ 28) b -> lt_all (2 ^ 28) p ->
  lt_all K acc -> K + 2 ^ 57 <= 2 ^ 63 ->
  length (inner a m acc b p) = length acc /\ V (inner a m acc b p) = V acc + to_Z a * V b + to_Z m * V p /\ lt_all (K + 2 ^ 57) (inner a m acc b p).
Proof.
  intros A M. induction acc as [|x acc IH]; intros b p K LB LP WB WP HK KB; destruct b as [|y b]; try discriminate; destruct p as [|z p]; try discriminate; cbn [inner length V].
  - split; [reflexivity|]. split; [lia|constructor].
  - inversion WB as [|? ? By WB']; subst. inversion WP as [|? ? Bz WP']; subst. inversion HK as [|? ? Bx HK']; subst.
    destruct (IH b p K ltac:(cbn in LB; lia) ltac:(cbn in LP; lia) WB' WP' HK' KB) as (L & E & B). pose proof (prod_lt a y A By) as Q1. pose proof (prod_lt m z M Bz) as Q2.
    assert (E1 : to_Z (a * y)%uint63 = to_Z a * to_Z y) by (apply mul_z; lia). assert (E2 : to_Z (m * z)%uint63 = to_Z m * to_Z z) by (apply mul_z; lia).
    assert (E3 : to_Z (x + a * y)%uint63 = to_Z x + to_Z a * to_Z y) by (rewrite add_z; lia).
    assert (E4 : to_Z (x + a * y + m * z)%uint63 = to_Z x + to_Z a * to_Z y + to_Z m * to_Z z) by (rewrite add_z; lia).
    split; [lia|]. split; [rewrite E, E4; ring|]. constructor; [lia|exact B].
Qed.
Lemma V_app l : V (l ++ [0%uint63]) = V l.
Proof. induction l as [|x l IH]; cbn [V app]; [reflexivity|]. rewrite IH. reflexivity. Qed.
Lemma push_ok l r K : push l = Some r -> lt_all K l -> K + 2 ^ 35 <= 2 ^ 63 -> length r = length l /\ V r * 2 ^ 28 = V l /\ lt_all (K + 2 ^ 35) r.
Proof.
  unfold push. destruct l as [|x [|y l]]; try discriminate. destruct (x land mask =? 0)%uint63 eqn:E; [|discriminate]. intros H HK KB. injection H as <-.
  apply eqb_correct in E. apply (f_equal to_Z) in E. rewrite mask_z in E. change (to_Z 0) with 0 in E. inversion HK as [|? ? Bx HK1]; subst. inversion HK1 as [|? ? By HK2]; subst.
  pose proof (shr_lt x 35 ltac:(lia) ltac:(change (28 + 35) with 63; pose proof (to_Z_bounded x); rewrite wB_eq in *; lia)) as Bs.
  assert (E1 : to_Z (y + (x >> sh))%uint63 = to_Z y + to_Z x / 2 ^ 28) by (rewrite add_z, shr_z; [reflexivity|lia]).
  split; [cbn [length]; rewrite app_length; cbn; lia|]. split.
  - cbn [V]. rewrite V_app, E1. pose proof (Z.div_mod (to_Z x) (2 ^ 28) ltac:(lia)). lia.
  - constructor; [rewrite shr_z in Bs; lia|]. apply Forall_app. split; [eapply Forall_impl; [|exact HK2]; cbn beta; intros; lia|]. constructor; [|constructor]. change (to_Z 0) with 0. pose proof (pos x). lia.
Qed.
Lemma outer_ok p' p b : lt_all (2 ^ 28) p -> lt_all (2 ^ 28) b -> length b = length p -> forall a acc r K, outer p' p b a acc = Some r -> lt_all (2 ^ 28) a -> length acc = length p ->
  0 <= K -> lt_all K acc -> K + Z.of_nat (length a) * (2 ^ 57 + 2 ^ 35) <= 2 ^ 63 ->
  length r = length p /\ (exists M, V r * 2 ^ (28 * Z.of_nat (length a)) = V acc + V a * V b + M * V p) /\ lt_all (K + Z.of_nat (length a) * (2 ^ 57 + 2 ^ 35)) r.
Proof.
  intros WP WB LB. induction a as [|x a IH]; intros acc r K H WA LA K0 HK KB.
  - cbn [outer length V] in *. injection H as <-. split; [exact LA|]. split; [exists 0; lia|]. replace (K + Z.of_nat 0 * (2 ^ 57 + 2 ^ 35)) with K by lia. exact HK.
  - cbn [outer] in H. destruct acc as [|c acc']; [discriminate|]. destruct b as [|y b']; [discriminate|]. set (b := y :: b') in *. set (acc := c :: acc') in *.
    set (m := (((c + x * y) * p') land mask)%uint63) in *. destruct (push (inner x m acc b p)) as [acc1|] eqn:E; [|discriminate].
    inversion WA as [|? ? Bx WA']; subst x0 l. assert (KL : K + (2 ^ 57 + 2 ^ 35) <= 2 ^ 63) by (cbn [length] in KB; lia).
    destruct (inner_ok x m Bx (mask_lt _) acc b p K ltac:(lia) ltac:(lia) WB WP HK ltac:(lia)) as (L1 & V1 & B1).
    destruct (push_ok _ _ _ E B1 ltac:(lia)) as (L2 & V2 & B2).
    destruct (IH acc1 r (K + 2 ^ 57 + 2 ^ 35) H WA' ltac:(lia) ltac:(lia) B2 ltac:(cbn [length] in KB; lia)) as (L3 & (M & V3) & B3).
    split; [exact L3|]. split.
    + exists (to_Z m + 2 ^ 28 * M). cbn [length V]. rewrite Nat2Z.inj_succ. replace (28 * Z.succ (Z.of_nat (length a))) with (28 * Z.of_nat (length a) + 28) by lia. rewrite Z.pow_add_r, Z.mul_assoc, V3 by lia.
      rewrite !Z.mul_add_distr_r, V2, V1. ring.
    + eapply Forall_impl; [|exact B3]. cbn beta. intros v Hv. cbn [length]. lia.
Qed.
Lemma norm_ok : forall l c r, norm c l = Some r -> to_Z c < 2 ^ 36 -> lt_all (2 ^ 62) l -> length r = length l /\ V r = to_Z c + V l /\ lt_all (2 ^ 28) r.
Proof.
  induction l as [|x l IH]; intros c r H Hc HL; cbn [norm] in H.
  - destruct (c =? 0)%uint63 eqn:E; [|discriminate]. injection H as <-. apply eqb_correct in E. subst c. cbn. split; [reflexivity|]. split; [reflexivity|constructor].
  - inversion HL as [|? ? Bx HL']; subst. assert (E1 : to_Z (x + c)%uint63 = to_Z x + to_Z c) by (apply add_z; lia). destruct (norm ((x + c) >> sh)%uint63 l) as [r1|] eqn:E; [|discriminate]. injection H as <-.
    destruct (IH _ _ E) as (L & EV & B); [apply shr_lt; [lia|rewrite E1; lia]|exact HL'|]. cbn [length V]. split; [lia|]. split; [|constructor; [apply mask_lt|exact B]].
    rewrite EV, mask_z, shr_z, E1. pose proof (Z.div_mod (to_Z x + to_Z c) (2 ^ 28) ltac:(lia)). lia.
Qed.
Lemma zip_add_ok : forall a b, length b = length a -> lt_all (2 ^ 28) a -> lt_all (2 ^ 28) b -> length (zip_add a b) = length a /\ V (zip_add a b) = V a + V b /\ lt_all (2 ^ 62) (zip_add a b).
Proof.
  induction a as [|x a IH]; intros [|y b] L A B; try discriminate; cbn [zip_add length V]; [repeat split; constructor|].
  inversion A as [|? ? Bx A']; subst. inversion B as [|? ? By B']; subst. destruct (IH b ltac:(cbn in L; lia) A' B') as (L1 & E & W). assert (E1 : to_Z (x + y)%uint63 = to_Z x + to_Z y) by (apply add_z; lia).
  split; [lia|]. split; [rewrite E, E1; ring|]. constructor; [lia|exact W].
Qed.
Lemma zip_sub_ok : forall c a b r, zip_sub c a b = Some r -> length a = length c -> length b = length c -> lt_all (2 ^ 40) c -> lt_all (2 ^ 28) a ->
  length r = length c /\ V r + V b = V c + V a /\ lt_all (2 ^ 62) r.
Proof.
  induction c as [|z c IH]; intros [|x a] [|y b] r H LA LB C A; try discriminate; cbn [zip_sub] in H.
  - injection H as <-. cbn. repeat split; constructor.
  - destruct (y <=? z)%uint63 eqn:E; [|discriminate]. destruct (zip_sub c a b) as [r1|] eqn:E1; [|discriminate]. injection H as <-.
    inversion A as [|? ? Bx A']; subst. inversion C as [|? ? Bz C']; subst. destruct (IH a b r1 E1 ltac:(cbn in LA; lia) ltac:(cbn in LB; lia) C' A') as (L & EV & W).
    apply leb_spec in E. pose proof (pos y) as Y0. assert (E2 : to_Z (z - y)%uint63 = to_Z z - to_Z y) by (rewrite sub_spec; apply Z.mod_small; pose proof (to_Z_bounded z); lia).
    assert (E3 : to_Z (x + (z - y))%uint63 = to_Z x + (to_Z z - to_Z y)) by (rewrite add_z; lia).
    cbn [length V]. split; [lia|]. split; [rewrite E3; lia|]. constructor; [lia|exact W].
Qed.
Lemma limbs_ok : forall k z, 0 <= z < 2 ^ (28 * Z.of_nat k) -> length (limbs k z) = k /\ V (limbs k z) = z /\ lt_all (2 ^ 28) (limbs k z).
Proof.
  induction k as [|k IH]; intros z H; cbn [limbs length V].
  - split; [reflexivity|]. cbn in H. split; [lia|constructor].
  - change 268435455 with (Z.ones 28). rewrite Z.land_ones, Z.shiftr_div_pow2 by lia.
    assert (E : to_Z (of_Z (z mod 2 ^ 28)) = z mod 2 ^ 28). { rewrite of_Z_spec. apply Z.mod_small. pose proof (Z.mod_pos_bound z (2 ^ 28) ltac:(lia)). rewrite wB_eq. lia. }
    destruct (IH (z / 2 ^ 28)) as (L & EV & B).
    { split; [apply Z.div_pos; lia|]. apply Z.div_lt_upper_bound; [lia|]. rewrite <- Z.pow_add_r by lia. replace (28 + 28 * Z.of_nat k) with (28 * Z.of_nat (S k)) by lia. lia. }
    split; [lia|]. split; [rewrite EV, E; pose proof (Z.div_mod z (2 ^ 28) ltac:(lia)); lia|]. constructor; [rewrite E; apply Z.mod_pos_bound; lia|exact B].
Qed.
Lemma below_ok k l : below k l = true -> lt_all (to_Z k) l.
Proof. unfold below. rewrite forallb_forall. intros H. apply Forall_forall. intros x Hx. apply ltb_spec. apply H, Hx. Qed.

(** *** the limbs of z 2^(28 k) modulo p represent z *)
Section REP.
Variable m : modulus.
Hypothesis MO : mod_ok m = true.
Notation p := (V (m_p m)).
Notation L := (length (m_p m)).
Definition RR : Z := 2 ^ (28 * Z.of_nat (length (m_p m))).
Definition rep (a : list int) (z : Z) : Prop := length a = L /\ lt_all (2 ^ 28) a /\ (p | V a - z * RR).
Lemma mod_parts : (L <= 24)%nat /\ length (m_c m) = L /\ lt_all (2 ^ 28) (m_p m) /\ lt_all (2 ^ 40) (m_c m) /\ 1 < p /\ Z.odd p = true /\ (p | V (m_c m)).
Proof.
  pose proof MO as H. unfold mod_ok in H. repeat match type of H with (_ && _) = true => let K := fresh "K" in apply andb_prop in H; destruct H as [H K] end.
  apply Nat.leb_le in H. apply Nat.eqb_eq in K4. apply Z.ltb_lt in K1. apply Z.eqb_eq in K.
  split; [exact H|]. split; [exact K4|]. split; [exact (below_ok _ _ K3)|]. split; [exact (below_ok _ _ K2)|]. split; [exact K1|]. split; [exact K0|]. apply Z.mod_divide; [lia|exact K].
Qed.
Lemma RR_prime : rel_prime RR p.
Proof.
  destruct mod_parts as (_ & _ & _ & _ & P1 & O & _). unfold RR. apply rel_prime_sym, rel_prime_Zpower_r; [lia|]. apply rel_prime_sym, prime_rel_prime; [exact prime_2|].
  intros [k K]. rewrite K, Z.odd_mul in O. rewrite andb_false_r in O. discriminate.
Qed.
Lemma cancel_RR z : (p | z * RR) -> (p | z).
Proof. intros H. apply Gauss with RR; [rewrite Z.mul_comm; exact H|apply rel_prime_sym, RR_prime]. Qed.
Lemma rep_mul a b r x y : mulm m a b = Some r -> rep a x -> rep b y -> rep r (x * y).
Proof.
  intros H (LA & WA & DA) (LB & WB & DB). destruct mod_parts as (P24 & _ & WP & _ & P1 & _ & _). unfold mulm in H. destruct (outer (m_inv m) (m_p m) b a (zeros (m_p m))) as [acc|] eqn:E; [|discriminate].
  assert (ZL : length (zeros (m_p m)) = L) by (unfold zeros; apply map_length). assert (Z0 : V (zeros (m_p m)) = 0 /\ lt_all 1 (zeros (m_p m))).
  { unfold zeros. generalize (m_p m). induction l as [|u l [I1 I2]]; cbn [map V]; [split; [reflexivity|constructor]|]. split; [rewrite I1; reflexivity|constructor; [cbn; lia|exact I2]]. }
  destruct Z0 as (Z0 & Z1).
  destruct (outer_ok _ _ _ WP WB LB a _ _ 1 E WA ZL ltac:(lia) Z1 ltac:(rewrite LA; lia)) as (L1 & (M & V1) & B1).
  assert (B2 : lt_all (2 ^ 62) acc) by (eapply Forall_impl; [|exact B1]; cbn beta; intros v Hv; rewrite LA in Hv; lia).
  destruct (norm_ok _ _ _ H ltac:(cbn; lia) B2) as (L2 & V2 & B3). split; [lia|]. split; [exact B3|]. change (to_Z 0) with 0 in V2. rewrite Z.add_0_l in V2. rewrite V2.
  rewrite LA in V1. fold RR in V1. rewrite Z0, Z.add_0_l in V1. apply cancel_RR. destruct DA as [u U]. destruct DB as [v W].
  replace ((V acc - x * y * RR) * RR) with (V acc * RR - (x * RR) * (y * RR)) by ring. rewrite V1. exists (M + u * V b + v * V a - u * v * p).
  replace (x * RR) with (V a - u * p) by lia. replace (y * RR) with (V b - v * p) by lia. ring.
Qed.
Lemma rep_add a b r x y : addm a b = Some r -> rep a x -> rep b y -> rep r (x + y).
Proof.
  intros H (LA & WA & DA) (LB & WB & DB). unfold addm in H. destruct (zip_add_ok a b ltac:(lia) WA WB) as (L1 & V1 & B1). destruct (norm_ok _ _ _ H ltac:(cbn; lia) B1) as (L2 & V2 & B2).
  split; [lia|]. split; [exact B2|]. rewrite V2, V1. change (to_Z 0) with 0. replace (0 + (V a + V b) - (x + y) * RR) with ((V a - x * RR) + (V b - y * RR)) by ring. apply Z.divide_add_r; assumption.
Qed.
Lemma rep_sub a b r x y : subm m a b = Some r -> rep a x -> rep b y -> rep r (x - y).
Proof.
  intros H (LA & WA & DA) (LB & WB & DB). destruct mod_parts as (_ & LC & _ & WC & _ & _ & DC). unfold subm in H. destruct (zip_sub (m_c m) a b) as [l|] eqn:E; [|discriminate].
  destruct (zip_sub_ok _ _ _ _ E ltac:(lia) ltac:(lia) WC WA) as (L1 & V1 & B1). destruct (norm_ok _ _ _ H ltac:(cbn; lia) B1) as (L2 & V2 & B2).
  split; [lia|]. split; [exact B2|]. change (to_Z 0) with 0 in V2. replace (V r - (x - y) * RR) with (V (m_c m) + (V a - x * RR) - (V b - y * RR)) by lia.
  apply Z.divide_sub_r; [apply Z.divide_add_r|]; assumption.
Qed.
Lemma p_le_RR : p < RR.
Proof.
  destruct mod_parts as (_ & _ & WP & _). unfold RR. clear MO. induction (m_p m) as [|x l IH]; cbn [V length]; [cbn; lia|]. inversion WP as [|? ? Bx W]; subst. specialize (IH W).
  rewrite Nat2Z.inj_succ. replace (28 * Z.succ (Z.of_nat (length l))) with (28 + 28 * Z.of_nat (length l)) by lia. rewrite Z.pow_add_r by lia. nia.
Qed.
Lemma rep_inject z : rep (inject m z) z.
Proof.
  destruct mod_parts as (_ & _ & WP & _ & P1 & _ & _). unfold inject. fold RR. pose proof (Z.mod_pos_bound (z * RR) p ltac:(lia)) as B.
  destruct (limbs_ok L ((z * RR) mod p)) as (L1 & V1 & W1); [pose proof p_le_RR; unfold RR in *; lia|]. split; [exact L1|]. split; [exact W1|]. rewrite V1.
  exists (- (z * RR / p)). pose proof (Z.div_mod (z * RR) p ltac:(lia)). lia.
Qed.
(** any limbs represent some number *)
Lemma rep_any a : length a = L -> lt_all (2 ^ 28) a -> exists z, rep a z.
Proof.
  intros LA WA. destruct (rel_prime_bezout _ _ RR_prime) as [u v E]. exists (V a * u). split; [exact LA|]. split; [exact WA|]. exists (V a * v). 
  replace (V a - V a * u * RR) with (V a * (1 - u * RR)) by ring. replace (1 - u * RR) with (v * p) by lia. ring.
Qed.
Lemma rep_zero a z : rep a z -> V a mod p = 0 -> (p | z).
Proof.
  intros (_ & _ & D) H. destruct mod_parts as (_ & _ & _ & _ & P1 & _ & _). apply Z.mod_divide in H; [|lia]. apply cancel_RR. replace (z * RR) with (V a - (V a - z * RR)) by ring. apply Z.divide_sub_r; assumption.
Qed.
Lemma rep_unit a z w : rep a z -> (V a * w) mod p = 1 -> rel_prime z p.
Proof.
  intros (_ & _ & [k D]) H. destruct mod_parts as (_ & _ & _ & _ & P1 & _ & _). apply bezout_rel_prime. exists (RR * w) (k * w - (V a * w) / p).
  pose proof (Z.div_mod (V a * w) p ltac:(lia)) as E. rewrite H in E. replace (RR * w * z) with (z * RR * w) by ring. replace (z * RR) with (V a - k * p) by lia. 
  replace 1 with (V a * w - p * (V a * w / p)) by lia. ring.
Qed.
End REP.
