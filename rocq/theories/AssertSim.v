(** Builds with assertions: a run at any capacity in which no assertion fails is the run of the release
    build with unbounded storage. *)
From Coq Require Import List ZArith Bool Lia PeanoNat.
From Coq Require Import ZifyBool ZifyNat ZifyN.
From Verif Require Import Outcome LoopModel LoopProofs BitLemmas WordsModel WordsSpec WordsProofs DivProofs
  UtilsSpec BigintModel BigintSpec BigintProofs BigintBits BigintBytes BigintClosure BigintClaims NumModel NumProofs NumPow NumLcm AssertModel AssertSpec AssertProofs AssertRefine.
Import ListNotations.
Open Scope Z_scope.

Definition F : cap := Flex 1.
Definition lift (x : bigint) : bigint := mk (words x) (size x) (neg x).
Definition tie (c : cap) (x x' : bigint) : Prop := valid c x /\ valid F x' /\ value x = value x' /\ neg x = neg x'.

Lemma lift_tie c x : valid c x -> tie c x (lift x).
Proof.
  intros H. destruct (words_valid c x H) as (W & L & N). pose proof H as (_ & S & T).
  assert (E : firstn (size x) (words x) = words x) by (apply firstn_all2; lia).
  split; [exact H|]. split; [|split; [unfold value, magnitude; cbn [lift mem size neg]; rewrite E; reflexivity|reflexivity]].
  split; [split; [exact W|cbn [lift mem]; cbn; lia]|]. cbn [lift mem size]. split; [lia|]. intros Q. rewrite <- (nth_last_words c x H) in T. specialize (T Q).
  destruct (exists_snoc _ N) as (l & a & El). rewrite El in T, L |- *. rewrite last_snoc in T. rewrite app_length in L. cbn [length] in L.
  rewrite app_nth2 by lia. replace (size x - 1 - length l)%nat with 0%nat by lia. exact T.
Qed.

Lemma tie_mag c x x' : tie c x x' -> magnitude x = magnitude x'.
Proof. intros (_ & _ & V & N). rewrite !value_sgn, N in V. destruct (neg x'); cbn [sgn] in V; lia. Qed.
Lemma tie_size c x x' : tie c x x' -> size x = size x'.
Proof.
  intros T. pose proof (tie_mag c x x' T) as M. destruct T as (V & V' & _). pose proof V as (_ & S & _). pose proof V' as (_ & S' & _).
  pose proof (proj2 (size_le_iff c x (size x') V ltac:(lia))). pose proof (proj2 (size_le_iff F x' (size x) V' ltac:(lia))).
  pose proof (magnitude_range c x V). pose proof (magnitude_range F x' V'). rewrite M in *. lia.
Qed.
Lemma tie_word0 c x x' : tie c x x' -> word0 x = word0 x'.
Proof. intros T. pose proof (tie_mag c x x' T) as M. destruct T as (V & V' & _). rewrite (word0_mod c x V), (word0_mod F x' V'), M. reflexivity. Qed.
Lemma tie_zero c x x' : tie c x x' -> is_zero x = is_zero x'.
Proof. intros T. unfold is_zero. rewrite (tie_size c x x' T), (tie_word0 c x x' T). reflexivity. Qed.
Lemma tie_one c x x' : tie c x x' -> is_one x = is_one x'.
Proof. intros T. unfold is_one. rewrite (tie_size c x x' T), (tie_word0 c x x' T). destruct T as (_ & _ & _ & ->). reflexivity. Qed.
Lemma tie_fst c x x' : tie c x x' -> valid c x. Proof. intros T. apply T. Qed.
Lemma tie_snd c x x' : tie c x x' -> valid F x'. Proof. intros T. apply T. Qed.
Lemma tie_of c x x' : valid c x -> valid F x' -> value x = value x' -> neg x = neg x' -> tie c x x'.
Proof. intros. do 3 (split; [assumption|]); assumption. Qed.
Lemma roomF n : room F n. Proof. exact I. Qed.

(** relation of a run that may stop with a run of the release build *)
Definition sim {A A'} (R : A -> A' -> Prop) (d : outcome A) (f : outcome A') : Prop :=
  match d with Abort => True | Ok v => exists v', f = Ok v' /\ R v v' | UB => f = UB | NoFuel => f = NoFuel end.
Definition lsim {S S' A A'} (R : S -> S' -> Prop) (Q : A -> A' -> Prop) (d : loopres S (outcome A)) (f : loopres S' (outcome A')) : Prop :=
  match d with
  | Next s => exists s', f = Next s' /\ R s s'
  | Done o => o = Abort \/ exists o', f = Done o' /\ sim Q o o'
  end.
Lemma loop2_sim {S S' A A'} (R : S -> S' -> Prop) (Q : A -> A' -> Prop) d f :
  (forall s s', R s s' -> lsim R Q (d s) (f s')) -> forall k s s', R s s' -> lsim R Q (loop2 k d s) (loop2 k f s').
Proof.
  intros H. induction k as [|k IH]; intros s s' HR; cbn [loop2]; [apply H; exact HR|].
  pose proof (IH s s' HR) as I1. destruct (loop2 k d s) as [s1|r]; cbn [lsim] in I1.
  - destruct I1 as (s1' & -> & R1). apply IH. exact R1.
  - cbn [lsim]. destruct I1 as [->|(o' & -> & P)]; [left; reflexivity|right; exists o'; auto].
Qed.
Lemma run_sim {S S' A A'} (R : S -> S' -> Prop) (Q : A -> A' -> Prop) d f k s s' :
  (forall s s', R s s' -> lsim R Q (d s) (f s')) -> R s s' -> sim Q (run_loop k d s) (run_loop k f s').
Proof.
  intros H HR. unfold run_loop. pose proof (loop2_sim R Q d f H k s s' HR) as P. destruct (loop2 k d s) as [s1|r]; cbn [lsim] in P.
  - destruct P as (s1' & -> & _). reflexivity.
  - destruct P as [->|(o' & -> & P)]; [exact I|exact P].
Qed.
Lemma step_sim {S S' A A'} (R : S -> S' -> Prop) (Q : A -> A' -> Prop) (d : outcome (loopres S (outcome A))) f :
  match d with Abort => True | Ok l => lsim R Q l f | UB => f = Done UB | NoFuel => f = Done NoFuel end -> lsim R Q (step_of d) f.
Proof. destruct d; cbn [step_of lsim]; intros H; [exact H|left; reflexivity|right; exists UB; split; [exact H|reflexivity]|right; exists NoFuel; split; [exact H|reflexivity]]. Qed.

(** *** the operations *)
Lemma neg_of_value c x : valid c x -> value x <> 0 -> neg x = (value x <? 0).
Proof. intros V N. pose proof (magnitude_range c x V). rewrite value_sgn in *. destruct (neg x); cbn [sgn] in *; lia. Qed.

Lemma add_signed_neg c z x xN y yN : valid c x -> valid c y ->
  neg (add_signed c z x xN y yN) = if Bool.eqb xN yN then xN else if magnitude y <=? magnitude x then xN else yN.
Proof.
  intros Hx Hy. unfold add_signed. pose proof (ucompare_spec c x y Hx Hy) as C. unfold cmp_result in C.
  destruct (xorb xN yN) eqn:E.
  - replace (Bool.eqb xN yN) with false by (destruct xN, yN; cbn in *; congruence). cbn [negb].
    destruct (Z.leb_spec 0 (ucompare x y)), (Z.leb_spec (magnitude y) (magnitude x)); try lia; reflexivity.
  - replace (Bool.eqb xN yN) with true by (destruct xN, yN; cbn in *; congruence). reflexivity.
Qed.
Lemma sim_add_signed c z z' x x' xN y y' yN : storage_ok c z -> storage_ok F z' -> tie c x x' -> tie c y y' ->
  d_add_signed c z x xN y yN = Abort \/
  d_add_signed c z x xN y yN = Ok (add_signed c z x xN y yN) /\ tie c (add_signed c z x xN y yN) (add_signed F z' x' xN y' yN).
Proof.
  intros Hz Hz' Tx Ty. destruct (d_add_signed_ok c z x xN y yN Hz (tie_fst _ _ _ Tx) (tie_fst _ _ _ Ty)) as [H1 H2].
  rewrite (d_add_signed_eq c z x xN y yN) in * by (eapply tie_fst; eassumption).
  destruct (negb (Bool.eqb xN yN) || can_resize c (Nat.max (size x) (size y) + 1)) eqn:E; [right|left; reflexivity]. split; [reflexivity|].
  assert (R : xN = yN -> room c (Nat.max (size x) (size y) + 1)). { intros ->. rewrite eqb_reflx in E. cbn in E. apply room_can. exact E. }
  destruct (add_signed_spec c z x xN y yN Hz (tie_fst _ _ _ Tx) (tie_fst _ _ _ Ty) R) as (V & Ev).
  destruct (add_signed_spec F z' x' xN y' yN Hz' (tie_snd _ _ _ Tx) (tie_snd _ _ _ Ty) (fun _ => I)) as (V' & Ev').
  apply tie_of; [exact V|exact V'|rewrite Ev, Ev', (tie_mag _ _ _ Tx), (tie_mag _ _ _ Ty); reflexivity|].
  rewrite (add_signed_neg c), (add_signed_neg F) by (first [eapply tie_fst; eassumption|eapply tie_snd; eassumption]). rewrite (tie_mag _ _ _ Tx), (tie_mag _ _ _ Ty). reflexivity.
Qed.
Lemma sim_add c z z' x x' y y' : storage_ok c z -> storage_ok F z' -> tie c x x' -> tie c y y' ->
  d_add c z x y = Abort \/ d_add c z x y = Ok (add c z x y) /\ tie c (add c z x y) (add F z' x' y').
Proof. intros Hz Hz' Tx Ty. unfold d_add, add. rewrite <- (proj2 (proj2 (proj2 Tx))), <- (proj2 (proj2 (proj2 Ty))). apply sim_add_signed; assumption. Qed.
Lemma sim_sub c z z' x x' y y' : storage_ok c z -> storage_ok F z' -> tie c x x' -> tie c y y' ->
  d_sub c z x y = Abort \/ d_sub c z x y = Ok (sub c z x y) /\ tie c (sub c z x y) (sub F z' x' y').
Proof. intros Hz Hz' Tx Ty. unfold d_sub, sub. rewrite <- (proj2 (proj2 (proj2 Tx))), <- (proj2 (proj2 (proj2 Ty))). apply sim_add_signed; assumption. Qed.

Lemma op_mul_neg c x y : room c (size x + size y) -> neg (op_mul c x y) = xorb (neg x) (neg y).
Proof. intros R. unfold op_mul, mul. rewrite (can_true _ _ R). reflexivity. Qed.
Lemma op_mul_val c x y : valid c x -> valid c y -> room c (size x + size y) -> valid c (op_mul c x y) /\ value (op_mul c x y) = value x * value y.
Proof. intros Hx Hy R. unfold op_mul. destruct (mul_spec c false false (zero c) x y (zero_storage c x Hx) Hx Hy R ltac:(discriminate) ltac:(discriminate)) as (r & -> & P). exact P. Qed.
Lemma sim_op_mul c x x' y y' : tie c x x' -> tie c y y' ->
  d_op_mul c x y = Abort \/ d_op_mul c x y = Ok (op_mul c x y) /\ tie c (op_mul c x y) (op_mul F x' y').
Proof.
  intros Tx Ty. unfold d_op_mul, d_mul. destruct (room_dec c (size x + size y)) as [R|R]; [right|left; rewrite (can_false _ _ R); reflexivity].
  rewrite (can_true _ _ R). split; [reflexivity|].
  destruct (op_mul_val c x y (tie_fst _ _ _ Tx) (tie_fst _ _ _ Ty) R) as (V & E). destruct (op_mul_val F x' y' (tie_snd _ _ _ Tx) (tie_snd _ _ _ Ty) (roomF _)) as (V' & E').
  apply tie_of; [exact V|exact V'| |rewrite (op_mul_neg c _ _ R), (op_mul_neg F _ _ (roomF _)); destruct Tx as (_ & _ & _ & ->), Ty as (_ & _ & _ & ->); reflexivity].
  rewrite E, E'. destruct Tx as (_ & _ & -> & _), Ty as (_ & _ & -> & _). reflexivity.
Qed.

Lemma div_mod_neg c q r x y q' r' : div_mod c (Some q) r x y = Ok (true, Some q', r') -> neg q' = xorb (neg x) (neg y) /\ neg r' = neg x.
Proof.
  unfold div_mod. destruct (udiv c (Some q) r x y) as [[[ok q1] r1]| | |]; cbn [bind]; try discriminate. destruct ok; cbn [negb]; [|discriminate].
  destruct q1 as [q1|]; cbn [option_map]; [|discriminate]. intros E. injection E as <- <-. split; reflexivity.
Qed.
Lemma sim_div_mod c r r' x x' y y' : storage_ok c r -> storage_ok F r' -> tie c x x' -> tie c y y' ->
  (d_div_mod c (Some (zero c)) r x y = Abort /\ value y = 0) \/
  exists q e q' e', d_div_mod c (Some (zero c)) r x y = Ok (true, Some q, e) /\ div_mod F (Some (zero F)) r' x' y' = Ok (true, Some q', e') /\ tie c q q' /\ tie c e e'.
Proof.
  intros Hr Hr' Tx Ty. pose proof (tie_fst _ _ _ Tx) as Vx. pose proof (tie_fst _ _ _ Ty) as Vy. pose proof (tie_snd _ _ _ Tx) as Vx'. pose proof (tie_snd _ _ _ Ty) as Vy'.
  rewrite d_div_mod_eq; [|assumption..|apply (zero_storage c x Vx)].
  destruct (Z.eq_dec (value y) 0) as [E|E]; [left; split; [apply div_mod_by_zero; assumption|exact E]|right].
  assert (E' : value y' <> 0) by (destruct Ty as (_ & _ & <- & _); exact E).
  destruct (div_mod_spec c (Some (zero c)) r x y Hr Vx Vy E (zero_storage c x Vx)) as (q & e & D & Ve & Ee & Q). destruct q as [q|]; [|contradiction]. destruct Q as (Vq & Eq).
  destruct (div_mod_spec F (Some (zero F)) r' x' y' Hr' Vx' Vy' E' (zero_storage F x' Vx')) as (q' & e' & D' & Ve' & Ee' & Q'). destruct q' as [q'|]; [|contradiction]. destruct Q' as (Vq' & Eq').
  exists q, e, q', e'. split; [exact D|]. split; [exact D'|]. destruct (div_mod_neg _ _ _ _ _ _ _ D) as (N1 & N2), (div_mod_neg _ _ _ _ _ _ _ D') as (N1' & N2').
  destruct Tx as (_ & _ & Ex & Nx), Ty as (_ & _ & Ey & Ny).
  split; apply tie_of; try assumption; congruence.
Qed.

(** *** modinv *)
Definition otie (c : cap) (o o' : option bigint) : Prop :=
  match o, o' with Some x, Some x' => tie c x x' | None, None => True | _, _ => False end.
Definition stie (c : cap) (s s' : inv_state) : Prop :=
  tie c (iv_s s) (iv_s s') /\ tie c (iv_t s) (iv_t s') /\ tie c (iv_a s) (iv_a s') /\ tie c (iv_b s) (iv_b s').

Lemma sim_add_if_neg c a a' m m' : tie c a a' -> tie c m m' ->
  d_add_if_neg c a m = Abort \/ exists r, d_add_if_neg c a m = Ok r /\ tie c r (add_if_neg F a' m').
Proof.
  intros Ta Tm. unfold d_add_if_neg, add_if_neg. destruct Ta as (V & V' & Ev & En). rewrite <- En. assert (Ta : tie c a a') by (apply tie_of; assumption).
  destruct (neg a); [|right; exists a; auto]. destruct (sim_add c a a' a a' m m' (valid_storage _ _ V) (valid_storage _ _ V') Ta Tm) as [E|[E T]]; [left; exact E|right; eexists; split; [exact E|exact T]].
Qed.

Lemma sim_modinv_step c m m' st st' : tie c m m' -> stie c st st' -> lsim (stie c) (otie c) (d_modinv_step c m st) (modinv_step F m' st').
Proof.
  intros Tm. destruct st as [s t a b], st' as [s' t' a' b']. intros (Ts & Tt & Ta & Tb). cbn [iv_s iv_t iv_a iv_b] in *. unfold d_modinv_step, modinv_step. apply step_sim.
  destruct (sim_div_mod c s s' s s' t t' (valid_storage _ _ (tie_fst _ _ _ Ts)) (valid_storage _ _ (tie_snd _ _ _ Ts)) Ts Tt) as [[-> _]|(q & s1 & q' & s1' & -> & -> & Tq & Ts1)]; [exact I|]. cbn [bind].
  rewrite (tie_zero _ _ _ Ts1), (tie_one _ _ _ Tt). destruct (is_zero s1').
  { destruct (is_one t').
    - destruct (sim_add_if_neg c b b' m m' Tb Tm) as [->|(r & -> & Tr)]; [exact I|]. cbn [bind lsim]. right. eexists. split; [reflexivity|]. cbn [sim]. eexists. split; [reflexivity|]. exact Tr.
    - cbn [lsim]. right. eexists. split; [reflexivity|]. cbn [sim]. exists None. split; [reflexivity|exact I]. }
  destruct (sim_op_mul c b b' q q' Tb Tq) as [->|[-> Tp]]; [exact I|]. cbn [bind].
  destruct (sim_sub c a a' a a' _ _ (valid_storage _ _ (tie_fst _ _ _ Ta)) (valid_storage _ _ (tie_snd _ _ _ Ta)) Ta Tp) as [->|[-> Ta1]]; [exact I|]. cbn [bind].
  set (a1 := sub c a a (op_mul c b q)) in *. set (a1' := sub F a' a' (op_mul F b' q')) in *.
  destruct (sim_div_mod c t t' t t' s1 s1' (valid_storage _ _ (tie_fst _ _ _ Tt)) (valid_storage _ _ (tie_snd _ _ _ Tt)) Tt Ts1) as [[-> _]|(q2 & t1 & q2' & t1' & -> & -> & Tq2 & Tt1)]; [exact I|]. cbn [bind].
  rewrite (tie_zero _ _ _ Tt1), (tie_one _ _ _ Ts1). destruct (is_zero t1').
  { destruct (is_one s1').
    - destruct (sim_add_if_neg c a1 a1' m m' Ta1 Tm) as [->|(r & -> & Tr)]; [exact I|]. cbn [bind lsim]. right. eexists. split; [reflexivity|]. cbn [sim]. eexists. split; [reflexivity|]. exact Tr.
    - cbn [lsim]. right. eexists. split; [reflexivity|]. cbn [sim]. exists None. split; [reflexivity|exact I]. }
  destruct (sim_op_mul c a1 a1' q2 q2' Ta1 Tq2) as [->|[-> Tp2]]; [exact I|]. cbn [bind].
  destruct (sim_sub c b b' b b' _ _ (valid_storage _ _ (tie_fst _ _ _ Tb)) (valid_storage _ _ (tie_snd _ _ _ Tb)) Tb Tp2) as [->|[-> Tb1]]; [exact I|]. cbn [bind lsim].
  eexists. split; [reflexivity|]. split; [exact Ts1|]. split; [exact Tt1|]. split; [exact Ta1|exact Tb1].
Qed.

Lemma d_assign_int_ok c y x : room c 1 -> x <> - 2 ^ 31 -> d_assign_int c y x = Ok (assign_int y x).
Proof.
  intros R N. unfold d_assign_int, d_assign_word. unfold invalid_var. rewrite (proj2 (Z.eqb_neq _ _) N), (can_true _ _ R). reflexivity.
Qed.
Lemma tie_assign c y y' x : storage_ok c y -> storage_ok F y' -> room c 1 -> Z.abs x < B -> tie c (assign_int y x) (assign_int y' x).
Proof.
  intros Hy Hy' R A. destruct (assign_int_spec c y x Hy R A) as (V & E & _). destruct (assign_int_spec F y' x Hy' I A) as (V' & E' & _). apply tie_of; [exact V|exact V'|congruence|reflexivity].
Qed.
Lemma tie_neg c x x' : tie c x x' -> tie c (neg_op x) (neg_op x').
Proof.
  intros T. pose proof (tie_mag _ _ _ T) as M. destruct T as (V & V' & E & N). apply tie_of; [exact V|exact V'| |unfold neg_op; cbn [neg]; congruence].
  unfold value, neg_op in *. cbn [neg] in *. change (magnitude (mk (mem x) (size x) (negb (neg x)))) with (magnitude x). change (magnitude (mk (mem x') (size x') (negb (neg x')))) with (magnitude x'). rewrite M, N. reflexivity.
Qed.

Lemma sim_modinv c y y' x x' m m' : storage_ok c y -> storage_ok F y' -> tie c x x' -> tie c m m' -> sim (otie c) (d_modinv c y x m) (modinv F y' x' m').
Proof.
  intros Hy Hy' Tx Tm. pose proof (tie_fst _ _ _ Tx) as Vx. pose proof (tie_snd _ _ _ Tx) as Vx'. pose proof (valid_room1 c x Vx) as R1.
  unfold d_modinv, modinv. rewrite (tie_zero _ _ _ Tm), (tie_zero _ _ _ Tx), (tie_one _ _ _ Tx), (tie_one _ _ _ Tm).
  destruct (is_zero m'); cbn [negb check bind]; [exact I|].
  assert (B0 : Z.abs 0 < B) by (rewrite B_val; lia). assert (B1 : Z.abs 1 < B) by (rewrite B_val; lia).
  destruct (is_zero x').
  { rewrite d_assign_int_ok by (try exact R1; lia). cbn [bind sim]. eexists. split; [reflexivity|]. destruct (is_one m'); [|exact I]. apply tie_assign; assumption. }
  destruct (is_one x').
  { rewrite d_assign_int_ok by (try exact R1; destruct (is_one m'); lia). cbn [bind sim]. eexists. split; [reflexivity|]. apply tie_assign; try assumption. destruct (is_one m'); assumption. }
  destruct (sim_div_mod c (zero c) (zero F) m m' x x' (zero_storage c x Vx) (zero_storage F x' Vx') Tm Tx) as [[-> _]|(q & t & q' & t' & -> & -> & Tq & Tt)]; [exact I|]. cbn [bind].
  rewrite (tie_zero _ _ _ Tt). destruct (is_zero t'); [cbn [sim]; exists None; split; [reflexivity|exact I]|].
  rewrite (tie_size _ _ _ Tx). apply (run_sim (stie c)); [intros; apply sim_modinv_step; assumption|].
  split; [exact Tx|]. split; [exact Tt|]. split; [|apply tie_neg; exact Tq]. cbn [iv_a]. unfold of_int. apply tie_assign; [apply storage0_ok|apply storage0_ok|exact R1|exact B1].
Qed.

(** *** to_naf *)
Definition ntie (c : cap) (s s' : bigint * list Z) : Prop := tie c (fst s) (fst s') /\ neg (fst s) = false /\ snd s = snd s'.

Lemma d_shr_eq c y x n : valid c x -> 0 <= n -> d_shr c y x n = Ok (shr y x n).
Proof.
  intros Hx Hn. unfold d_shr. destruct (_ <=? _); [reflexivity|]. rewrite can_true; [reflexivity|]. apply (room_le c (size x)); [apply (valid_size_room c x Hx)|lia].
Qed.
Lemma tie_shr1 c x x' : tie c x x' -> neg x = false -> tie c (shr x x 1) (shr x' x' 1) /\ neg (shr x x 1) = false.
Proof.
  intros (V & V' & E & N) H. destruct (shr1_val c x V) as (W & Ew & Nw), (shr1_val F x' V') as (W' & Ew' & Nw'). rewrite <- N in Nw'. split; [|auto].
  apply tie_of; [exact W|exact W'|congruence|rewrite Nw, Nw' by assumption; reflexivity].
Qed.
Lemma subs1_neg c num nd : valid c num -> neg num = false -> 0 <= value num - nd -> int32 nd -> room c (size num + 1) ->
  neg (subs1 c true num num nd) = false.
Proof.
  intros V N P I32 R. destruct (subs1_spec c true num num nd (valid_storage _ _ V) V I32 R ltac:(auto)) as (Vs & Es).
  assert (C : canonical c (subs1 c true num num nd)).
  { unfold subs1. apply add1_signed_canonical; [split; [exact V|auto]|rewrite cabs32_spec; apply int32_abs; exact I32|auto]. }
  destruct (Z.eq_dec (value (subs1 c true num num nd)) 0) as [E0|E0]; [apply C; exact E0|]. rewrite (neg_of_value c _ Vs E0). lia.
Qed.
Lemma subs1_small c num nd : valid c num -> neg num = false -> 0 < nd <= value num -> nd < 2 ^ 31 ->
  valid c (subs1 c true num num nd) /\ value (subs1 c true num num nd) = value num - nd /\ neg (subs1 c true num num nd) = false.
Proof.
  intros V N P L. assert (A : 0 <= cabs32 nd < B) by (rewrite cabs32_spec, B_val; change (2 ^ 31) with 2147483648 in L; lia).
  assert (Ny : (nd <? 0) = false) by lia.
  assert (R : neg num = negb (nd <? 0) -> room c (size num + 1)) by (rewrite N, Ny; discriminate).
  destruct (add1_signed_spec c true num num (cabs32 nd) (negb (nd <? 0)) (valid_storage _ _ V) V A R ltac:(auto)) as (Vs & Es). rewrite Ny, cabs32_spec in Es. cbn [negb sgn] in Es.
  assert (Ew : subs1 c true num num nd = add1_signed c true num num (Z.abs nd) true) by (unfold subs1; rewrite Ny, cabs32_spec; reflexivity). rewrite Ew. rewrite Ny, cabs32_spec in Vs. rewrite cabs32_spec in A. rewrite Ny in R. cbn [negb] in Vs, R. split; [exact Vs|]. split; [lia|].
  assert (C : canonical c (add1_signed c true num num (Z.abs nd) true)) by (apply add1_signed_canonical; [split; [exact V|auto]|exact A|exact R]).
  destruct (Z.eq_dec (value (add1_signed c true num num (Z.abs nd) true)) 0) as [E0|E0]; [apply C; exact E0|]. rewrite (neg_of_value c _ Vs E0). lia.
Qed.

Lemma d_mods1_eq c r x y : valid c x -> int32 y -> y <> 0 -> y <> - 2 ^ 31 -> d_mods1 c r x y = mods1 r x y.
Proof.
  intros V I32 N0 N. unfold d_mods1, d_div_mods1_r, mods1, invalid_var. rewrite (proj2 (Z.eqb_neq _ _) N). cbn [negb check bind].
  rewrite (div_mods1_r_spec c x y V I32 N0). cbn [bind]. pose proof (Z.rem_bound_abs (value x) y N0) as Rb. unfold int32 in I32.
  rewrite d_assign_int_ok; [reflexivity|apply (valid_room1 c x V)|lia].
Qed.

Lemma sim_naf_step c s s' : ntie c s s' -> lsim (ntie c) eq (d_naf_step c s) (naf_step F s').
Proof.
  destruct s as [num acc], s' as [num' acc']. intros (T & N & Ea). cbn [fst snd] in *. subst acc'. unfold d_naf_step, naf_step.
  pose proof (tie_fst _ _ _ T) as V. pose proof (tie_snd _ _ _ T) as V'. pose proof T as (_ & _ & Ev & En). rewrite N in En. symmetry in En.
  assert (Ecmp : compareu1 num 0 = compareu1 num' 0). { unfold compareu1. rewrite N, En, (tie_size _ _ _ T), (tie_word0 _ _ _ T). reflexivity. }
  rewrite Ecmp. pose proof (compareu1_spec F num' 0 V' ltac:(rewrite B_val; lia) ltac:(auto)) as C. unfold cmp_result in C.
  destruct (Z.gtb_spec (compareu1 num' 0) 0) as [G|G]; [|cbn [lsim]; right; exists (Ok acc); split; [reflexivity|]; exists acc; auto].
  apply step_sim. rewrite (is_odd_spec c num V), (is_odd_spec F num' V'), Ev. destruct (Z.odd (value num')) eqn:O.
  - pose proof (valid_room1 c num V) as R1.
    destruct (mods1_spec F (zero F) num' 4 (zero_storage F num' V') V' ltac:(unfold int32; lia) ltac:(lia)) as (m' & -> & Vm' & Em' & Sm' & Nm').
    destruct (mods1_spec c (zero c) num 4 (zero_storage c num V) V ltac:(unfold int32; lia) ltac:(lia)) as (m & Eqm & Vm & Em & Sm & Nm).
    assert (Dm : d_mods1 c (zero c) num 4 = Ok m) by (rewrite (d_mods1_eq c (zero c) num 4 V); [exact Eqm|unfold int32; lia..]).
    rewrite Dm. cbn [bind]. rewrite Z.rem_mod_nonneg in Em, Em' by lia. pose proof (Z.mod_pos_bound (value num') 4 ltac:(lia)) as MB.
    rewrite (get_int32_spec c m Vm) by (rewrite Em, Ev; change (2 ^ 31) with 2147483648; lia). rewrite (get_int32_spec F m' Vm') by (rewrite Em'; change (2 ^ 31) with 2147483648; lia).
    rewrite Em, Em', Ev. set (m4 := value num' mod 4) in *. pose proof (Z.div_mod (value num') 4 ltac:(lia)) as Edm. fold m4 in Edm.
    assert (H13 : m4 = 1 \/ m4 = 3). { apply Zodd_bool_iff in O. apply Zodd_equiv in O. destruct O as (k & Ek). lia. }
    assert (I32 : int32 (2 - m4)) by (unfold int32; change (2 ^ 31) with 2147483648; lia).
    assert (P0 : 0 <= value num' - (2 - m4)) by lia.
    destruct (subs1_spec F true num' num' (2 - m4) (valid_storage _ _ V') V' I32 I ltac:(auto)) as (Vs' & Es'). pose proof (subs1_neg F num' (2 - m4) V' En P0 I32 I) as Ns'.
    assert (D : d_subs1 c true num num (2 - m4) = Abort \/ d_subs1 c true num num (2 - m4) = Ok (subs1 c true num num (2 - m4)) /\ valid c (subs1 c true num num (2 - m4)) /\ value (subs1 c true num num (2 - m4)) = value num - (2 - m4) /\ neg (subs1 c true num num (2 - m4)) = false).
    { destruct (b_subs1 c true num num (2 - m4)) as [E|E]; [left; exact E|].
      destruct (d_subs1_ok c true num num (2 - m4) (valid_storage _ _ V) V I32 ltac:(auto)) as [Q1 Q2].
      destruct H13 as [H13|H13]; rewrite H13 in *.
      - right. split; [exact E|]. apply (subs1_small c num 1 V N); [lia|reflexivity].
      - destruct (room_dec c (size num + 1)) as [R|R].
        + right. split; [exact E|]. split; [apply (subs1_spec c true num num (2 - 3) (valid_storage _ _ V) V I32 R ltac:(auto))|]. split; [apply (subs1_spec c true num num (2 - 3) (valid_storage _ _ V) V I32 R ltac:(auto))|]. apply (subs1_neg c num (2 - 3) V N ltac:(lia) I32 R).
        + left. apply Q2. intros [_ C1]. apply R. apply C1. rewrite N. reflexivity. }
    destruct D as [->|(-> & Vs & Es & Ns)]; [exact I|]. cbn [bind]. set (n1 := subs1 c true num num (2 - m4)) in *. set (n1' := subs1 F true num' num' (2 - m4)) in *.
    assert (T1 : tie c n1 n1') by (apply tie_of; [exact Vs|exact Vs'|rewrite Es, Es', Ev; reflexivity|congruence]).
    rewrite (d_shr_eq c n1 n1 1 Vs ltac:(lia)). cbn [bind lsim]. eexists. split; [reflexivity|]. destruct (tie_shr1 c n1 n1' T1 Ns) as (T2 & N2). split; [exact T2|]. split; [exact N2|reflexivity].
  - rewrite (d_shr_eq c num num 1 V ltac:(lia)). cbn [bind lsim]. eexists. split; [reflexivity|]. destruct (tie_shr1 c num num' T N) as (T2 & N2). split; [exact T2|]. split; [exact N2|reflexivity].
Qed.
Lemma d_bit_length_eq c x : valid c x -> d_bit_length x = Ok (bit_length x).
Proof.
  intros H. unfold d_bit_length. destruct (is_zero x) eqn:E; [unfold bit_length; rewrite E; reflexivity|]. pose proof H as (_ & S & T).
  assert (nth (size x - 1) (mem x) 0 <> 0).
  { destruct (Nat.eq_dec (size x) 1) as [S1|S1]; [|apply T; lia]. unfold is_zero in E. rewrite S1 in *. cbn [Nat.eqb andb Nat.sub] in *. fold (word0 x). lia. }
  rewrite (proj2 (Z.eqb_neq _ _)) by assumption. reflexivity.
Qed.
Lemma sim_naf c x : valid c x -> neg x = false -> sim eq (d_to_naf c x) (to_naf F (lift x)).
Proof.
  intros V N. unfold d_to_naf, to_naf. rewrite (d_bit_length_eq c x V). cbn [bind]. change (size (lift x)) with (size x).
  apply (run_sim (ntie c)); [apply sim_naf_step|]. split; [apply lift_tie; exact V|]. split; [exact N|reflexivity].
Qed.
