From Coq Require Import List ZArith Bool Lia.
From Verif Require Import Outcome WordsModel WordsSpec BufferModel PowmModel RawModel RawSpec RawProofs PowmRawModel TraceModel TraceSpec.
Import ListNotations.
Open Scope nat_scope.

(** ** forgetting the trace *)
Lemma fst_tbind {A C} (x : traced A) (f : A -> traced C) : fst (tbind x f) = bind (fst x) (fun a => fst (f a)).
Proof. unfold tbind. destruct x as [[a| | |] t]; cbn [fst bind]; try reflexivity. destruct (f a); reflexivity. Qed.
Lemma bind_ext {A C} (x : outcome A) (f g : A -> outcome C) : (forall a, f a = g a) -> bind x f = bind x g.
Proof. intros H. destruct x; cbn [bind]; [apply H|reflexivity..]. Qed.
Ltac erase := repeat (rewrite fst_tbind; cbn [fst snd decide ldt stt ret bind undefined]).
Ltac eb := apply bind_ext; intros ?.

Lemma load_e m p n : forall i, fst (load_t m p i n) = load_n m p i n.
Proof. induction n as [|n IH]; intros i; cbn [load_t load_n]; [reflexivity|]. erase. eb. erase. rewrite IH. reflexivity. Qed.
Lemma store_e p ws : forall m i, fst (store_t m p i ws) = store_n m p i ws.
Proof. induction ws as [|w ws IH]; intros m i; cbn [store_t store_n]; [reflexivity|]. erase. eb. apply IH. Qed.
Lemma memmove_e m d s n : fst (memmove_t m d s n) = memmove_r m d s n.
Proof. unfold memmove_t, memmove_r. erase. rewrite load_e. eb. apply store_e. Qed.
Lemma memcpy_e m d s n : fst (memcpy_t m d s n) = memcpy_r m d s n.
Proof. unfold memcpy_t, memcpy_r. destruct (overlap d s n); [reflexivity|apply memmove_e]. Qed.
Lemma clear_e k : forall i x m, fst (clear_t k i x m) = clear_r k i x m.
Proof. induction k as [|k IH]; intros i x m; cbn [clear_t clear_r]; erase; [reflexivity|]. eb. apply IH. Qed.
Lemma word_e m a off : fst (br_i32_word_t m a off) = br_i32_word_r m a off.
Proof. unfold br_i32_word_t, br_i32_word_r. erase. destruct (Z.land off 31 =? 0)%Z; [reflexivity|]. erase. eb. erase. eb. reflexivity. Qed.
Lemma add_ctl_e k : forall u a b ctl cc m, fst (add_ctl_t k u a b ctl cc m) = add_ctl_r k u a b ctl cc m.
Proof. induction k as [|k IH]; intros u a b ctl cc m; cbn [add_ctl_t add_ctl_r]; erase; [reflexivity|]. eb. erase. eb. erase. eb. apply IH. Qed.
Lemma sub_ctl_e k : forall u a b ctl cc m, fst (sub_ctl_t k u a b ctl cc m) = sub_ctl_r k u a b ctl cc m.
Proof. induction k as [|k IH]; intros u a b ctl cc m; cbn [sub_ctl_t sub_ctl_r]; erase; [reflexivity|]. eb. erase. eb. erase. eb. apply IH. Qed.
Lemma add_e m a b ctl : fst (br_i32_add_t m a b ctl) = br_i32_add_r m a b ctl.
Proof. unfold br_i32_add_t, br_i32_add_r. erase. eb. apply add_ctl_e. Qed.
Lemma sub_e m a b ctl : fst (br_i32_sub_t m a b ctl) = br_i32_sub_r m a b ctl.
Proof. unfold br_i32_sub_t, br_i32_sub_r. erase. eb. apply sub_ctl_e. Qed.
Lemma divrem_loop_e d n : forall s, fst (divrem_loop_t n d s) = Ok (fold_left (divrem_step d) (map Z.of_nat (rev (seq 1 n))) s).
Proof.
  induction n as [|n IH]; intros s; [reflexivity|]. cbn [divrem_loop_t]. erase. rewrite IH. f_equal.
  rewrite seq_S, rev_app_distr. reflexivity.
Qed.
Lemma divrem_e hi lo d : fst (br_divrem_t hi lo d) = Ok (br_divrem hi lo d).
Proof.
  unfold br_divrem_t, br_divrem. cbv zeta. erase. rewrite divrem_loop_e. cbn [bind]. destruct (fold_left _ _ _) as [[h l] q]. reflexivity.
Qed.
Lemma rem_e hi lo d : fst (br_rem_t hi lo d) = Ok (br_rem hi lo d).
Proof. unfold br_rem_t, br_rem. erase. rewrite divrem_e. reflexivity. Qed.
Lemma div_e hi lo d : fst (br_div_t hi lo d) = Ok (br_div hi lo d).
Proof. unfold br_div_t, br_div. erase. rewrite divrem_e. reflexivity. Qed.
Lemma mul_sub_e k : forall u x n q cc tb m, fst (mul_sub_t k u x n q cc tb m) = mul_sub_r k u x n q cc tb m.
Proof. induction k as [|k IH]; intros u x n q cc tb m; cbn [mul_sub_t mul_sub_r]; erase; [reflexivity|]. eb. cbv zeta. erase. eb. erase. eb. apply IH. Qed.
Lemma muladd_e m x z n : fst (br_i32_muladd_small_t m x z n) = br_i32_muladd_small_r m x z n.
Proof.
  unfold br_i32_muladd_small_t, br_i32_muladd_small_r. erase. eb. erase. destruct (_ =? 0)%Z; [reflexivity|]. erase. destruct (_ <=? 32)%Z.
  - erase. eb. erase. eb. erase. rewrite rem_e. reflexivity.
  - cbv zeta. erase. rewrite word_e. eb. erase. eb. erase. rewrite memmove_e. eb. erase. eb. erase. rewrite word_e. eb. erase. rewrite word_e. eb.
    erase. rewrite div_e. cbn [bind]. erase. rewrite mul_sub_e. eb. destruct a6 as [[cc tb] m'] || match goal with r : (Z * Z * memory)%type |- _ => destruct r as [[cc tb] m'] end.
    erase. rewrite add_e. eb. erase. rewrite sub_e. eb. reflexivity.
Qed.
Lemma reduce_loop_e x a n u : forall m, fst (reduce_loop_t u x a n m) = reduce_loop_r u x a n m.
Proof. induction u as [|u IH]; intros m; cbn [reduce_loop_t reduce_loop_r]; erase; [reflexivity|]. eb. erase. rewrite muladd_e. eb. apply IH. Qed.
Lemma reduce_e m x a n : fst (br_i32_reduce_t m x a n) = br_i32_reduce_r m x a n.
Proof.
  unfold br_i32_reduce_t, br_i32_reduce_r. erase. eb. cbv zeta. erase. eb. erase. destruct (_ =? 0)%Z; [reflexivity|]. erase. eb. erase.
  destruct (_ <? _)%Z; erase; rewrite memcpy_e; eb; [apply clear_e|]. erase. eb. apply reduce_loop_e.
Qed.
Lemma sub_modulus_e k : forall i num n acc m, fst (sub_modulus_t k i num n acc m) = sub_modulus_r k i num n acc m.
Proof. induction k as [|k IH]; intros i num n acc m; cbn [sub_modulus_t sub_modulus_r]; erase; [reflexivity|]. eb. erase. eb. erase. eb. apply IH. Qed.
Lemma ge_modulus_e k : forall m num n, fst (ge_modulus_t k m num n) = ge_modulus_r k m num n.
Proof.
  induction k as [|k IH]; intros m num n; cbn [ge_modulus_t ge_modulus_r]; erase; [reflexivity|]. eb. erase. eb. erase.
  destruct (_ <? _)%Z; [reflexivity|]. erase. destruct (_ <? _)%Z; [reflexivity|]. apply IH.
Qed.
Lemma mont_loop_e k : forall i result a b n d0 acc_a acc_b m, fst (mont_loop_t k i result a b n d0 acc_a acc_b m) = mont_loop_r k i result a b n d0 acc_a acc_b m.
Proof. induction k as [|k IH]; intros; cbn [mont_loop_t mont_loop_r]; erase; [reflexivity|]. eb. erase. eb. cbv zeta. erase. eb. erase. eb. apply IH. Qed.
Lemma mont_step_e m key result a b : fst (mont_step_t m key result a b) = mont_step_r m key result a b.
Proof.
  unfold mont_step_t, mont_step_r. erase. eb. erase. eb. cbv zeta. erase. eb. erase. rewrite mont_loop_e. eb. match goal with r : (Z * Z * memory)%type |- _ => destruct r as [[x1 x2] m'] end.
  erase. eb. erase. destruct (_ =? 0)%Z; [reflexivity|]. apply sub_modulus_e.
Qed.
Lemma mont_rows_e key result a b k : forall i m, fst (mont_rows_t k i key result a b m) = mont_rows_r k i key result a b m.
Proof. induction k as [|k IH]; intros i m; cbn [mont_rows_t mont_rows_r]; erase; [reflexivity|]. eb. erase. rewrite mont_step_e. eb. apply IH. Qed.
Lemma mont_mul_e m key result a b : fst (montgomery_mul_t m key result a b) = montgomery_mul_r m key result a b.
Proof. unfold montgomery_mul_t, montgomery_mul_r. erase. rewrite clear_e. eb. apply mont_rows_e. Qed.

(** ** two runs *)
Definition same {A} (R : A -> A -> Prop) (x y : traced A) : Prop :=
  snd x = snd y /\ match fst x, fst y with Ok a, Ok b => R a b | Abort, Abort | UB, UB | NoFuel, NoFuel => True | _, _ => False end.
Lemma same_indist {A} (R : A -> A -> Prop) x y : same R x y -> indistinguishable x y.
Proof. intros [E H]. split; [exact E|]. destruct (fst x), (fst y); cbn [same_end]; tauto. Qed.
Lemma same_ret {A} (R : A -> A -> Prop) a b : R a b -> same R (ret a) (ret b).
Proof. intros H. split; [reflexivity|exact H]. Qed.
Lemma same_decide b : same (fun _ _ => True) (decide b) (decide b).
Proof. split; [reflexivity|exact Logic.I]. Qed.
Lemma same_bind {A C} (R : A -> A -> Prop) (Q : C -> C -> Prop) x y f g :
  same R x y -> (forall a b, R a b -> same Q (f a) (g b)) -> same Q (tbind x f) (tbind y g).
Proof.
  intros [E H] F. unfold tbind. destruct x as [x t], y as [y t']. cbn [fst snd] in E, H. subst t'.
  destruct x as [a| | |], y as [b| | |]; try contradiction; try (split; [reflexivity|exact Logic.I]).
  destruct (F a b H) as [E2 H2]. destruct (f a) as [o1 t1], (g b) as [o2 t2]. cbn [fst snd] in E2, H2. split; cbn [fst snd]; [now rewrite E2|exact H2].
Qed.
Lemma same_mono {A} (R Q : A -> A -> Prop) x y : (forall a b, R a b -> Q a b) -> same R x y -> same Q x y.
Proof. intros M [E H]. split; [exact E|]. destruct (fst x), (fst y); auto. Qed.

Section Cells.
Variable P : cells.
Notation T := (fun _ _ => True).
Lemma alike_none m m' b k : alike P m m' -> (rd m b k = None <-> rd m' b k = None).
Proof.
  intros [S _]. pose proof (rd_some_iff m b k) as A. pose proof (rd_some_iff m' b k) as C. unfold shape in *. rewrite S in A.
  destruct (rd m b k), (rd m' b k); split; intros E; try congruence; exfalso; [apply (proj2 C)|apply (proj2 A)]; try reflexivity; [apply A|apply C]; discriminate.
Qed.
Lemma same_ld_any m m' p i : alike P m m' -> same T (ldt m p i) (ldt m' p i).
Proof.
  intros H. split; [reflexivity|]. cbn [ldt fst]. unfold ld. pose proof (alike_none m m' (fst p) (snd p + i) H) as N.
  destruct (rd m _ _), (rd m' _ _); auto; destruct N as [N1 N2]; [discriminate N2|discriminate N1]; reflexivity.
Qed.
Lemma same_ld m m' p i : alike P m m' -> P (fst p) (snd p + i) -> same eq (ldt m p i) (ldt m' p i).
Proof. intros [S H] HP. split; [reflexivity|]. cbn [ldt fst]. unfold ld. rewrite (H _ _ HP). destruct (rd m' _ _); auto. Qed.
Lemma same_st_gen m m' p i w w' : alike P m m' -> (P (fst p) (snd p + i) -> w = w') -> same (alike P) (stt m p i w) (stt m' p i w').
Proof.
  intros H HP. split; [reflexivity|]. cbn [stt fst]. unfold st. pose proof (alike_none m m' (fst p) (snd p + i) H) as N.
  destruct (rd m (fst p) (snd p + i)) eqn:E1, (rd m' (fst p) (snd p + i)) eqn:E2; auto;
    try (destruct N as [N1 N2]; discriminate (N1 eq_refl) || discriminate (N2 eq_refl)).
  destruct H as [S HR]. split.
  - change (shape (upd m (fst p) (upd (nth (fst p) m []) (snd p + i) w)) = shape (upd m' (fst p) (upd (nth (fst p) m' []) (snd p + i) w'))).
    rewrite !shape_set. exact S.
  - intros b k Hk. rewrite !rd_set by congruence. destruct (Nat.eqb_spec b (fst p)) as [->|]; cbn [andb]; [|now apply HR].
    destruct (Nat.eqb_spec k (snd p + i)) as [->|]; [|now apply HR]. now rewrite HP.
Qed.
Lemma same_st m m' p i w w' : alike P m m' -> ~ P (fst p) (snd p + i) -> same (alike P) (stt m p i w) (stt m' p i w').
Proof. intros H N. apply same_st_gen; [exact H|tauto]. Qed.
Lemma same_st_eq m m' p i w : alike P m m' -> same (alike P) (stt m p i w) (stt m' p i w).
Proof. intros H. apply same_st_gen; [exact H|reflexivity]. Qed.

(** no cell of P among the words p[i], p[i+1], ... *)
Definition free (p : loc) (i : nat) : Prop := forall k, i <= k -> ~ P (fst p) (snd p + k).
Lemma free_S p i : free p i -> free p (S i).
Proof. intros H k Hk. apply H. lia. Qed.
Lemma free_at p i j : free p (i + j) -> free (at_ p i) j.
Proof. intros H k Hk. unfold at_. cbn [fst snd]. rewrite <- Nat.add_assoc. apply H. lia. Qed.

Ltac sb := eapply same_bind; [|cbv beta].
Ltac sd := sb; [apply same_decide|intros _ _ _].
Ltac sl := sb; [apply same_ld_any; eassumption|intros ? ? _].

Lemma same_load m m' p n : forall i, alike P m m' -> same (fun u v => length u = length v) (load_t m p i n) (load_t m' p i n).
Proof.
  induction n as [|n IH]; intros i H; cbn [load_t]; [now apply same_ret|]. sl. sb; [apply IH; exact H|]. intros u v L. apply same_ret. cbn [length]. now rewrite L.
Qed.
Lemma same_store p : forall ws ws' i m m', alike P m m' -> length ws = length ws' -> free p i -> same (alike P) (store_t m p i ws) (store_t m' p i ws').
Proof.
  induction ws as [|w ws IH]; intros ws' i m m' H L F; destruct ws' as [|w' ws']; try discriminate; cbn [store_t]; [now apply same_ret|].
  sb; [apply same_st; [exact H|apply F; lia]|]. intros a b Hab. apply IH; [exact Hab|now injection L|now apply free_S].
Qed.
Lemma same_memmove m m' d s n : alike P m m' -> free d 0 -> same (alike P) (memmove_t m d s n) (memmove_t m' d s n).
Proof. intros H F. unfold memmove_t. sb; [apply same_load; exact H|]. intros u v L. now apply same_store. Qed.
Lemma same_memcpy m m' d s n : alike P m m' -> free d 0 -> same (alike P) (memcpy_t m d s n) (memcpy_t m' d s n).
Proof. intros H F. unfold memcpy_t. destruct (overlap d s n); [split; [reflexivity|exact Logic.I]|now apply same_memmove]. Qed.
Lemma same_clear k : forall i x m m', alike P m m' -> same (alike P) (clear_t k i x m) (clear_t k i x m').
Proof.
  induction k as [|k IH]; intros i x m m' H; cbn [clear_t]; sd; [now apply same_ret|]. sb; [apply same_st_eq; exact H|]. intros a b Hab. now apply IH.
Qed.
Lemma same_word m m' a off : alike P m m' -> same T (br_i32_word_t m a off) (br_i32_word_t m' a off).
Proof. intros H. unfold br_i32_word_t. sd. destruct (_ =? 0)%Z; [now apply same_ld_any|]. sl. sl. now apply same_ret. Qed.
Lemma same_bit_loop x n : forall m m' s s', alike P m m' -> same T (bit_length_loop_t n m x s) (bit_length_loop_t n m' x s').
Proof. induction n as [|n IH]; intros m m' s s' H; cbn [bit_length_loop_t]; sd; [now apply same_ret|]. sl. now apply IH. Qed.
Lemma same_bit_length m m' x n : alike P m m' -> same T (br_i32_bit_length_t m x n) (br_i32_bit_length_t m' x n).
Proof. intros H. unfold br_i32_bit_length_t. sb; [apply same_bit_loop; exact H|]. intros. now apply same_ret. Qed.
Lemma same_add_ctl a b k : forall u ctl ctl' cc cc' m m', alike P m m' -> free a u ->
  same (fun r s => alike P (snd r) (snd s)) (add_ctl_t k u a b ctl cc m) (add_ctl_t k u a b ctl' cc' m').
Proof.
  induction k as [|k IH]; intros u ctl ctl' cc cc' m m' H F; cbn [add_ctl_t]; sd; [now apply same_ret|]. sl. sl.
  sb; [apply same_st; [exact H|apply F; lia]|]. intros. apply IH; [assumption|now apply free_S].
Qed.
Lemma same_sub_ctl a b k : forall u ctl ctl' cc cc' m m', alike P m m' -> free a u ->
  same (fun r s => alike P (snd r) (snd s)) (sub_ctl_t k u a b ctl cc m) (sub_ctl_t k u a b ctl' cc' m').
Proof.
  induction k as [|k IH]; intros u ctl ctl' cc cc' m m' H F; cbn [sub_ctl_t]; sd; [now apply same_ret|]. sl. sl.
  sb; [apply same_st; [exact H|apply F; lia]|]. intros. apply IH; [assumption|now apply free_S].
Qed.
Lemma same_add m m' a b ctl ctl' : alike P m m' -> P (fst a) (snd a + 0) -> free a 1 ->
  same (fun r s => alike P (snd r) (snd s)) (br_i32_add_t m a b ctl) (br_i32_add_t m' a b ctl').
Proof. intros H HP F. unfold br_i32_add_t. sb; [apply same_ld; assumption|]. intros h ? <-. now apply same_add_ctl. Qed.
Lemma same_sub m m' a b ctl ctl' : alike P m m' -> P (fst a) (snd a + 0) -> free a 1 ->
  same (fun r s => alike P (snd r) (snd s)) (br_i32_sub_t m a b ctl) (br_i32_sub_t m' a b ctl').
Proof. intros H HP F. unfold br_i32_sub_t. sb; [apply same_ld; assumption|]. intros h ? <-. now apply same_sub_ctl. Qed.
Lemma same_divrem_loop n : forall d d' s s', same T (divrem_loop_t n d s) (divrem_loop_t n d' s').
Proof. induction n as [|n IH]; intros; cbn [divrem_loop_t]; sd; [now apply same_ret|apply IH]. Qed.
Lemma same_divrem hi lo d hi' lo' d' : same T (br_divrem_t hi lo d) (br_divrem_t hi' lo' d').
Proof. unfold br_divrem_t. cbv zeta. sb; [apply same_divrem_loop|]. intros [[a b] q] [[a' b'] q'] _. now apply same_ret. Qed.
Lemma same_rem hi lo d hi' lo' d' : same T (br_rem_t hi lo d) (br_rem_t hi' lo' d').
Proof. unfold br_rem_t. sb; [apply same_divrem|]. intros. now apply same_ret. Qed.
Lemma same_div hi lo d hi' lo' d' : same T (br_div_t hi lo d) (br_div_t hi' lo' d').
Proof. unfold br_div_t. sb; [apply same_divrem|]. intros. now apply same_ret. Qed.
Lemma same_mul_sub x n k : forall u q q' cc cc' tb tb' m m', alike P m m' -> free x u ->
  same (fun r s => alike P (snd r) (snd s)) (mul_sub_t k u x n q cc tb m) (mul_sub_t k u x n q' cc' tb' m').
Proof.
  induction k as [|k IH]; intros u q q' cc cc' tb tb' m m' H F; cbn [mul_sub_t]; sd; [now apply same_ret|]. sl. cbv zeta. sl.
  sb; [apply same_st; [exact H|apply F; lia]|]. intros. apply IH; [assumption|now apply free_S].
Qed.
Lemma same_muladd m m' x z z' n : alike P m m' -> P (fst n) (snd n + 0) -> P (fst x) (snd x + 0) -> free x 1 ->
  same (alike P) (br_i32_muladd_small_t m x z n) (br_i32_muladd_small_t m' x z' n).
Proof.
  intros H Hn Hx F. unfold br_i32_muladd_small_t. sb; [apply same_ld; assumption|]. intros h ? <-. sd. destruct (h =? 0)%Z; [now apply same_ret|]. sd.
  destruct (h <=? 32)%Z.
  - sl. sl. sb; [apply same_rem|]. intros. apply same_st; [exact H|apply F; lia].
  - cbv zeta. sb; [apply same_word; exact H|]. intros a0 a0' _. sl. sb; [apply same_memmove; [exact H|apply free_at; intros k Hk; apply F; lia]|].
    intros m1 m1' H1. sb; [apply same_st; [exact H1|apply F; lia]|]. intros m2 m2' H2. sb; [apply same_word; exact H2|]. intros a1 a1' _.
    sb; [apply same_word; exact H2|]. intros b0 b0' _. sb; [apply same_div|]. intros g g' _. sb; [apply same_mul_sub; [exact H2|exact F]|].
    intros [[cc tb] m3] [[cc' tb'] m3'] H3. cbn [snd] in H3. sb; [apply same_add; assumption|]. intros r r' Hr. sb; [apply same_sub; assumption|].
    intros q q' Hq. now apply same_ret.
Qed.
Lemma same_reduce_loop x a n u : forall m m', alike P m m' -> P (fst n) (snd n + 0) -> P (fst x) (snd x + 0) -> free x 1 ->
  same (alike P) (reduce_loop_t u x a n m) (reduce_loop_t u x a n m').
Proof.
  induction u as [|u IH]; intros m m' H Hn Hx F; cbn [reduce_loop_t]; sd; [now apply same_ret|]. sl. sb; [apply same_muladd; assumption|]. intros. now apply IH.
Qed.
Lemma same_decode_loop x buf fuel : forall u v m m', alike P m m' -> free x v ->
  same (fun r s => alike P (fst r) (fst s) /\ snd r = snd s) (decode_loop_t fuel m x buf u v) (decode_loop_t fuel m' x buf u v).
Proof.
  assert (D16 : forall m m' o, alike P m m' -> same T (dec16_t m buf o) (dec16_t m' buf o)).
  { intros m m' o H. unfold dec16_t. sl. sl. now apply same_ret. }
  assert (D32 : forall m m' o, alike P m m' -> same T (dec32_t m buf o) (dec32_t m' buf o)).
  { intros m m' o H. unfold dec32_t. sl. sl. sl. sl. now apply same_ret. }
  assert (St : forall m m' v w w', alike P m m' -> free x v -> same (fun r s => alike P (fst r) (fst s) /\ snd r = snd s)
     (tbind (stt m x v w) (fun m => ret (m, S v))) (tbind (stt m' x v w') (fun m => ret (m, S v)))).
  { intros m m' v w w' H F. sb; [apply same_st; [exact H|apply F; lia]|]. intros. apply same_ret. now split. }
  assert (Base : forall m m' u v (f g : traced (memory * nat)), alike P m m' -> free x v ->
    (Nat.ltb u 4 = false -> same (fun r s => alike P (fst r) (fst s) /\ snd r = snd s) f g) ->
    same (fun r s => alike P (fst r) (fst s) /\ snd r = snd s)
    (let+ _ := decide (Nat.ltb u 4) in
     if Nat.ltb u 4 then
       let+ _ := decide (Nat.ltb u 2) in
       if Nat.ltb u 2 then
         let+ _ := decide (Nat.eqb u 0) in
         if Nat.eqb u 0 then ret (m, v)
         else let+ w := ldt m buf 0 in let+ m := stt m x v w in ret (m, S v)
       else
         let+ _ := decide (Nat.eqb u 2) in
         if Nat.eqb u 2 then let+ w := dec16_t m buf 0 in let+ m := stt m x v w in ret (m, S v)
         else
           let+ b := ldt m buf 0 in
           let+ w := dec16_t m buf 1 in
           let+ m := stt m x v (Z.lor (Z.shiftl b 16) w) in ret (m, S v)
     else f)
    (let+ _ := decide (Nat.ltb u 4) in
     if Nat.ltb u 4 then
       let+ _ := decide (Nat.ltb u 2) in
       if Nat.ltb u 2 then
         let+ _ := decide (Nat.eqb u 0) in
         if Nat.eqb u 0 then ret (m', v)
         else let+ w := ldt m' buf 0 in let+ m := stt m' x v w in ret (m, S v)
       else
         let+ _ := decide (Nat.eqb u 2) in
         if Nat.eqb u 2 then let+ w := dec16_t m' buf 0 in let+ m := stt m' x v w in ret (m, S v)
         else
           let+ b := ldt m' buf 0 in
           let+ w := dec16_t m' buf 1 in
           let+ m := stt m' x v (Z.lor (Z.shiftl b 16) w) in ret (m, S v)
     else g)).
  { intros m m' u v f g H F G. sd. destruct (Nat.ltb u 4); [|now apply G]. sd. destruct (Nat.ltb u 2); sd.
    - destruct (Nat.eqb u 0); [apply same_ret; now split|]. sl. now apply St.
    - destruct (Nat.eqb u 2); [sb; [apply D16; exact H|]; intros; now apply St|]. sl. sb; [apply D16; exact H|]. intros. now apply St. }
  induction fuel as [|fuel IH]; intros u v m m' H F; cbn [decode_loop_t]; (apply Base; [exact H|exact F|intros _]).
  - split; [reflexivity|exact Logic.I].
  - sb; [apply D32; exact H|]. intros w w' _. sb; [apply same_st; [exact H|apply F; lia]|]. intros m1 m1' H1. apply IH; [exact H1|now apply free_S].
Qed.
Lemma same_decode m m' x src len : alike P m m' -> free x 0 -> same (alike P) (br_i32_decode_t m x src len) (br_i32_decode_t m' x src len).
Proof.
  intros H F. unfold br_i32_decode_t. sb; [apply same_decode_loop; [exact H|now apply free_S]|]. intros [m1 v] [m1' v'] [H1 E]. cbn [fst snd] in H1, E. subst v'.
  sb; [apply same_bit_length; exact H1|]. intros. apply same_st; [exact H1|apply F; lia].
Qed.
Lemma same_encode_loop dst x k : forall o m m', alike P m m' -> free dst o -> same (alike P) (encode_loop_t k m dst o x) (encode_loop_t k m' dst o x).
Proof.
  induction k as [|k IH]; intros o m m' H F; cbn [encode_loop_t]; sd; [now apply same_ret|]. sl. sb; [apply same_store; [exact H|reflexivity|exact F]|].
  intros. apply IH; [assumption|]. intros j Hj. apply F. lia.
Qed.
Lemma same_partial dst x k sh : forall o m m', alike P m m' -> free dst o -> same (alike P) (partial_t m dst o x k sh) (partial_t m' dst o x k sh).
Proof.
  induction sh as [|s sh IH]; intros o m m' H F; cbn [partial_t]; [now apply same_ret|]. sl. sb; [apply same_st; [exact H|apply F; lia]|].
  intros. apply IH; [assumption|now apply free_S].
Qed.
Lemma same_encode m m' dst len x : alike P m m' -> P (fst x) (snd x + 0) -> free dst 0 -> same (alike P) (br_i32_encode_t m dst len x) (br_i32_encode_t m' dst len x).
Proof.
  intros H Hx F. unfold br_i32_encode_t. sb; [apply same_ld; assumption|]. intros h ? <-. cbv zeta. sb; [apply same_clear; exact H|]. intros m1 m1' H1.
  sb; [instantiate (1 := T); split; [reflexivity|exact Logic.I]|]. intros _ _ _. destruct (Nat.modulo _ 4) as [|r].
  - apply same_encode_loop; [exact H1|]. intros k _. apply F. lia.
  - sb; [apply same_partial; [exact H1|intros k _; apply F; lia]|]. intros. apply same_encode_loop; [assumption|]. intros k _. apply F. lia.
Qed.
End Cells.
