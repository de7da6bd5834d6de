(** What [mul_n] computes, and when that is the product. *)
From Coq Require Import List ZArith Lia Bool.
From Verif Require Import UtilsSpec WordsModel WordsSpec WordsProofs MulNModel.
Import ListNotations.
Open Scope Z_scope.

Lemma B32 : B = 2 ^ 32. Proof. rewrite B_val. reflexivity. Qed.
(** the first word of a row *)
Definition low_word (x0 w : Z) : Z := (x0 * w) mod 2 ^ 32.
Definition row (x : list Z) (w : Z) : list Z := let '(r, h) := mul_word_n x w in r ++ [h].

Lemma row_spec x w : all_words x -> 0 <= w < B -> all_words (row x w) /\ length (row x w) = S (length x) /\ eval (row x w) = eval x * w.
Proof.
  intros Hx Hw. pose proof (mul_word_n_spec x w Hx Hw) as S. unfold row. destruct (mul_word_n x w) as [r h]. destruct S as (W & L & Hh & E).
  split; [apply words_app; split; [exact W|apply words_cons; split; [exact Hh|constructor]]|]. split; [rewrite app_length, L; cbn; lia|]. rewrite eval_snoc, L. exact E.
Qed.
Lemma row_head x0 x w : all_words (x0 :: x) -> 0 <= w < B -> exists t, row (x0 :: x) w = low_word x0 w :: t.
Proof.
  intros Hx Hw. destruct (row_spec (x0 :: x) w Hx Hw) as (W & L & E). destruct (row (x0 :: x) w) as [|a t]; [cbn in L; lia|]. exists t. f_equal.
  apply words_cons in W. destruct W as (Wa & _). rewrite !eval_cons in E. unfold low_word. rewrite <- B32.
  apply (Z.mod_unique_pos (x0 * w) B (eval t - eval x * w) a Wa). lia.
Qed.
Lemma loop_eq x0 x : all_words (x0 :: x) -> forall ys z i, all_words ys -> (i <= length z)%nat -> ys <> [] ->
  mul_n_loop z (x0 :: x) i ys = firstn i z ++ map (low_word x0) (removelast ys) ++ row (x0 :: x) (last ys 0).
Proof.
  intros Hx. induction ys as [|y ys IH]; intros z i Hy Li N; [contradiction|]. apply words_cons in Hy. destruct Hy as (Wy & Hy).
  cbn [mul_n_loop]. destruct (row_head x0 x y Hx Wy) as (t & R). unfold row in R. destruct (mul_word_n (x0 :: x) y) as [r h] eqn:M. rewrite R.
  destruct ys as [|y' ys].
  - cbn [mul_n_loop removelast map last app]. unfold row. rewrite M, R. reflexivity.
  - rewrite IH; [|exact Hy|rewrite app_length, firstn_length; cbn [length]; lia|discriminate].
    replace (firstn (S i) (firstn i z ++ low_word x0 y :: t)) with (firstn i z ++ [low_word x0 y]).
    + change (removelast (y :: y' :: ys)) with (y :: removelast (y' :: ys)). change (last (y :: y' :: ys) 0) with (last (y' :: ys) 0). cbn [map]. rewrite <- !app_assoc. reflexivity.
    + rewrite firstn_app, firstn_firstn, firstn_length. replace (S i - Nat.min i (length z))%nat with 1%nat by lia. replace (Nat.min (S i) i) with i by lia. reflexivity.
Qed.
Lemma mul_n_eq x0 x y : all_words (x0 :: x) -> all_words y -> y <> [] ->
  mul_n (x0 :: x) y = map (low_word x0) (removelast y) ++ row (x0 :: x) (last y 0).
Proof.
  intros Hx Hy N. pose proof (loop_eq x0 x Hx y [] 0 Hy (le_n 0) N) as L. destruct y as [|y0 ys]; [contradiction|]. unfold mul_n.
  cbn [mul_n_loop firstn app] in L. destruct (mul_word_n (x0 :: x) y0). exact L.
Qed.

Lemma map_words x0 l : all_words (map (low_word x0) l).
Proof. induction l; cbn [map]; [constructor|]. apply words_cons. split; [|assumption]. unfold low_word. rewrite B32. apply Z.mod_pos_bound. lia. Qed.
Lemma last_word (y : list Z) : all_words y -> 0 <= last y 0 < B.
Proof.
  intros H. destruct y as [|a y]; [cbn; rewrite B32; lia|]. destruct (exists_last (l := a :: y) ltac:(discriminate)) as (l & b & E). rewrite E in *. rewrite last_last.
  apply words_app in H. destruct H as (_ & H). apply words_cons in H. apply H.
Qed.
Lemma init_words (y : list Z) : all_words y -> all_words (removelast y).
Proof.
  intros H. destruct y as [|a y]; [constructor|]. rewrite (app_removelast_last (l := a :: y) 0) in H by discriminate. apply words_app in H. apply H.
Qed.
Lemma init_last (y : list Z) : y <> [] -> eval y = eval (removelast y) + Bn (length (removelast y)) * last y 0.
Proof. intros N. rewrite (app_removelast_last (l := y) 0) at 1 by assumption. apply eval_snoc. Qed.

Lemma mul_n_claim x y : all_words x -> all_words y -> length x = length y -> x <> [] ->
  all_words (mul_n x y) /\ length (mul_n x y) = (2 * length x)%nat /\
  eval (mul_n x y) = eval (map (fun w => (hd 0 x * w) mod 2 ^ 32) (removelast y)) + (2 ^ 32) ^ (Z.of_nat (length x) - 1) * (eval x * last y 0).
Proof.
  intros Hx Hy L N. destruct x as [|x0 x]; [contradiction|]. assert (Ny : y <> []) by (intros ->; cbn in L; lia). rewrite (mul_n_eq x0 x y Hx Hy Ny).
  destruct (row_spec (x0 :: x) (last y 0) Hx (last_word y Hy)) as (W & Lr & E).
  assert (Li : length (removelast y) = length x). { pose proof (app_removelast_last (l := y) 0 Ny) as A. apply (f_equal (@length Z)) in A. rewrite app_length in A. cbn [length] in *. lia. }
  split; [apply words_app; split; [apply map_words|exact W]|]. split; [rewrite app_length, map_length, Lr, Li; cbn [length]; lia|].
  rewrite eval_app, E, map_length, Li. cbn [hd length]. unfold Bn. rewrite B32. replace (Z.of_nat (S (length x)) - 1) with (Z.of_nat (length x)) by lia. reflexivity.
Qed.

(** each word of the sum is at most the corresponding multiple of x *)
Lemma terms X x0 : 0 <= x0 < B -> X mod B = x0 -> 0 <= X -> forall l, all_words l ->
  eval (map (low_word x0) l) <= X * eval l /\ (eval (map (low_word x0) l) = X * eval l <-> Forall (fun w => X * w < 2 ^ 32) l).
Proof.
  intros H0 HX PX. rewrite <- B32. induction l as [|w l IH]; intros Hl; [cbn [map eval]; rewrite Z.mul_0_r; split; [lia|split; intros; [constructor|reflexivity]]|].
  apply words_cons in Hl. destruct Hl as (Hw & Hl). destruct (IH Hl) as (I1 & I2). cbn [map]. rewrite !eval_cons.
  assert (BP : 0 < B) by lia.
  assert (T : low_word x0 w = (X * w) mod B). { unfold low_word. rewrite <- B32, <- HX. rewrite Z.mul_mod_idemp_l by lia. reflexivity. }
  assert (PXw : 0 <= X * w) by (apply Z.mul_nonneg_nonneg; lia).
  pose proof (Z.mod_le (X * w) B PXw BP) as M. pose proof (Z.mod_pos_bound (X * w) B BP) as MB. rewrite T.
  assert (I1' : B * eval (map (low_word x0) l) <= B * (X * eval l)) by (apply Z.mul_le_mono_nonneg_l; lia).
  split; [lia|]. split.
  - intros E. assert (A : (X * w) mod B = X * w) by lia. constructor; [lia|]. apply I2. apply (Z.mul_reg_l _ _ B); lia.
  - intros F. inversion F as [|? ? F1 F2 EF]. apply I2 in F2. rewrite F2, (Z.mod_small (X * w)) by lia. ring.
Qed.
Lemma mul_n_right x y : all_words x -> all_words y -> length x = length y -> x <> [] ->
  eval (mul_n x y) <= eval x * eval y /\ (eval (mul_n x y) = eval x * eval y <-> Forall (fun w => eval x * w < 2 ^ 32) (removelast y)).
Proof.
  intros Hx Hy L N. assert (Ny : y <> []) by (intros ->; destruct x; [contradiction|cbn in L; lia]).
  destruct (mul_n_claim x y Hx Hy L N) as (_ & _ & E). pose proof (eval_range x Hx) as R. destruct x as [|x0 x]; [contradiction|]. pose proof Hx as Hx'. apply words_cons in Hx'. destruct Hx' as (H0 & _).
  cbn [hd] in E. assert (MX : eval (x0 :: x) mod B = x0). { rewrite eval_cons. rewrite Z.mul_comm, Z_mod_plus_full. apply Z.mod_small. exact H0. }
  destruct (terms (eval (x0 :: x)) x0 H0 MX ltac:(lia) (removelast y) (init_words y Hy)) as (T1 & T2).
  assert (Li : length (removelast y) = length x). { pose proof (app_removelast_last (l := y) 0 Ny) as A. apply (f_equal (@length Z)) in A. rewrite app_length in A. cbn [length] in *. lia. }
  pose proof (init_last y Ny) as EY. rewrite Li in EY. unfold Bn in EY. rewrite B32 in EY.
  replace (Z.of_nat (length (x0 :: x)) - 1) with (Z.of_nat (length x)) in E by (cbn [length]; lia).
  change (map (fun w => (x0 * w) mod 2 ^ 32) (removelast y)) with (map (low_word x0) (removelast y)) in E.
  set (S := eval (map (low_word x0) (removelast y))) in *. set (P := (2 ^ 32) ^ Z.of_nat (length x)) in *. set (X := eval (x0 :: x)) in *.
  assert (EE : X * eval y = X * eval (removelast y) + P * (X * last y 0)) by (rewrite EY; ring). split; [lia|].
  rewrite <- T2. lia.
Qed.
Lemma sqr_n_right x : all_words x -> x <> [] ->
  (eval (sqr_n x) = eval x * eval x <-> Forall (fun w => w = 0) (removelast x) \/ eval x < 2 ^ 16).
Proof.
  intros Hx N. unfold sqr_n. destruct (mul_n_right x x Hx Hx eq_refl N) as (_ & I). rewrite I. clear I. pose proof (eval_range x Hx) as R. pose proof (init_words x Hx) as Wi. pose proof (init_last x N) as EX.
  assert (Lb : forall w, In w (removelast x) -> 0 <= w < B). { intros w Iw. unfold all_words in Wi. rewrite Forall_forall in Wi. specialize (Wi w Iw). unfold is_word in Wi. rewrite B32. exact Wi. }
  split.
  - intros F. rewrite Forall_forall in F. destruct (Forall_dec (fun w => w = 0) (fun w => Z.eq_dec w 0) (removelast x)) as [D|D]; [left; exact D|right].
    assert (Q : exists w, In w (removelast x) /\ w <> 0). { clear -D. induction (removelast x) as [|w l IH]; [destruct D; constructor|]. destruct (Z.eq_dec w 0) as [->|K]; [|exists w; split; [left; reflexivity|exact K]]. destruct IH as (v & I1 & I2); [intros G; apply D; constructor; [reflexivity|exact G]|]. exists v. split; [right; exact I1|exact I2]. }
    destruct Q as (w & Iw & Nw). pose proof (F w Iw) as Fw. pose proof (Lb w Iw) as Bw. assert (XB : eval x < 2 ^ 32) by nia.
    (* so only the first word is not zero *)
    destruct x as [|x0 t]; [contradiction|]. pose proof Hx as Hx'. apply words_cons in Hx'. destruct Hx' as (H0 & Ht). pose proof (eval_range t Ht) as Rt. rewrite eval_cons, B32 in *.
    assert (T0 : eval t = 0) by lia. destruct t as [|t0 t]; [cbn in Iw; contradiction|]. change (removelast (x0 :: t0 :: t)) with (x0 :: removelast (t0 :: t)) in *.
    pose proof (F x0 (or_introl eq_refl)) as F0. cbn beta in F0. rewrite T0, Z.mul_0_r, Z.add_0_r in F0 |- *. apply Z.nle_gt. intros G. assert (2 ^ 16 * 2 ^ 16 <= x0 * x0) by (apply Z.mul_le_mono_nonneg; lia). lia.
  - intros [F|S]; rewrite Forall_forall in *.
    + intros w Iw. rewrite (F w Iw), Z.mul_0_r. lia.
    + intros w Iw. assert (Le : w <= eval x).
      { clear -Iw Lb EX R Hx N. rewrite EX. assert (K : w <= eval (removelast x)). { clear EX R. pose proof (init_words x Hx) as Wi. induction (removelast x) as [|v l IH]; [destruct Iw|]. apply words_cons in Wi. destruct Wi as (Wv & Wl). pose proof (eval_range l Wl). rewrite eval_cons. destruct Iw as [->|Iw]; [nia|]. specialize (IH (fun u Iu => Lb u (or_intror Iu)) Iw Wl). nia. }
        pose proof (last_word x Hx). pose proof (Bn_pos (length (removelast x))). nia. }
      pose proof (Lb w Iw). assert (eval x * w <= (2 ^ 16 - 1) * (2 ^ 16 - 1)) by (apply Z.mul_le_mono_nonneg; lia). lia.
Qed.
Lemma mul_n_wrong (n : nat) : (2 <= n)%nat -> exists x y, all_words x /\ all_words y /\ length x = n /\ length y = n /\ eval (mul_n x y) < eval x * eval y.
Proof.
  intros Hn. destruct n as [|[|n]]; [lia|lia|]. exists (0 :: 1 :: repeat 0 n), (1 :: 0 :: repeat 0 n).
  assert (Z0 : all_words (repeat 0 n)). { unfold all_words. apply Forall_forall. intros w I. apply repeat_spec in I. subst w. unfold is_word. lia. }
  assert (E0 : eval (repeat 0 n) = 0). { clear. induction n; [reflexivity|]. cbn [repeat]. rewrite eval_cons, IHn. lia. }
  assert (W0 : 0 <= 0 < B) by (rewrite B32; lia). assert (W1 : 0 <= 1 < B) by (rewrite B32; lia).
  assert (Wx : all_words (0 :: 1 :: repeat 0 n)) by (do 2 (apply words_cons; split; [assumption|]); exact Z0).
  assert (Wy : all_words (1 :: 0 :: repeat 0 n)) by (do 2 (apply words_cons; split; [assumption|]); exact Z0).
  split; [exact Wx|]. split; [exact Wy|]. split; [cbn [length]; rewrite repeat_length; reflexivity|]. split; [cbn [length]; rewrite repeat_length; reflexivity|].
  destruct (mul_n_right _ _ Wx Wy eq_refl ltac:(discriminate)) as (Le & I). apply Z.le_neq. split; [exact Le|]. intros K. apply I in K.
  change (removelast (1 :: 0 :: repeat 0 n)) with (1 :: removelast (0 :: repeat 0 n)) in K. inversion K as [|? ? K1 K2 EK]. rewrite !eval_cons, E0, B32 in K1. lia.
Qed.
