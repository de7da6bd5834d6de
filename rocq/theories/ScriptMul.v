(** Multiples of points in scripts/ec.py. *)
From Coq Require Import List ZArith Znumtheory Bool Lia.
From Verif Require Import EcGroup EcGroupProofs EcSpec EcScalar ZpField EcdsaSpec ScriptModel ScriptSpec ScriptProofs ScriptPoints.
Import ListNotations.
Open Scope Z_scope.

(** the number a list of binary digits stands for, from the highest *)
Definition digits (l : list bool) : Z := fold_left (fun v d => 2 * v + Z.b2z d) l 0.
Lemma digits_snoc l d : digits (l ++ [d]) = 2 * digits l + Z.b2z d.
Proof. unfold digits. rewrite fold_left_app. reflexivity. Qed.
Lemma bits_digits k : digits (bits_of k) = Zpos k.
Proof. induction k as [k IH|k IH|]; cbn [bits_of]; rewrite ?digits_snoc, ?IH; cbn [Z.b2z]; [lia|lia|reflexivity]. Qed.
Lemma false_digits n l : digits (repeat false n ++ l) = digits l.
Proof. unfold digits. rewrite fold_left_app. f_equal. induction n as [|n IH]; [reflexivity|]. exact IH. Qed.
Lemma bin2_digits a : digits (bin2 a) = Z.abs a.
Proof. destruct a as [|k|k]; cbn [bin2 Z.abs]; [reflexivity|apply bits_digits|]. exact (eq_trans (false_digits 1 (bits_of k)) (bits_digits k)). Qed.
Lemma pad_digits n a : digits (pad n (bin2 a)) = Z.abs a.
Proof. unfold pad. rewrite false_digits. apply bin2_digits. Qed.
Lemma pad_len n l : (length l <= n)%nat -> length (pad n l) = n.
Proof. intros H. unfold pad. rewrite app_length, repeat_length. lia. Qed.
(** the same for the two components of a list of columns *)
Definition col1 (v : Z) (l : list (bool * bool)) : Z := fold_left (fun v d => 2 * v + Z.b2z (fst d)) l v.
Definition col2 (v : Z) (l : list (bool * bool)) : Z := fold_left (fun v d => 2 * v + Z.b2z (snd d)) l v.
Lemma col1_combine l : forall l' v, length l = length l' -> col1 v (List.combine l l') = fold_left (fun v d => 2 * v + Z.b2z d) l v.
Proof. induction l as [|d l IH]; intros [|d' l'] v H; try discriminate; [reflexivity|]. injection H as H. exact (IH l' _ H). Qed.
Lemma col2_combine l : forall l' v, length l = length l' -> col2 v (List.combine l l') = fold_left (fun v d => 2 * v + Z.b2z d) l' v.
Proof. induction l as [|d l IH]; intros [|d' l'] v H; try discriminate; [reflexivity|]. injection H as H. exact (IH l' _ H). Qed.
Lemma columns_1 a b : col1 0 (columns a b) = Z.abs a.
Proof. unfold columns. rewrite col1_combine; [apply pad_digits|]. rewrite !pad_len by lia. reflexivity. Qed.
Lemma columns_2 a b : col2 0 (columns a b) = Z.abs b.
Proof. unfold columns. rewrite col2_combine; [apply pad_digits|]. rewrite !pad_len by lia. reflexivity. Qed.

Section MUL.
Variable cv : pycurve.
Notation p := (py_p cv).
Hypothesis Pp : prime p.
Notation F := (Zp p Pp).
Notation A := (sa cv Pp).
Notation Bc := (sb cv Pp).
Notation pt := (spt Pp).
Notation on := (son cv Pp).
Hypothesis SM : smooth cv Pp.
Hypothesis NT : no_two cv Pp.
Let P2 : 2 < p. Proof. apply SM. Qed.
Let D0 : disc A Bc <> 0%f. Proof. apply SM. Qed.
Notation two := (s_two cv Pp P2).
Notation "P ++ Q" := (padd A P Q).
(** a point with coordinates in [0, p) of the curve *)
Definition nice (P : pypoint) : Prop := tidy p P /\ on P.
Lemma nice_none : nice None. Proof. split; exact I. Qed.
Lemma add_total P Q : nice P -> nice Q -> exists R, ec_add P Q cv = Ret R /\ nice R /\ pt R = pt P ++ pt Q.
Proof.
  intros (TP & HP) (TQ & HQ). destruct (add_ok cv Pp P2 P Q TP TQ HP HQ) as [((R & E & T & V) & _)|(_ & x & -> & _)].
  - exists R. split; [exact E|]. split; [|exact V]. split; [exact T|]. unfold son. rewrite V. apply padd_curve; [exact two|exact HP|exact HQ].
  - exfalso. apply (NT (zmk p Pp x)). exact HP.
Qed.
Lemma mul_loop_ok k : forall R T, nice R -> nice T -> exists S, mul_loop k R T cv = Ret S /\ nice S /\ pt S = pt R ++ zmul A (Zpos k) (pt T).
Proof.
  induction k as [k IH|k IH|]; intros R T HR HT; cbn [mul_loop]; destruct (add_total T T HT HT) as (T2 & ET & NT2 & VT); pose proof (proj2 HT) as OT; pose proof (proj2 HR) as OR; fold A Bc in *.
  - destruct (add_total R T HR HT) as (R' & ER & NR & VR). rewrite ER, ET. cbn [pbind]. destruct (IH R' T2 NR NT2) as (S & ES & NS & VS). exists S. split; [exact ES|]. split; [exact NS|].
    rewrite VS, VR, VT. rewrite Pos2Z.inj_xI, (zmul_succ F A Bc two D0) by exact OT. rewrite (zmul_dbl F A Bc two D0) by exact OT. rewrite (zmul_sum F A Bc two D0) by exact OT.
    assert (OK : on_curve A Bc (zmul A (Zpos k) (pt T))) by (apply zmul_curve; [exact two|exact OT]).
    rewrite (add_assoc F A Bc two D0 (pt R) (pt T)); [reflexivity|exact OR|exact OT|]. apply add_curve; [exact two|exact OK|exact OK].
  - rewrite ET. cbn [pbind]. destruct (IH R T2 HR NT2) as (S & ES & NS & VS). exists S. split; [exact ES|]. split; [exact NS|].
    rewrite VS, VT, Pos2Z.inj_xO, (zmul_dbl F A Bc two D0), (zmul_sum F A Bc two D0) by exact OT. reflexivity.
  - destruct (add_total R T HR HT) as (R' & ER & NR & VR). rewrite ER, ET. cbn [pbind]. exists R'. split; [reflexivity|]. split; [exact NR|]. rewrite VR, zmul_1. reflexivity.
Qed.
Hypothesis N0 : py_n cv <> 0.
(** k P, or the identity when n divides k *)
Definition multiple (k : Z) (P : pypoint) : point F := if k mod py_n cv =? 0 then Inf else zmul A k (pt P).
Lemma mul_nonneg_ok P k : nice P -> 0 <= k -> exists R, ec_mul_nonneg P k cv = Ret R /\ nice R /\ pt R = multiple k P.
Proof.
  intros NP Hk. unfold ec_mul_nonneg, multiple. rewrite (assert_ok cv Pp P (proj2 NP)), pymod_ok by exact N0. cbn [pbind].
  destruct (k mod py_n cv =? 0) eqn:E; cbn [orb]; [exists None; split; [reflexivity|]; split; [exact nice_none|reflexivity]|].
  destruct P as [xy|]; cbn [is_none]; [|exists None; split; [reflexivity|]; split; [exact nice_none|]; cbn [spt]; rewrite zmul_inf; reflexivity].
  destruct k as [|k|k]; [rewrite Z.mod_0_l in E by exact N0; discriminate| |lia].
  destruct (mul_loop_ok k None (Some xy) nice_none NP) as (S & -> & NS & VS). cbn [pbind]. rewrite (assert_ok cv Pp S (proj2 NS)). cbn [pbind].
  exists S. split; [reflexivity|]. split; [exact NS|]. rewrite VS. reflexivity.
Qed.
Lemma mul_ok P k : nice P -> exists R, ec_mul P k cv = Ret R /\ nice R /\ pt R = multiple k P.
Proof.
  intros NP. unfold ec_mul. destruct (Z.ltb_spec k 0) as [K|K]; [|apply mul_nonneg_ok; [exact NP|lia]].
  rewrite (assert_ok cv Pp P (proj2 NP)), pymod_ok by exact N0. cbn [pbind]. unfold multiple.
  destruct (k mod py_n cv =? 0) eqn:E; cbn [orb]; [exists None; split; [reflexivity|]; split; [exact nice_none|reflexivity]|].
  destruct P as [xy|]; cbn [is_none]; [|exists None; split; [reflexivity|]; split; [exact nice_none|]; cbn [spt]; rewrite zmul_inf; reflexivity].
  destruct (neg_ok cv Pp (Some xy) (proj2 NP)) as (Q & -> & VQ & OQ & TQ). cbn [pbind].
  destruct (mul_nonneg_ok Q (- k) (conj (TQ (proj1 NP)) OQ) ltac:(lia)) as (R & -> & NR & VR). exists R. split; [reflexivity|]. split; [exact NR|]. rewrite VR. unfold multiple.
  assert (E' : (- k) mod py_n cv =? 0 = false) by (apply Z.eqb_neq; intros H; apply Z.eqb_neq in E; apply E; apply Z.mod_divide in H; [|exact N0]; apply Z.mod_divide; [exact N0|]; apply Z.divide_opp_r; exact H).
  rewrite E', VQ, (zmul_popp F A Bc two), (zmul_opp F A Bc) by exact (proj2 NP). apply opp_opp.
Qed.
Lemma mul_bad P k : ~ on P -> ec_mul P k cv = Raise AssertionError.
Proof. intros H. unfold ec_mul, ec_mul_nonneg. rewrite (assert_bad cv Pp P H). destruct (k <? 0); reflexivity. Qed.
Lemma fast_loop_ok P Q pq : nice P -> nice Q -> nice pq -> pt pq = pt P ++ pt Q -> forall l R v w, nice R -> pt R = zmul A v (pt P) ++ zmul A w (pt Q) ->
  exists S, fast_loop l R P Q pq cv = Ret S /\ nice S /\ pt S = zmul A (col1 v l) (pt P) ++ zmul A (col2 w l) (pt Q).
Proof.
  intros NP NQ NS VS. pose proof (proj2 NP) as OP. pose proof (proj2 NQ) as OQ. induction l as [|(i, j) l IH]; intros R v w NR VR; cbn [fast_loop].
  - exists R. split; [reflexivity|]. split; [exact NR|exact VR].
  - unfold ec_double. destruct (add_total R R NR NR) as (R2 & -> & NR2 & VR2). cbn [pbind].
    assert (STEP : exists R3, (if i && j then ec_add R2 pq cv else if i then ec_add R2 P cv else if j then ec_add R2 Q cv else Ret R2) = Ret R3 /\ nice R3 /\
      pt R3 = zmul A (2 * v + Z.b2z i) (pt P) ++ zmul A (2 * w + Z.b2z j) (pt Q)).
    { pose proof (EcScalar.combine F A Bc two D0 v w (pt P) (pt Q) (Z.b2z i) (Z.b2z j) OP OQ) as CB. rewrite <- CB, <- VR, <- VR2. clear CB.
      destruct i, j; cbn [andb Z.b2z]; rewrite ?zmul_1, ?zmul_0.
      - destruct (add_total R2 pq NR2 NS) as (R3 & -> & NR3 & VR3). exists R3. rewrite VR3, VS. auto.
      - destruct (add_total R2 P NR2 NP) as (R3 & -> & NR3 & VR3). exists R3. rewrite VR3, padd_0_r. auto.
      - destruct (add_total R2 Q NR2 NQ) as (R3 & -> & NR3 & VR3). exists R3. rewrite VR3. auto.
      - exists R2. cbn [padd]. rewrite padd_0_r. auto. }
    destruct STEP as (R3 & -> & NR3 & VR3). cbn [pbind]. exact (IH R3 _ _ NR3 VR3).
Qed.
Lemma fast_ok a P b Q : nice P -> nice Q -> a <> 0 -> b <> 0 -> P <> Q -> a < py_n cv -> b < py_n cv ->
  exists R, ec_mul_add_fast a P b Q cv = Ret R /\ nice R /\ pt R = zmul A (Z.abs a) (pt P) ++ zmul A (Z.abs b) (pt Q).
Proof.
  intros NP NQ Ha Hb PQ La Lb. unfold ec_mul_add_fast. rewrite (proj2 (Z.eqb_neq _ _) Ha), (proj2 (Z.eqb_neq _ _) Hb).
  assert (SP : same_point P Q = false).
  { destruct P as [[x y]|], Q as [[u v]|]; try reflexivity; [|congruence]. cbn [same_point]. apply not_true_is_false. intros E. apply andb_prop in E as (E1 & E2). apply Z.eqb_eq in E1, E2. congruence. }
  rewrite SP, !(proj2 (Z.leb_gt _ _)) by assumption. cbn [orb]. destruct (add_total P Q NP NQ) as (S & -> & NS & VS). cbn [pbind].
  destruct (fast_loop_ok P Q S NP NQ NS VS (columns a b) None 0 0 nice_none) as (R & -> & NR & VR).
  { rewrite !zmul_0. reflexivity. }
  cbn [pbind]. rewrite (assert_ok cv Pp R (proj2 NR)). cbn [pbind]. exists R. rewrite columns_1, columns_2 in VR. auto.
Qed.
Lemma fast_refused a P b Q : a <> 0 -> b <> 0 -> P <> Q -> py_n cv <= a \/ py_n cv <= b -> ec_mul_add_fast a P b Q cv = Raise ValueError.
Proof.
  intros Ha Hb PQ L. unfold ec_mul_add_fast. rewrite (proj2 (Z.eqb_neq _ _) Ha), (proj2 (Z.eqb_neq _ _) Hb).
  assert (SP : same_point P Q = false).
  { destruct P as [[x y]|], Q as [[u v]|]; try reflexivity; [|congruence]. cbn [same_point]. apply not_true_is_false. intros E. apply andb_prop in E as (E1 & E2). apply Z.eqb_eq in E1, E2. congruence. }
  rewrite SP. destruct L as [L|L]; rewrite (proj2 (Z.leb_le _ _) L), ?orb_true_r; reflexivity.
Qed.
Lemma same_refl P : same_point P P = true.
Proof. destruct P as [[x y]|]; [|reflexivity]. cbn [same_point]. rewrite !Z.eqb_refl. reflexivity. Qed.
Lemma point_eq_dec (P Q : pypoint) : {P = Q} + {P <> Q}.
Proof. repeat decide equality. Qed.
(** with an order that kills both points *)
Lemma fast_sum a P b Q : nice P -> nice Q -> zmul A (py_n cv) (pt P) = Inf -> zmul A (py_n cv) (pt Q) = Inf -> 0 <= a < py_n cv -> 0 <= b < py_n cv ->
  exists R, ec_mul_add_fast a P b Q cv = Ret R /\ nice R /\ pt R = zmul A a (pt P) ++ zmul A b (pt Q).
Proof.
  intros NP NQ KP KQ Ha Hb. pose proof (proj2 NP) as OP. pose proof (proj2 NQ) as OQ.
  assert (MU : forall k P, nice P -> zmul A (py_n cv) (pt P) = Inf -> exists R, ec_mul P k cv = Ret R /\ nice R /\ pt R = zmul A k (pt P)).
  { intros k P' NP' K. destruct (mul_ok P' k NP') as (R & E & NR & VR). exists R. split; [exact E|]. split; [exact NR|]. rewrite VR. unfold multiple.
    destruct (Z.eqb_spec (k mod py_n cv) 0) as [Z|Z]; [|reflexivity]. rewrite <- (zmul_mod F A Bc two D0 (py_n cv) k) by (first [exact (proj2 NP')|exact K]). rewrite Z. reflexivity. }
  destruct (Z.eq_dec a 0) as [->|Na].
  - unfold ec_mul_add_fast. cbn [Z.eqb]. destruct (MU b Q NQ KQ) as (R & E & NR & VR). exists R. split; [exact E|]. split; [exact NR|]. rewrite VR, zmul_0. reflexivity.
  - destruct (Z.eq_dec b 0) as [->|Nb].
    + unfold ec_mul_add_fast. rewrite (proj2 (Z.eqb_neq _ _) Na). cbn [Z.eqb]. destruct (MU a P NP KP) as (R & E & NR & VR). exists R. split; [exact E|]. split; [exact NR|]. rewrite VR, zmul_0, padd_0_r. reflexivity.
    + destruct (point_eq_dec P Q) as [<-|PQ].
      * unfold ec_mul_add_fast. rewrite (proj2 (Z.eqb_neq _ _) Na), (proj2 (Z.eqb_neq _ _) Nb), same_refl. destruct (MU (a + b) P NP KP) as (R & E & NR & VR). exists R. split; [exact E|]. split; [exact NR|].
        rewrite VR. apply (zmul_add F A Bc two D0). exact OP.
      * destruct (fast_ok a P b Q NP NQ Na Nb PQ ltac:(lia) ltac:(lia)) as (R & E & NR & VR). exists R. split; [exact E|]. split; [exact NR|]. rewrite VR, !Z.abs_eq by lia. reflexivity.
Qed.
End MUL.
