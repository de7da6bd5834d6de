From Coq Require Import List ZArith Bool Lia.
From Verif Require Import Outcome LoopModel WordsModel WordsSpec WordsProofs RawModel RawSpec RawProofs RawLoops.
Import ListNotations.
Open Scope nat_scope.

Definition extends (m m' : memory) : Prop := exists e, m' = m ++ e.

Lemma nth_error_same {A} (u v : list A) : (forall k, nth_error u k = nth_error v k) -> u = v.
Proof.
  revert v. induction u as [|a u IH]; intros [|b v] H; [reflexivity|specialize (H 0); discriminate|specialize (H 0); discriminate|].
  f_equal; [specialize (H 0); now injection H|apply IH; intros k; apply (H (S k))].
Qed.
Lemma mem_same (m m' : memory) : shape m = shape m' -> (forall b k, rd m b k = rd m' b k) -> m = m'.
Proof.
  revert m'. induction m as [|d m IH]; intros [|d' m'] S H; try discriminate; [reflexivity|].
  unfold shape in *. cbn [map] in S. injection S as L S. f_equal; [|apply IH; [assumption|intros b k; apply (H (Datatypes.S b) k)]].
  apply nth_error_same. intros k. apply (H 0 k).
Qed.
Lemma rd_app m e b k : rd (m ++ e) b k = if Nat.ltb b (length m) then rd m b k else rd e (b - length m) k.
Proof. unfold rd. destruct (Nat.ltb_spec b (length m)); [now rewrite nth_error_app1|now rewrite nth_error_app2]. Qed.
Lemma rd_none m b k : length m <= b -> rd m b k = None.
Proof. intros H. unfold rd. now rewrite (proj2 (nth_error_None m b) H). Qed.
Lemma rd_block m b k : rd m b k <> None -> b < length m.
Proof. intros H. destruct (le_lt_dec (length m) b); [|assumption]. now rewrite rd_none in H. Qed.
Lemma room_block m p n : room m p n -> 0 < n -> fst p < length m.
Proof. intros H L. apply (rd_block m _ (snd p + 0)). now apply H. Qed.
Lemma rd_leave m m' b k : rd (leave m m') b k = if Nat.ltb b (length m) then rd m' b k else None.
Proof.
  unfold leave, rd. destruct (Nat.ltb_spec b (length m)) as [L|L].
  - enough (E : nth_error (firstn (length m) m') b = nth_error m' b) by now rewrite E.
    revert L. generalize (length m). revert b. induction m' as [|d m' IH]; intros b n L; [now rewrite firstn_nil|].
    destruct n; [lia|]. destruct b; [reflexivity|]. apply IH. lia.
  - rewrite (proj2 (nth_error_None (firstn (length m) m') b)); [reflexivity|]. rewrite firstn_length. lia.
Qed.
Lemma shape_length m : length (shape m) = length m. Proof. apply map_length. Qed.
Lemma leave_extends m m1 : extends m m1 -> leave m m1 = m.
Proof. intros [e ->]. unfold leave. rewrite firstn_app, Nat.sub_diag, firstn_all, firstn_O. apply app_nil_r. Qed.
Lemma leave_shape m m1 m2 : extends m m1 -> shape m2 = shape m1 -> shape (leave m m2) = shape m.
Proof.
  intros [e ->] S. unfold leave, shape in *. rewrite <- firstn_map, S, map_app, firstn_app, map_length, Nat.sub_diag, firstn_O, app_nil_r.
  apply firstn_all2. now rewrite map_length.
Qed.
Lemma extends_refl m : extends m m. Proof. exists []. now rewrite app_nil_r. Qed.
Lemma extends_trans m m1 m2 : extends m m1 -> extends m1 m2 -> extends m m2.
Proof. intros [e ->] [f ->]. exists (e ++ f). now rewrite app_assoc. Qed.
Lemma extends_length m m1 : extends m m1 -> length m <= length m1.
Proof. intros [e ->]. rewrite app_length. lia. Qed.
Lemma extends_rd m m1 b k : extends m m1 -> b < length m -> rd m1 b k = rd m b k.
Proof. intros [e ->] H. rewrite rd_app. now apply Nat.ltb_lt in H as ->. Qed.
Lemma extends_rd' m m1 b k : extends m m1 -> rd m b k <> None -> rd m1 b k = rd m b k.
Proof. intros E H. apply extends_rd; [assumption|]. now apply rd_block in H. Qed.
Lemma extends_reads m m1 p ws : extends m m1 -> reads m p ws -> reads m1 p ws.
Proof. intros E R j Hj. rewrite (extends_rd' m m1) by (try assumption; rewrite (R j Hj); discriminate). now apply R. Qed.
Lemma extends_room m m1 p n : extends m m1 -> room m p n -> room m1 p n.
Proof. intros E R j Hj. rewrite (extends_rd' m m1) by (try assumption; now apply R). now apply R. Qed.
(* m1 keeps m as its first arrays when only later arrays are written *)
Lemma extends_leave m m1 m2 : extends m m1 -> shape m2 = shape m1 -> (forall b k, b < length m -> rd m2 b k = rd m b k) -> extends m m2.
Proof.
  intros E S H. exists (skipn (length m) m2). rewrite <- (firstn_skipn (length m) m2) at 1. f_equal. symmetry. apply mem_same.
  - symmetry. apply (leave_shape m m1 m2 E S).
  - intros b k. change (rd m b k = rd (leave m m2) b k). rewrite rd_leave. destruct (Nat.ltb_spec b (length m)); [now rewrite H|now apply rd_none].
Qed.
Lemma extends_writes m m1 p ws m2 : extends m m1 -> writes m1 p ws m2 -> length m <= fst p -> extends m m2.
Proof.
  intros E [S W] L. apply (extends_leave m m1 m2 E S). intros b k Hb. rewrite (proj2 (W b k)) by (unfold within; lia). now apply extends_rd.
Qed.
Lemma alloca_ok m junk n : exists m1, alloca m junk n = (m1, (length m, 0)) /\ extends m m1 /\ room m1 (length m, 0) n /\ length m1 = S (length m).
Proof.
  unfold alloca. eexists; split; [reflexivity|]. split; [eexists; reflexivity|]. split; [|rewrite app_length; cbn [length]; lia].
  intros j Hj. cbn [fst snd]. rewrite rd_app, Nat.ltb_irrefl, Nat.sub_diag. unfold rd. cbn [nth_error].
  apply nth_error_Some. rewrite map_length, seq_length. lia.
Qed.

Lemma leave_reads m m2 p ws : reads m2 p ws -> fst p < length m -> reads (leave m m2) p ws.
Proof. intros R L j Hj. rewrite rd_leave. apply Nat.ltb_lt in L as ->. now apply R. Qed.
Lemma leave_writes m m1 p ws m2 : extends m m1 -> writes m1 p ws m2 -> fst p < length m -> writes m p ws (leave m m2).
Proof.
  intros E [S W] L. split; [apply (leave_shape m m1 m2 E S)|]. intros b k. rewrite rd_leave. destruct (Nat.ltb_spec b (length m)) as [Hb|Hb].
  - rewrite <- (extends_rd m m1 b k E Hb). apply W.
  - unfold within. split; [lia|]. intros _. symmetry. now apply rd_none.
Qed.

Lemma only_refl m rs : only m m rs. Proof. split; reflexivity. Qed.
Lemma only_trans m m1 m2 rs : only m m1 rs -> only m1 m2 rs -> only m m2 rs.
Proof. intros [S1 H1] [S2 H2]. split; [congruence|]. intros b k N. rewrite H2 by assumption. now apply H1. Qed.
Lemma only_leave m m1 m2 rs : extends m m1 -> only m1 m2 rs -> only m (leave m m2) (filter (fun r => Nat.ltb (fst (fst r)) (length m)) rs).
Proof.
  intros E [S H]. split; [apply (leave_shape m m1 m2 E S)|]. intros b k N. rewrite rd_leave. destruct (Nat.ltb_spec b (length m)) as [Hb|Hb].
  - rewrite H; [now apply extends_rd|]. intros r Hr W. apply (N r); [|assumption]. apply filter_In. split; [assumption|]. apply Nat.ltb_lt. destruct W as [W _]. rewrite W in Hb. exact Hb.
  - symmetry. now apply rd_none.
Qed.
(* a range that contains another absorbs it *)
Lemma only_mono m m' rs rs' : only m m' rs -> (forall r, In r rs -> exists r', In r' rs' /\ forall b k, within (fst r) (snd r) b k -> within (fst r') (snd r') b k) -> only m m' rs'.
Proof. intros [S H] I. split; [assumption|]. intros b k N. apply H. intros r Hr W. destruct (I r Hr) as (r' & Hr' & Hw). exact (N r' Hr' (Hw b k W)). Qed.
Lemma only_reads m m' rs p ws : only m m' rs -> reads m p ws -> (forall r, In r rs -> apart (fst r) (snd r) p (length ws)) -> reads m' p ws.
Proof. intros [S H] R A j Hj. rewrite H; [now apply R|]. intros r Hr. specialize (A r Hr). unfold within, apart in *. lia. Qed.
Lemma only_room m m' rs p n : only m m' rs -> room m p n -> room m' p n.
Proof. intros [S _] R j Hj. apply (shape_rd m m' _ _ S). now apply R. Qed.
Lemma only_length m m' rs : only m m' rs -> length m' = length m.
Proof. intros [S _]. rewrite <- (map_length (@length Z) m'), S. apply map_length. Qed.
