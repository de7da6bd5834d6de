From Coq Require Import ZArith Lia.
From Verif Require Import Outcome LoopModel.
Open Scope Z_scope.

(** A loop whose measure strictly decreases reaches [Done] within 2^k steps when the measure is
    below 2^k; the invariant holds up to there. *)
Lemma loop2_ind {S R} (step : S -> loopres S R) (I : S -> Prop) (P : R -> Prop) (m : S -> Z) :
  (forall s, I s -> 0 <= m s) ->
  (forall s, I s -> match step s with
                    | Next s' => I s' /\ m s' < m s
                    | Done r => P r
                    end) ->
  forall k s, I s ->
    match loop2 k step s with
    | Next s' => I s' /\ m s' <= m s - 2 ^ Z.of_nat k
    | Done r => P r
    end.
Proof.
  intros Hpos Hstep k. induction k as [|k IH]; intros s Hs.
  - cbn [loop2]. specialize (Hstep s Hs). destruct (step s); [|exact Hstep].
    destruct Hstep; split; [assumption|]. change (2 ^ Z.of_nat 0) with 1. lia.
  - cbn [loop2]. pose proof (IH s Hs) as H1. destruct (loop2 k step s) as [s'|r]; [|exact H1].
    destruct H1 as [Hs' Hm]. pose proof (IH s' Hs') as H2. destruct (loop2 k step s') as [s''|r]; [|exact H2].
    destruct H2 as [Hs'' Hm2]. split; [assumption|].
    rewrite Nat2Z.inj_succ, Z.pow_succ_r by lia. lia.
Qed.

Lemma run_loop_ind {S A} (step : S -> loopres S (outcome A)) (I : S -> Prop) (P : outcome A -> Prop) (m : S -> Z) k s :
  (forall s, I s -> 0 <= m s) ->
  (forall s, I s -> match step s with
                    | Next s' => I s' /\ m s' < m s
                    | Done r => P r
                    end) ->
  I s -> m s < 2 ^ Z.of_nat k ->
  P (run_loop k step s).
Proof.
  intros Hpos Hstep Hs Hk. unfold run_loop.
  pose proof (loop2_ind step I P m Hpos Hstep k s Hs) as H.
  destruct (loop2 k step s) as [s'|r]; [|exact H].
  destruct H as [Hs' Hm]. specialize (Hpos s' Hs'). lia.
Qed.
