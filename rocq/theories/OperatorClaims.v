(** The operators of bigint against the integers. *)
From Coq Require Import ZArith List Bool Lia.
From Verif Require Import Outcome LoopModel WordsModel WordsSpec WordsProofs BigintModel BigintSpec BigintProofs BigintBits BigintClaims NumModel NumProofs NumLcm OperatorModel OperatorSpec.
Import ListNotations.
Open Scope Z_scope.

Section OPS.
Variable c : cap.
Lemma room_mono m n : (m <= n)%nat -> room c n -> room c m.
Proof. destruct c; cbn; [lia|trivial]. Qed.
Lemma big_claim a o : valid c a -> operand_ok c o -> room c (size a + operand_size a o + 1) ->
  (match o with KInt _ | KWord _ => False | _ => True end) ->
  exists b, big_of c a o = Ok b /\ valid c b /\ value b = operand_value (value a) o /\ (size b <= operand_size a o)%nat.
Proof.
  intros Va Vo R K. assert (S1 : (1 <= size a)%nat) by (destruct Va as (_ & S & _); lia).
  destruct o as [k|k|k|k|b|]; try contradiction; cbn [big_of operand_value operand_size operand_ok] in *.
  - destruct (of_64_value c k (room_mono 2 (size a + 2 + 1) ltac:(lia) R)) as (_ & H). destruct (H Vo) as (b & E & (V & _) & E2). exists b. split; [exact E|]. split; [exact V|]. split; [exact E2|].
    apply (size_le_iff c b 2 V); [lia|]. rewrite (abs_magnitude c b V), E2, Bn_pow2. change (2 ^ (32 * Z.of_nat 2)) with (2 ^ 64). lia.
  - destruct (of_64_value c k (room_mono 2 (size a + 2 + 1) ltac:(lia) R)) as (H & _). destruct (H Vo) as (b & E & (V & _) & E2). exists b. split; [exact E|]. split; [exact V|]. split; [exact E2|].
    apply (size_le_iff c b 2 V); [lia|]. rewrite (abs_magnitude c b V), E2, Bn_pow2. change (2 ^ (32 * Z.of_nat 2)) with (2 ^ 64). lia.
  - exists b. auto.
  - exists a. auto.
Qed.

Lemma zero_valid : room c 1 -> valid c (zero c).
Proof. intros R. apply (zero_spec c R). Qed.
Lemma add_any asg a o : valid c a -> operand_ok c o -> room c (size a + operand_size a o + 1) ->
  exists r, run asg Plus c a o = Ok r /\ valid c r /\ value r = value a + operand_value (value a) o.
Proof.
  intros Va Vo R. assert (R1 : room c (size a + 1)) by (apply (room_mono _ (size a + operand_size a o + 1)); [lia|exact R]).
  assert (V0 : valid c (zero c)) by (apply zero_valid, (valid_room1 c a Va)).
  destruct o as [k|k|k|k|b|].
  1: destruct asg; (eexists; split; [reflexivity|]); apply adds1_spec; auto using valid_stor; discriminate.
  1: destruct asg; (eexists; split; [reflexivity|]); apply addu1_spec; auto using valid_stor; discriminate.
  all: match goal with |- context [run _ _ _ _ ?o] => destruct (big_claim a o Va Vo R I) as (d & E & Vd & <- & Sd) end;
    assert (RM : room c (Nat.max (size a) (size d) + 1)) by (refine (room_mono _ _ _ R); destruct Va as (_ & S & _); destruct Vd as (_ & S' & _); lia);
    destruct asg; cbn [run bin_add asg_add]; rewrite E; cbn [bind]; (eexists; split; [reflexivity|]); apply add_claim; assumption.
Qed.
Lemma sub_any asg a o : valid c a -> operand_ok c o -> room c (size a + operand_size a o + 1) ->
  exists r, run asg Minus c a o = Ok r /\ valid c r /\ value r = value a - operand_value (value a) o.
Proof.
  intros Va Vo R. assert (R1 : room c (size a + 1)) by (apply (room_mono _ (size a + operand_size a o + 1)); [lia|exact R]).
  assert (V0 : valid c (zero c)) by (apply zero_valid, (valid_room1 c a Va)).
  destruct o as [k|k|k|k|b|].
  1: destruct asg; (eexists; split; [reflexivity|]); apply subs1_spec; auto using valid_stor; discriminate.
  1: destruct asg; (eexists; split; [reflexivity|]); apply subu1_spec; auto using valid_stor; discriminate.
  all: match goal with |- context [run _ _ _ _ ?o] => destruct (big_claim a o Va Vo R I) as (d & E & Vd & <- & Sd) end;
    assert (RM : room c (Nat.max (size a) (size d) + 1)) by (refine (room_mono _ _ _ R); destruct Va as (_ & S & _); destruct Vd as (_ & S' & _); lia);
    destruct asg; cbn [run bin_sub asg_sub]; rewrite E; cbn [bind]; (eexists; split; [reflexivity|]); apply sub_claim; assumption.
Qed.
Lemma mul_any asg a o : valid c a -> operand_ok c o -> room c (size a + operand_size a o + 1) ->
  exists r, run asg Times c a o = Ok r /\ valid c r /\ value r = value a * operand_value (value a) o.
Proof.
  intros Va Vo R. assert (R1 : room c (size a + 1)) by (apply (room_mono _ (size a + operand_size a o + 1)); [lia|exact R]).
  assert (V0 : valid c (zero c)) by (apply zero_valid, (valid_room1 c a Va)).
  destruct o as [k|k|k|k|b|].
  1: destruct asg; (eexists; split; [reflexivity|]); apply muls1_claim; assumption.
  1: destruct asg; (eexists; split; [reflexivity|]); apply mulu1_claim; assumption.
  all: match goal with |- context [run _ _ _ _ ?o] => destruct (big_claim a o Va Vo R I) as (d & E & Vd & Ed & Sd); rewrite <- Ed end;
    assert (RM : room c (size a + size d)) by (refine (room_mono _ _ _ R); lia);
    destruct asg; cbn [run bin_mul asg_mul is_self]; rewrite E; cbn [bind].
  all: try (destruct (mul_claim c false false (zero c) a d V0 Va Vd RM ltac:(discriminate) ltac:(discriminate)) as (r & -> & V & Er); exists r; auto; fail).
  4:{ cbn [big_of] in E. injection E as <-. destruct (mul_claim c true true a a a Va Va Va RM (fun _ => eq_refl) (fun _ => eq_refl)) as (r & -> & V & Er). exists r. auto. }
  all: destruct (mul_claim c true false a a d Va Va Vd RM (fun _ => eq_refl) ltac:(discriminate)) as (r & -> & V & Er); exists r; auto.
Qed.
Lemma quot_any asg a o : valid c a -> operand_ok c o -> room c (size a + operand_size a o + 1) -> (forall k, o <> KWord k) ->
  match denotes Quotient (value a) (operand_value (value a) o) with
  | Some v => exists r, run asg Quotient c a o = Ok r /\ valid c r /\ value r = v
  | None => run asg Quotient c a o = Abort
  end.
Proof.
  intros Va Vo R NW. assert (V0 : valid c (zero c)) by (apply zero_valid, (valid_room1 c a Va)). cbn [denotes].
  destruct o as [k|k|k|k|b|].
  1:{ cbn [operand_value]. destruct (Z.eqb_spec k 0) as [->|N].
      - destruct asg; apply (div_word_zero_claim c); exact Va.
      - destruct asg; apply divs1_spec; auto using valid_stor. }
  1: exfalso; apply (NW k); reflexivity.
  all: match goal with |- context [run _ _ _ _ ?o] => destruct (big_claim a o Va Vo R I) as (d & E & Vd & Ed & Sd); rewrite <- Ed end.
  4:{ cbn [big_of] in E. injection E as <-. destruct (Z.eqb_spec (value a) 0) as [Z0|N].
      - destruct asg; cbn [run asg_div bin_div big_of bind].
        + unfold div_in_place, div_alias. destruct (div_zero_claim c (Some a) (zero c) a a Va Va Z0) as (K & _).
          rewrite Nat.ltb_irrefl. replace (size a - size a + 1)%nat with 1%nat by lia.
          rewrite (proj1 (room_can c 1) (valid_room1 c a Va)).
          unfold div_mod, udiv in K. rewrite Nat.ltb_irrefl in K. replace (size a - size a + 1)%nat with 1%nat in K by lia. rewrite (proj1 (room_can c 1) (valid_room1 c a Va)) in K.
          destruct (words_valid c a Va) as (_ & L & _). rewrite (real_words c a Va), firstn_length, L, Nat.min_id, Nat.ltb_irrefl, andb_false_r. cbn [andb].
          destruct (div 1 (words a) (words a)) as [[[qw xw] rn]| | |]; cbn [bind] in *; try reflexivity; try discriminate. exfalso. destruct (can_resize c rn); cbn [bind negb] in K; discriminate.
        + unfold div_q. rewrite (proj1 (div_zero_claim c (Some (zero c)) (zero c) a a Va Va Z0)). reflexivity.
      - destruct asg; cbn [run asg_div bin_div big_of bind].
        + destruct (div_q_claim c a a a Va Va Va N) as (q & K & V & Eq). exists q. split; [|auto]. apply (div_in_place_harmless c a a q Va Va); [|exact K]. unfold clobbers. rewrite Nat.ltb_irrefl, andb_false_r. reflexivity.
        + destruct (div_q_claim c (zero c) a a V0 Va Va N) as (q & -> & V & Eq). exists q. auto. }
  all: destruct (Z.eqb_spec (value d) 0) as [Z0|N]; destruct asg; cbn [run asg_div bin_div]; rewrite E; cbn [bind].
  all: try (unfold div_q; rewrite (proj1 (div_zero_claim c (Some a) (zero c) a d Va Vd Z0)); reflexivity).
  all: try (unfold div_q; rewrite (proj1 (div_zero_claim c (Some (zero c)) (zero c) a d Va Vd Z0)); reflexivity).
  all: try (destruct (div_q_claim c a a d Va Va Vd N) as (q & -> & V & Eq); exists q; auto; fail).
  all: destruct (div_q_claim c (zero c) a d V0 Va Vd N) as (q & -> & V & Eq); exists q; auto.
Qed.
Lemma rem_any asg a o : valid c a -> operand_ok c o -> room c (size a + operand_size a o + 1) -> (forall k, o <> KWord k) -> (asg = true -> match o with KI64 _ | KU64 _ => False | _ => True end) ->
  match denotes Remainder (value a) (operand_value (value a) o) with
  | Some v => exists r, run asg Remainder c a o = Ok r /\ valid c r /\ value r = v
  | None => run asg Remainder c a o = Abort
  end.
Proof.
  intros Va Vo R NW N64. assert (V0 : valid c (zero c)) by (apply zero_valid, (valid_room1 c a Va)). cbn [denotes].
  destruct o as [k|k|k|k|b|].
  1:{ cbn [operand_value]. destruct (Z.eqb_spec k 0) as [->|N].
      - destruct asg; apply (div_word_zero_claim c); exact Va.
      - destruct asg; [destruct (mods1_spec c a a k (valid_stor c a Va) Va Vo N) as (r & K & V & Er & _)|destruct (mods1_spec c (zero c) a k (valid_stor c _ V0) Va Vo N) as (r & K & V & Er & _)]; exists r; auto. }
  1: exfalso; apply (NW k); reflexivity.
  all: match goal with |- context [run _ _ _ _ ?o] => destruct (big_claim a o Va Vo R I) as (d & E & Vd & Ed & Sd); rewrite <- Ed end.
  all: destruct asg; try (exfalso; exact (N64 eq_refl)).
  all: destruct (Z.eqb_spec (value d) 0) as [Z0|N]; cbn [run asg_mod bin_mod]; rewrite E; cbn [bind].
  all: try (unfold mod_r; rewrite (proj1 (div_zero_claim c None a a d Va Vd Z0)); reflexivity).
  all: try (unfold mod_r; rewrite (proj1 (div_zero_claim c None (zero c) a d Va Vd Z0)); reflexivity).
  all: try (destruct (mod_r_claim c a a d Va Va Vd N) as (q & -> & V & Eq); exists q; auto; fail).
  all: destruct (mod_r_claim c (zero c) a d V0 Va Vd N) as (q & -> & V & Eq); exists q; auto.
Qed.
(** every operator that is not one of the wrong overloads *)
Lemma operators_claim asg op a o : valid c a -> operand_ok c o -> room c (size a + operand_size a o + 1) -> wrong asg op (value a) o = false ->
  match denotes op (value a) (operand_value (value a) o) with
  | Some v => exists r, run asg op c a o = Ok r /\ valid c r /\ value r = v
  | None => run asg op c a o = Abort
  end.
Proof.
  intros Va Vo R W. assert (V0 : valid c (zero c)) by (apply zero_valid, (valid_room1 c a Va)). destruct op.
  - apply add_any; assumption.
  - apply sub_any; assumption.
  - apply mul_any; assumption.
  - destruct o as [k|k|k|k|b|]; try (apply quot_any; [assumption|assumption|assumption|discriminate]; fail).
    cbn [wrong denotes operand_value operand_ok] in *. destruct (Z.eqb_spec k 0) as [->|N]; cbn [negb andb] in *.
    + destruct asg; apply (div_word_zero_claim c); exact Va.
    + assert (Q : Z.abs (value a) / k = Z.quot (value a) k).
      { destruct (Z_le_gt_dec 0 (value a)) as [P|P]; [rewrite Z.abs_eq, Z.quot_div_nonneg by lia; reflexivity|]. rewrite Z.div_small by lia. rewrite <- (Z.opp_involutive (value a)), Z.quot_opp_l, Z.quot_small by lia. reflexivity. }
      rewrite <- Q. destruct asg; apply divu1_spec; auto using valid_stor; change B with (2 ^ 32); lia.
  - destruct o as [k|k|k|k|b|]; try (apply rem_any; [assumption|assumption|assumption|discriminate|intros _; exact I]; fail).
    + cbn [wrong denotes operand_value] in *. apply negb_false_iff in W. rewrite W. apply Z.eqb_eq in W. subst k. destruct asg; reflexivity.
    + destruct asg; [|apply rem_any; try assumption; discriminate]. cbn [wrong andb denotes operand_value operand_size] in *. apply negb_false_iff in W. rewrite W. pose proof (quot_any true a (KI64 k) Va Vo R ltac:(discriminate)) as H. cbn [denotes operand_value] in H. rewrite W in H. exact H.
    + destruct asg; [|apply rem_any; try assumption; discriminate]. cbn [wrong andb denotes operand_value operand_size] in *. apply negb_false_iff in W. rewrite W. pose proof (quot_any true a (KU64 k) Va Vo R ltac:(discriminate)) as H. cbn [denotes operand_value] in H. rewrite W in H. exact H.
Qed.
(** a buffer of one word: every operator with a 64-bit operand aborts *)
Lemma narrow_claim asg op a o : can_resize c 2 = false -> match o with KI64 _ | KU64 _ => True | _ => False end -> run asg op c a o = Abort /\ three_way c a o = Abort.
Proof.
  intros R K. destruct o as [k|k|k|k|b|]; try contradiction; unfold run, bin_add, asg_add, bin_sub, asg_sub, bin_mul, asg_mul, bin_div, asg_div, bin_mod, asg_mod, three_way, big_of, of_i64, of_u64, assign_i64, assign_u64; rewrite R; cbn [bind]; (split; [destruct op, asg; reflexivity|reflexivity]).
Qed.
(** what the wrong overloads do *)
Lemma div_word_any asg a k : valid c a -> 0 < k < 2 ^ 32 -> exists r, run asg Quotient c a (KWord k) = Ok r /\ valid c r /\ value r = Z.abs (value a) / k.
Proof. intros Va K. assert (V0 : valid c (zero c)) by (apply zero_valid, (valid_room1 c a Va)). destruct asg; apply divu1_spec; auto using valid_stor. Qed.
Lemma mod_word_any asg a k : 0 < k < 2 ^ 32 -> run asg Remainder c a (KWord k) = UB.
Proof. intros K. destruct asg; apply modu1_refute; lia. Qed.
Lemma mod64_any a o : valid c a -> operand_ok c o -> room c (size a + 3) -> match o with KI64 k | KU64 k => k <> 0 | _ => False end ->
  exists r, run true Remainder c a o = Ok r /\ valid c r /\ value r = Z.quot (value a) (operand_value (value a) o).
Proof.
  intros Va Vo R K. assert (R' : room c (size a + operand_size a o + 1)) by (replace (size a + operand_size a o + 1)%nat with (size a + 3)%nat; [exact R|destruct o; try contradiction; cbn [operand_size]; lia]).
  pose proof (quot_any true a o Va Vo R') as H. destruct o as [k|k|k|k|b|]; try contradiction; specialize (H ltac:(discriminate)); cbn [denotes operand_value] in *; destruct (Z.eqb_spec k 0); try contradiction; exact H.
Qed.
Lemma three_way_claim x o : valid c x -> operand_ok c o -> room c 2 -> exists r, three_way c x o = Ok r /\ cmp_result r (seen x o) (operand_value (value x) o).
Proof.
  intros Vx Vo R. destruct o as [k|k|k|k|b|]; cbn [operand_ok operand_value seen] in *.
  - eexists. split; [reflexivity|]. apply (compares1_spec c); assumption.
  - eexists. split; [reflexivity|]. destruct (neg x) eqn:N; cbn [andb].
    + unfold compareu1. rewrite N. right. right. split; [reflexivity|]. pose proof (magnitude_range c x Vx). pose proof (value_sgn x) as E. rewrite N in E. cbn [BigintProofs.sgn] in E. destruct (Z.eqb_spec (value x) 0); lia.
    + apply (compareu1_spec c); auto.
  - destruct (of_64_value c k R) as (_ & H). destruct (H Vo) as (b & E & (V & _) & E2). cbn [three_way big_of]. rewrite E. cbn [bind]. eexists. split; [reflexivity|]. rewrite <- E2. apply (compare_spec c); assumption.
  - destruct (of_64_value c k R) as (H & _). destruct (H Vo) as (b & E & (V & _) & E2). cbn [three_way big_of]. rewrite E. cbn [bind]. eexists. split; [reflexivity|]. rewrite <- E2. apply (compare_spec c); assumption.
  - eexists. split; [reflexivity|]. apply (compare_spec c); assumption.
  - eexists. split; [reflexivity|]. apply (compare_spec c); assumption.
Qed.
Lemma relations_claim r x o : valid c x -> operand_ok c o -> room c 2 ->
  cmp c r x o = Ok (holds_rel r (seen x o) (operand_value (value x) o)) /\ rcmp c r o x = Ok (holds_rel r (operand_value (value x) o) (seen x o)).
Proof.
  intros Vx Vo R. destruct (three_way_claim x o Vx Vo R) as (t & E & H). unfold cmp_result in H.
  unfold cmp, rcmp, cmp_eq, cmp_ne, cmp_lt, cmp_le, cmp_gt, cmp_ge, rcmp_eq, rcmp_ne, rcmp_lt, rcmp_le, rcmp_gt, rcmp_ge, cmp_eq, cmp_lt, cmp_gt, rcmp_eq, rcmp_lt, rcmp_gt.
  rewrite E. cbn [bind]. destruct r; cbn [holds_rel bind]; split; f_equal; lia.
Qed.
Lemma incdec_claim x : valid c x -> room c (size x + 1) ->
  (valid c (pre_inc c x) /\ value (pre_inc c x) = value x + 1) /\ (valid c (pre_dec c x) /\ value (pre_dec c x) = value x - 1) /\
  (fst (post_inc c x) = x /\ snd (post_inc c x) = pre_inc c x) /\ (fst (post_dec c x) = x /\ snd (post_dec c x) = pre_dec c x).
Proof.
  intros Vx R. split; [apply adds1_spec; auto using valid_stor; unfold int32; lia|]. split; [apply subs1_spec; auto using valid_stor; unfold int32; lia|]. repeat split.
Qed.
(** bitwise operators *)
Lemma bitwise_claim x o : valid c x -> 0 <= value x -> neg x = false -> uoperand_ok c o -> room c 2 ->
  (exists r, bin_and c x o = Ok r /\ valid c r /\ value r = Z.land (value x) (uoperand_value (value x) o)) /\
  (exists r, asg_and c x o = Ok r /\ valid c r /\ value r = Z.land (value x) (uoperand_value (value x) o)) /\
  (exists r, bin_or c x o = Ok r /\ valid c r /\ value r = Z.lor (value x) (uoperand_value (value x) o)) /\
  (exists r, asg_or c x o = Ok r /\ valid c r /\ value r = Z.lor (value x) (uoperand_value (value x) o)).
Proof.
  intros Vx P N Vo R. assert (V0 : valid c (zero c)) by (apply zero_valid, (valid_room1 c x Vx)). assert (N0 : neg (zero c) = false) by reflexivity.
  assert (D : (exists k, o = UWord k) \/ exists d, ubig_of c x o = Ok d /\ valid c d /\ 0 <= value d /\ value d = uoperand_value (value x) o /\ forall k, o <> UWord k).
  { destruct o as [k|k|b|]; cbn [uoperand_ok uoperand_value ubig_of] in *; [left; eauto|right..].
    - destruct (of_64_value c k R) as (H & _). destruct (H Vo) as (b & E & (V & _) & E2). exists b. split; [exact E|]. split; [exact V|]. split; [lia|]. split; [exact E2|discriminate].
    - destruct Vo as (V & Pb). exists b. split; [reflexivity|]. split; [exact V|]. split; [exact Pb|]. split; [reflexivity|discriminate].
    - exists x. split; [reflexivity|]. split; [exact Vx|]. split; [exact P|]. split; [reflexivity|discriminate]. }
  destruct D as [(k & ->)|(d & E & Vd & Pd & <- & NW)].
  - cbn [uoperand_ok uoperand_value] in *. destruct (and1_claim c (zero c) x k V0 Vx P Vo) as ((A1 & _) & A2). destruct (and1_claim c x x k Vx Vx P Vo) as ((B1 & _) & B2). destruct (or1_claim c x k Vx P Vo) as (C1 & C2).
    split; [|split; [|split]]; (eexists; split; [reflexivity|]; auto).
  - destruct (and_claim c (zero c) x d V0 Vx Vd P Pd N0) as (A1 & A2). destruct (and_claim c x x d Vx Vx Vd P Pd N) as (B1 & B2).
    destruct (or_claim c (zero c) x d V0 Vx Vd P Pd N0) as (C1 & C2). destruct (or_claim c x x d Vx Vx Vd P Pd N) as (D1 & D2).
    destruct o as [k|k|b|]; [exfalso; apply (NW k); reflexivity|..]; unfold bin_and, asg_and, bin_or, asg_or; rewrite E; cbn [bind]; (split; [|split; [|split]]); (eexists; split; [reflexivity|]; auto).
Qed.
Lemma shift_claim x n : valid c x -> 0 <= n ->
  (room c (size x + Z.to_nat ((n + 31) / 32)) -> exists r, bin_shl c x n = Ok r /\ asg_shl c x n = Ok r /\ valid c r /\ value r = value x * 2 ^ n) /\
  (bin_shr x n = asg_shr x n /\ valid c (asg_shr x n) /\ value (asg_shr x n) = Z.quot (value x) (2 ^ n)) /\
  (valid c (unary_minus x) /\ value (unary_minus x) = - value x).
Proof.
  intros Vx P. split; [|split].
  - intros R. destruct (shl_claim c x x n Vx Vx P R) as (r & E & H). exists r. split; [exact E|]. split; [exact E|exact H].
  - split; [reflexivity|]. apply shr_claim; assumption.
  - apply neg_op_spec. exact Vx.
Qed.
(** the member functions that drop the success flag give the product or zero *)
Lemma member_claim x y : valid c x -> valid c y ->
  value (member_mul c x y) = (if can_resize c (size x + size y) then value x * value y else 0) /\
  value (member_sqr c x) = (if can_resize c (size x + size x) then value x * value x else 0).
Proof.
  intros Vx Vy. pose proof (zero_valid (valid_room1 c x Vx)) as V0.
  assert (H : forall u v, valid c u -> valid c v -> value (snd (mul c false false (zero c) u v)) = (if can_resize c (size u + size v) then value u * value v else 0)).
  { intros u v Vu Vv. destruct (can_resize c (size u + size v)) eqn:E.
    - destruct (mul_claim c false false (zero c) u v V0 Vu Vv (proj2 (room_can c _) E) ltac:(discriminate) ltac:(discriminate)) as (r & -> & _ & Er). exact Er.
    - unfold mul. rewrite E. cbn [snd]. apply (zero_spec c (valid_room1 c u Vu)). }
  split; apply H; assumption.
Qed.
End OPS.

Lemma operators_refute : exists c a, valid c a /\ room c (size a + 3) /\
  (exists r, run false Quotient c a (KWord 2) = Ok r /\ denotes Quotient (value a) 2 <> Some (value r)) /\
  (exists r, run true Remainder c a (KI64 2) = Ok r /\ denotes Remainder (value a) 2 <> Some (value r)) /\
  (exists r, run true Remainder c a (KU64 2) = Ok r /\ denotes Remainder (value a) 2 <> Some (value r)).
Proof.
  exists (Flex 4), (of_int (Flex 4) (-7)). split; [apply validb_ok; vm_compute; reflexivity|]. split; [exact I|].
  repeat split; (eexists; split; [vm_compute; reflexivity|vm_compute; discriminate]).
Qed.
