(** Proofs about c/powm.h: [br_i32_muladd_small], [br_i32_reduce], and the conversions. *)
From Coq Require Import List ZArith Bool Lia.
From Verif Require Import Outcome UtilsModel UtilsSpec UtilsProofs RsaModel RsaSpec RsaProofs ShaModel ShaProofs BitLemmas WordsModel WordsSpec WordsProofs PowmModel PowmProofs PowmArith.
Import ListNotations.
Open Scope Z_scope.

Lemma nth_word l i : all_words l -> w32 (nth i l 0).
Proof.
  intros H. destruct (Nat.lt_ge_cases i (length l)) as [L|G].
  - exact (proj1 (Forall_forall _ l) H _ (nth_In l 0 L)).
  - rewrite nth_overflow by exact G. split; [lia|reflexivity].
Qed.
Lemma eval_skipn_div u a : all_words a -> (u <= length a)%nat -> eval a / Bn u = eval (skipn u a).
Proof.
  intros Ha Hu. rewrite (eval_split u a Hu). pose proof (eval_range _ (words_firstn u a Ha)) as R. rewrite firstn_length_le in R by exact Hu.
  symmetry. apply (Z.div_unique _ _ _ (eval (firstn u a))); [left; exact R|ring].
Qed.
Lemma br_i32_word_spec a off : all_words a -> 0 <= off -> off + 32 <= 32 * Z.of_nat (length a) -> br_i32_word a off = Ok (eval a / 2 ^ off mod B).
Proof.
  intros Ha Ho HL. unfold br_i32_word. cbv zeta. rewrite Z.shiftr_div_pow2 by lia. change 31 with (Z.ones 5). rewrite Z.land_ones by lia. change (2 ^ 5) with 32.
  pose proof (Z.div_mod off 32 ltac:(lia)) as D. pose proof (Z.mod_pos_bound off 32 ltac:(lia)) as M. set (j := off mod 32) in *.
  assert (U0 : 0 <= off / 32) by (apply Z.div_pos; lia). set (u := Z.to_nat (off / 32)) in *. assert (Eu : off / 32 = Z.of_nat u) by (unfold u; lia). rewrite Eu in D. clear Eu U0. clearbody u j.
  assert (Ep : 2 ^ off = Bn u * 2 ^ j) by (rewrite Bn_pow2, <- Z.pow_add_r by lia; f_equal; lia). rewrite Ep. rewrite <- Z.div_div by (pose proof (Bn_pos u); pose proof (Z.pow_pos_nonneg 2 j); lia).
  rewrite eval_skipn_div by (try exact Ha; lia). rewrite (skipn_cons u a 0) by lia. rewrite eval_cons. pose proof (nth_word a u Ha) as Hu. red in Hu. destruct (Z.eqb_spec j 0) as [->|N].
  - rewrite at_ok by lia. f_equal. change (2 ^ 0) with 1. rewrite Z.div_1_r. symmetry. rewrite Z.mul_comm, Z_mod_plus_full. apply Z.mod_small. exact Hu.
  - rewrite !at_ok by lia. cbn [bind]. f_equal. rewrite Nat.add_1_r. rewrite (skipn_cons (S u) a 0) by lia. rewrite eval_cons.
    pose proof (nth_word a (S u) Ha) as Hv. set (lo := nth u a 0) in *. set (hi := nth (S u) a 0) in *. set (R := eval (skipn (S (S u)) a)).
    pose proof (Z.pow_pos_nonneg 2 j ltac:(lia) ltac:(lia)) as Pj. pose proof (Z.pow_pos_nonneg 2 (32 - j) ltac:(lia) ltac:(lia)) as Pk.
    assert (EB : B = 2 ^ (32 - j) * 2 ^ j) by (rewrite B32, <- Z.pow_add_r by lia; f_equal; lia).
    replace (lo + B * (hi + B * R)) with (lo + (2 ^ (32 - j) * (hi + B * R)) * 2 ^ j) by (rewrite EB; ring). rewrite Z.div_add by lia.
    replace (lo / 2 ^ j + 2 ^ (32 - j) * (hi + B * R)) with (hi * 2 ^ (32 - j) + lo / 2 ^ j + (2 ^ (32 - j) * R) * B) by ring. rewrite Z_mod_plus_full.
    rewrite Z.shiftr_div_pow2, Z.shiftl_mul_pow2 by lia.
    assert (Hl : 0 <= lo / 2 ^ j < 2 ^ (32 - j)) by (split; [apply Z.div_pos; lia|apply Z.div_lt_upper_bound; lia]).
    assert (Em : hi * 2 ^ (32 - j) mod B = (hi mod 2 ^ j) * 2 ^ (32 - j)) by (rewrite EB, (Z.mul_comm (2 ^ (32 - j)) (2 ^ j)), Z.mul_mod_distr_r by lia; reflexivity).
    rewrite Em, lor_add_mul by lia. apply (Z.mod_unique_pos _ _ (hi / 2 ^ j)).
    + pose proof (Z.mod_pos_bound hi (2 ^ j) ltac:(lia)). rewrite EB. nia.
    + pose proof (Z.div_mod hi (2 ^ j) ltac:(lia)) as Dh. rewrite EB. rewrite Dh at 1. ring.
Qed.
(** reading where the rest of the array does not matter *)
Lemma br_i32_word_app a r off : all_words a -> all_words r -> 0 <= off -> off + 32 <= 32 * Z.of_nat (length a) -> br_i32_word (a ++ r) off = Ok (eval a / 2 ^ off mod B).
Proof.
  intros Ha Hr Ho HL. rewrite br_i32_word_spec by (try apply words_app; try split; try assumption; rewrite app_length; lia). f_equal. rewrite eval_app.
  set (k := 32 * Z.of_nat (length a) - off). assert (E : Bn (length a) = 2 ^ (k - 32) * B * 2 ^ off) by (rewrite Bn_pow2, B32, <- !Z.pow_add_r by lia; f_equal; lia).
  rewrite E. replace (eval a + 2 ^ (k - 32) * B * 2 ^ off * eval r) with (eval a + (2 ^ (k - 32) * eval r * B) * 2 ^ off) by ring.
  rewrite Z.div_add by (pose proof (Z.pow_pos_nonneg 2 off); lia). apply Z_mod_plus_full.
Qed.

(** ** Quotient estimation: [A] and [b0] are the top 64 and 32 bits of [V] and [M] *)
Lemma estimate V M P A b0 u : 0 < P -> 2 ^ 31 <= b0 < B -> b0 = M / P -> A = V / P -> u = A / b0 -> 0 <= V -> 0 <= u < B ->
  V / M <= u /\ u - 2 <= V / M.
Proof.
  intros HP Hb Eb EA Eu HV Hu. assert (M1 : b0 * P <= M) by (apply div_ge; lia). assert (M2 : M < (b0 + 1) * P) by (apply div_lt; lia).
  assert (V1 : A * P <= V) by (apply div_ge; lia). assert (V2 : V < (A + 1) * P) by (apply div_lt; lia).
  change (2 ^ 31) with 2147483648 in Hb. rewrite B_val in *.
  assert (A1 : u * b0 <= A) by (apply div_ge; lia). assert (A2 : A < (u + 1) * b0) by (apply div_lt; lia). clear Eb EA Eu.
  assert (MP : 0 < M) by nia. split.
  - apply Z.lt_succ_r. apply Z.div_lt_upper_bound; [exact MP|]. assert (V < (u + 1) * b0 * P) by nia. nia.
  - destruct (Z.le_gt_cases 2 u) as [G|L].
    + apply Z.div_le_lower_bound; [exact MP|]. assert ((u - 2) * (b0 + 1) <= u * b0) by nia.
      assert (Q1 : (u - 2) * M <= (u - 2) * ((b0 + 1) * P)) by (apply Z.mul_le_mono_nonneg_l; lia).
      assert (Q2 : (u - 2) * (b0 + 1) * P <= u * b0 * P) by (apply Z.mul_le_mono_nonneg_r; lia).
      assert (Q3 : u * b0 * P <= A * P) by (apply Z.mul_le_mono_nonneg_r; lia). lia.
    + pose proof (Z.div_pos V M ltac:(lia) MP). lia.
Qed.
Lemma estimate_eq X z M P b0 : 0 < P -> 2 ^ 31 <= b0 < B -> b0 = M / P -> b0 = X / P -> 0 <= z < B -> X < M ->
  B - 2 <= (X * B + z) / M <= B - 1.
Proof.
  intros HP Hb Eb EX Hz HX. assert (M1 : b0 * P <= M) by (apply div_ge; lia). assert (M2 : M < (b0 + 1) * P) by (apply div_lt; lia).
  assert (X1 : b0 * P <= X) by (apply div_ge; lia). change (2 ^ 31) with 2147483648 in Hb. rewrite B_val in *. assert (MP : 0 < M) by nia. split.
  - apply Z.div_le_lower_bound; [exact MP|]. clear Eb EX. assert (M <= X + P) by nia. nia.
  - apply Z.lt_succ_r. apply Z.div_lt_upper_bound; [exact MP|]. lia.
Qed.

Lemma div_word_range a0 a1 b0 : 0 <= a1 < B -> 0 <= a0 < b0 -> 0 <= (a0 * B + a1) / b0 < B.
Proof. intros H1 H0. pose proof B_pos. split; [apply Z.div_pos; nia|apply Z.div_lt_upper_bound; nia]. Qed.
Lemma close_quotient V M q : 0 < M -> V / M - 1 <= q <= V / M + 1 -> - M <= V - q * M < 2 * M.
Proof. intros HM H. pose proof (Z.mul_div_le V M HM). pose proof (Z.mul_succ_div_gt V M HM). nia. Qed.
Lemma neg_iff e k N : 0 <= e < N -> (e + k * N <? 0) = (k <? 0).
Proof. intros H. destruct (Z.ltb_spec k 0); [apply Z.ltb_lt; nia|apply Z.ltb_ge; nia]. Qed.
Lemma congr_eq x y k N : 0 <= x < N -> 0 <= y < N -> x = y + k * N -> x = y.
Proof. intros Hx Hy E. assert (k = 0) by nia. subst k. lia. Qed.
Lemma quotient_ok X z M P : 0 < P -> 2 ^ 31 * P <= M < B * P -> 0 <= X < M -> w32 z ->
  let V := X * B + z in
  let a0 := X / P in let b0 := M / P in let a1 := V / P mod B in
  let g := br_div a0 a1 b0 in
  let q := MUX (EQ a0 b0) 0xFFFFFFFF (MUX (EQ g 0) 0 ((g - 1) mod B)) in
  w32 q /\ V / M - 1 <= q <= V / M + 1.
Proof.
  intros PP HM HX Hz V a0 b0 a1 g q. pose proof B_pos as BP.
  assert (Rb : 2 ^ 31 <= b0 < B). { split; [apply Z.div_le_lower_bound; lia|apply Z.div_lt_upper_bound; lia]. }
  assert (Hab : 0 <= a0 <= b0). { split; [apply Z.div_pos; lia|apply Z.div_le_mono; lia]. }
  assert (V0 : 0 <= V) by (apply Z.add_nonneg_nonneg; [apply Z.mul_nonneg_nonneg; lia|apply Hz]).
  assert (EA : V / P = a0 * B + a1).
  { unfold a1. rewrite (Z.div_mod (V / P) B) at 1 by lia. rewrite (Z.mul_comm B). do 2 f_equal. rewrite Z.div_div by lia. rewrite (Z.mul_comm P B), <- Z.div_div by lia. unfold a0. f_equal. symmetry. apply (Z.div_unique _ _ _ z); [left; exact Hz|unfold V; ring]. }
  assert (Wa1 : w32 a1) by apply mod_w.
  assert (Pb0 : 0 < b0) by (change (2 ^ 31) with 2147483648 in Rb; lia).
  assert (Eb0 : b0 = M / P) by reflexivity. assert (Ea0 : a0 = X / P) by reflexivity. assert (EV : V = X * B + z) by reflexivity. clearbody V. clearbody a0 b0 a1.
  assert (Eg : g = ((if a0 =? b0 then 0 else a0) * B + a1) / b0). { unfold g, br_div. rewrite br_divrem_w by (try assumption; lia). reflexivity. }
  assert (Wg : w32 g). { rewrite Eg. destruct (Z.eqb_spec a0 b0); apply div_word_range; solve [exact Wa1|lia]. }
  clearbody g. assert (W0 : w32 0) by (split; lia). assert (Wf : w32 0xFFFFFFFF) by (split; [lia|reflexivity]).
  assert (Wa0 : w32 a0) by (split; lia). assert (Wb0 : w32 b0) by (split; lia).
  assert (Eq : q = if a0 =? b0 then 0xFFFFFFFF else if g =? 0 then 0 else (g - 1) mod B).
  { unfold q. rewrite !EQ_spec by assumption. rewrite !MUX_spec by (try apply MUX_w; try assumption; apply mod_w). reflexivity. }
  rewrite Eq. clearbody q. clear Eq. destruct (Z.eqb_spec a0 b0) as [Eab|Nab].
  - split; [exact Wf|]. pose proof (estimate_eq X z M P b0 PP Rb Eb0 (eq_trans (eq_sym Eab) Ea0) Hz (proj2 HX)) as Q. rewrite EV. rewrite B_val in *. lia.
  - assert (Q : V / M <= g /\ g - 2 <= V / M).
    { apply (estimate V M P (V / P) b0); try assumption; try reflexivity. rewrite EA. exact Eg. }
    pose proof (Z.div_pos V M V0 ltac:(lia)). red in Wg. destruct (Z.eqb_spec g 0).
    + split; [exact W0|]. lia.
    + rewrite Z.mod_small by lia. split; [split; lia|lia].
Qed.
Lemma mod_sub_mul V q M : (V - q * M) mod M = V mod M.
Proof. replace (V - q * M) with (V + (- q) * M) by ring. apply Z_mod_plus_full. Qed.
Definition nwords (h : Z) : nat := Z.to_nat ((h + 31) / 32).
Lemma nwords_bits h : 0 < h -> 32 * (Z.of_nat (nwords h) - 1) < h <= 32 * Z.of_nat (nwords h).
Proof. intros H. unfold nwords. assert (0 <= (h + 31) / 32) by (apply Z.div_pos; lia). rewrite Z2Nat.id by lia. pose proof (Z.div_mod (h + 31) 32 ltac:(lia)). pose proof (Z.mod_pos_bound (h + 31) 32 ltac:(lia)). lia. Qed.
Lemma nwords_shift h : 0 <= h -> h + 31 < B -> Z.to_nat (Z.shiftr ((h + 31) mod B) 5) = nwords h.
Proof. intros H1 H2. rewrite Z.mod_small, Z.shiftr_div_pow2 by lia. reflexivity. Qed.

(** [m] is announced with its exact bit length [h] *)
Definition modulus_ok (h : Z) (mw : list Z) : Prop :=
  0 < h /\ h + 63 < B /\ all_words mw /\ length mw = nwords h /\ 2 ^ (h - 1) <= eval mw < 2 ^ h.

Definition muladd_tail (x : Z) (xs : list Z) (m : i32) (hi : Z) (res : list Z * Z * Z) : outcome i32 :=
  let '(r, cc, tb) := res in
  let chf := Z.shiftr cc 32 mod B in
  let clow := cc mod B in
  let over := Z.lor chf (GT clow hi) in
  let under := Z.land (not32 over) (Z.lor tb (Z.land (not32 chf) (LT clow hi))) in
  let* a := br_i32_add (x, r ++ xs) m over in
  let* a := br_i32_sub (fst a) m under in
  Ok (fst a).
Lemma muladd_finish h mw E rest hi q : modulus_ok h mw -> all_words E -> length E = length mw -> w32 hi -> w32 q ->
  let M := eval mw in
  let D := eval E + hi * Bn (length mw) - q * M in
  - M <= D < 2 * M ->
  exists r, muladd_tail h rest (h, mw) hi (mul_sub E mw q 0 1) = Ok (h, r ++ rest) /\ all_words r /\ length r = length mw /\ eval r = D mod M.
Proof.
  intros (H0 & Hh & Hm & Lm & HMM) WE LE Hhi Wq M D HD. set (n := length mw) in *. pose proof B_pos as BP. red in Hhi.
  pose proof (mul_sub_spec E mw q 0 true WE Hm LE Wq ltac:(lia)) as MS. change (bit true) with 1 in MS. destruct (mul_sub E mw q 0 1) as [[r cc] tb]. destruct MS as (R1 & R2 & R3 & R4 & ->).
  fold M in R4 |- *. rewrite LE in R4, R2. pose proof (eval_range r R1) as RR. rewrite R2 in RR.
  assert (ED : D = eval r + (hi - cc) * Bn n) by (unfold D; rewrite R4; ring). clearbody D. clear R4.
  cbn [muladd_tail]. cbv zeta.
  pose proof (eval_range mw Hm) as RM. fold M n in RM.
  set (tb := if eval r =? M then true else M <? eval r). assert (Etb : tb = (M <=? eval r)).
  { unfold tb. destruct (Z.eqb_spec (eval r) M) as [->|]; [symmetry; apply Z.leb_refl|]. destruct (Z.ltb_spec M (eval r)), (Z.leb_spec M (eval r)); try reflexivity; lia. }
  assert (Hchf : Z.shiftr cc 32 mod B = bit (B <=? cc) /\ cc mod B = if B <=? cc then 0 else cc).
  { rewrite Z.shiftr_div_pow2 by lia. rewrite <- B32. destruct (Z.leb_spec B cc).
    - replace cc with B by lia. rewrite Z.div_same, Z.mod_same by lia. split; [change (bit true) with 1; apply Z.mod_small; lia|reflexivity].
    - rewrite Z.div_small, !Z.mod_small by lia. split; reflexivity. }
  destruct Hchf as [-> Eclow]. assert (Wc : w32 (cc mod B)) by apply mod_w. rewrite GT_spec, LT_spec by assumption. rewrite bit_lor.
  assert (Dneg : (D <? 0) = (hi <? cc)). { rewrite ED, neg_iff by exact RR. destruct (Z.ltb_spec (hi - cc) 0), (Z.ltb_spec hi cc); try reflexivity; lia. }
  assert (Eover : ((B <=? cc) || (hi <? cc mod B))%bool = (D <? 0)).
  { rewrite Eclow, Dneg. destruct (Z.leb_spec B cc); cbn [orb]; [symmetry; apply Z.ltb_lt; lia|reflexivity]. }
  rewrite Eover. rewrite not32_land, bit_lor, not32_land.
  assert (Eunder : (negb (D <? 0) && (tb || negb (B <=? cc) && (cc mod B <? hi)))%bool = (M <=? D)).
  { rewrite Etb, Eclow, Dneg. destruct (Z.ltb_spec hi cc); cbn [negb andb]; [symmetry; apply Z.leb_gt; apply Z.ltb_lt in Dneg; lia|].
    destruct (Z.leb_spec B cc); [lia|]. cbn [negb andb]. destruct (Z.ltb_spec cc hi).
    - rewrite orb_true_r. symmetry. apply Z.leb_le. rewrite ED. assert (1 * Bn n <= (hi - cc) * Bn n) by (apply Z.mul_le_mono_nonneg_r; lia). lia.
    - replace cc with hi in ED by lia. replace D with (eval r) by lia. apply orb_false_r. }
  rewrite Eunder. clear Eunder Eover Etb.
  destruct (br_i32_add_spec h r rest (h, mw) mw (D <? 0) (Z.lt_le_incl _ _ H0) Hh (eq_trans R2 Lm) (eq_sym R2) eq_refl R1 Hm) as (r1 & c1 & A1 & A2 & A3 & A4).
  rewrite A1. cbn [bind fst].
  pose proof (eq_trans A3 R2) as A3'.
  destruct (br_i32_sub_spec h r1 rest (h, mw) mw (M <=? D) (Z.lt_le_incl _ _ H0) Hh (eq_trans A3' Lm) (eq_sym A3') eq_refl A2 Hm) as (r2 & c2 & S1 & S2 & S3 & S4).
  rewrite S1. cbn [bind fst]. exists r2. split; [reflexivity|]. split; [exact S2|]. split; [exact (eq_trans S3 A3')|].
  pose proof (eval_range r1 A2) as RR1. pose proof (eval_range r2 S2) as RR2. rewrite S3, A3, R2 in RR2. rewrite A3, R2 in RR1, S4. rewrite R2 in A4. fold M in A4, S4.
  assert (C1 : 0 <= bit c1 <= 1) by (destruct c1; cbn; lia). assert (C2 : 0 <= bit c2 <= 1) by (destruct c2; cbn; lia).
  destruct (Z.ltb_spec D 0) as [N0|P0].
  + rewrite (proj2 (Z.leb_gt M D)) in S4 by lia. rewrite S4.
    replace (D mod M) with (D + M) by (apply (Z.mod_unique_pos _ _ (-1)); lia). apply (congr_eq _ _ (cc - hi - bit c1) (Bn n)); [lia|lia|]. rewrite A4, ED. ring.
  + destruct (Z.leb_spec M D).
    * replace (D mod M) with (D - M) by (apply (Z.mod_unique_pos _ _ 1); lia). apply (congr_eq _ _ (cc - hi + bit c2) (Bn n)); [lia|lia|]. rewrite S4, A4, ED. ring.
    * rewrite Z.mod_small by lia. apply (congr_eq _ _ (cc - hi) (Bn n)); [lia|lia|]. rewrite S4, A4, ED. ring.
Qed.
Lemma muladd_spec h mw xw rest z : modulus_ok h mw -> all_words xw -> all_words rest -> length xw = length mw -> w32 z -> eval xw < eval mw ->
  exists r, br_i32_muladd_small (h, xw ++ rest) z (h, mw) = Ok (h, r ++ rest) /\ all_words r /\ length r = length mw /\
    eval r = (eval xw * B + z) mod eval mw.
Proof.
  intros (H0 & Hh & Hm & Lm & HM) Hx Hrest Lx Hz HX. pose proof (eval_range xw Hx) as RX. pose proof B_pos as BP. pose proof (nwords_bits h H0) as NB.
  unfold br_i32_muladd_small. cbn [fst snd]. cbv zeta. rewrite (proj2 (Z.eqb_neq h 0)) by lia. destruct (Z.leb_spec h 32) as [S32|G32].
  - assert (L1 : length mw = 1%nat) by lia. destruct mw as [|m1 [|? ?]]; try discriminate L1. destruct xw as [|x1 [|? ?]]; try discriminate Lx.
    rewrite eval_single in *. cbn [app]. unfold at_. cbn [nth_error bind skipn]. unfold br_rem. apply words_cons in Hm as [Hm _]. apply words_cons in Hx as [Hx _].
    rewrite eval_single in *. rewrite br_divrem_spec by (try exact Hz; lia). cbn [snd]. pose proof (Z.mod_pos_bound (x1 * B + z) m1 ltac:(lia)) as MB. red in Hz.
    exists [(x1 * B + z) mod m1]. split; [reflexivity|]. split; [apply words_cons; split; [lia|apply words_nil]|]. split; [reflexivity|apply eval_single].
  - rewrite nwords_shift by lia. assert (L2 : (2 <= length mw)%nat) by lia. rewrite <- Lm.
    set (n := length mw) in *. set (off := h - 32). set (P := 2 ^ off). assert (PP : 0 < P) by (apply Z.pow_pos_nonneg; lia).
    rewrite br_i32_word_app by (try assumption; lia). cbn [bind]. fold P. rewrite at_ok by (rewrite app_length; lia). cbn [bind]. rewrite app_nth1 by lia.
    destruct (exists_snoc xw ltac:(intros ->; cbn in Lx; lia)) as (low & hi & ->). rewrite app_length in Lx. cbn [length] in Lx.
    assert (Llow : length low = (n - 1)%nat) by lia.
    rewrite (app_nth2 low) by lia. rewrite Llow, Nat.sub_diag. cbn [nth].
    rewrite <- app_assoc. rewrite take_app by exact Llow. cbn [bind]. cbn [app].
    replace (skipn n (low ++ hi :: rest)) with rest.
    2:{ change (low ++ hi :: rest) with (low ++ [hi] ++ rest). rewrite app_assoc. symmetry. apply skipn_app_len. rewrite app_length. cbn [length]. lia. }
    apply words_app in Hx as [Hlow Hhi]. apply words_cons in Hhi as [Hhi _].
    set (E := z :: low). assert (WE : all_words E) by (apply words_cons; split; assumption). assert (LE : length E = n) by (unfold E; cbn [length]; lia).
    change (z :: low ++ rest) with (E ++ rest).
    rewrite br_i32_word_app by (try assumption; lia). cbn [bind]. fold P. rewrite br_i32_word_spec by (try assumption; lia). cbn [bind]. fold P.
    rewrite take_app by exact LE. rewrite take_all by reflexivity. cbn [bind]. rewrite skipn_app_len by exact LE.
    set (X := eval (low ++ [hi])) in *. set (M := eval mw) in *. set (V := X * B + z).
    assert (EV : V = eval E + hi * Bn n). { unfold V, X, E. rewrite eval_snoc, eval_cons. replace n with (S (length low)) by lia. rewrite Bn_S. ring. }
    assert (EP : 2 ^ h = B * P) by (unfold P; rewrite B32, <- Z.pow_add_r by lia; f_equal; unfold off; lia).
    assert (EP1 : 2 ^ (h - 1) = 2 ^ 31 * P) by (unfold P; rewrite <- Z.pow_add_r by lia; f_equal; unfold off; lia).
    assert (EN : exists N, Bn n = N * P * B).
    { exists (2 ^ (32 * Z.of_nat n - h)). rewrite Bn_pow2. replace (2 ^ (32 * Z.of_nat n - h) * P * B) with (2 ^ (32 * Z.of_nat n - h) * (B * P)) by ring. rewrite <- EP, <- Z.pow_add_r by lia. f_equal. lia. }
    destruct EN as [N EN].
    assert (Ha0 : X / P mod B = X / P). { apply Z.mod_small. split; [apply Z.div_pos; lia|apply Z.div_lt_upper_bound; lia]. }
    assert (Hb0 : M / P mod B = M / P). { apply Z.mod_small. split; [apply Z.div_pos; lia|apply Z.div_lt_upper_bound; lia]. }
    assert (Ha1 : eval E / P mod B = V / P mod B). { rewrite EV, EN. replace (eval E + hi * (N * P * B)) with (eval E + (hi * N * B) * P) by ring. rewrite Z.div_add by lia. symmetry. apply Z_mod_plus_full. }
    rewrite Ha0, Hb0, Ha1.
    pose proof (quotient_ok X z M P PP ltac:(lia) ltac:(lia) Hz) as Q. cbv zeta in Q. fold V in Q.
    set (q := MUX (EQ (X / P) (M / P)) _ _) in *. clearbody q. destruct Q as [Wq HQ]. clear Ha1 Ha0 Hb0.
    set (D := V - q * M).
    assert (HD : - M <= D < 2 * M).
    { apply close_quotient; [lia|exact HQ]. }
    clear HQ.
    assert (HDm : V mod M = D mod M) by (symmetry; apply mod_sub_mul).
    destruct (muladd_finish h mw E rest hi q) as (r & F1 & F2 & F3 & F4); try assumption.
    { split; [exact H0|]. split; [exact Hh|]. split; [exact Hm|]. split; [exact Lm|exact HM]. }
    { fold M n. rewrite <- EV. exact HD. }
    exists r. split; [exact F1|]. split; [exact F2|]. split; [exact F3|]. rewrite F4. fold M n. rewrite <- EV. symmetry. exact HDm.
Qed.
