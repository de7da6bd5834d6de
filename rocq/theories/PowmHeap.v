(** rsa_gen_key_prop and powm with their heap. *)
From Coq Require Import List ZArith Bool Lia PeanoNat.
From Verif Require Import Outcome UtilsModel UtilsSpec WordsModel WordsSpec WordsProofs RsaModel RsaSpec PowmModel PowmProofs PowmArith PowmReduce PowmConv PowmSpec PowmMain PowmClaims PowmRawReduce PowmHeapModel PowmHeapSpec.
Import ListNotations.
Open Scope nat_scope.

Lemma live_filter l a k : (forall i (b : block), In (i, b) l -> i < a) -> a <= k -> filter (fun e => negb (Nat.eqb (fst e) k)) l = l.
Proof. induction l as [|[i b] l IH]; intros H L; [reflexivity|]. cbn [filter fst]. rewrite (proj2 (Nat.eqb_neq i k)) by (specialize (H i b (or_introl eq_refl)); lia). cbn [negb]. f_equal. apply IH; [intros i' b' I; apply (H i' b'); right; exact I|exact L]. Qed.
Lemma live_map l a k c : (forall i (b : block), In (i, b) l -> i < a) -> a <= k -> map (fun e => if Nat.eqb (fst e) k then (k, c) else e) l = l.
Proof. induction l as [|[i b] l IH]; intros H L; [reflexivity|]. cbn [map fst]. rewrite (proj2 (Nat.eqb_neq i k)) by (specialize (H i b (or_introl eq_refl)); lia). f_equal. apply IH; [intros i' b' I; apply (H i' b'); right; exact I|exact L]. Qed.
Lemma decode_length x buf len v : br_i32_decode x buf len = Ok v -> length (snd v) = length x.
Proof. unfold br_i32_decode. destruct (decode_words len buf len) as [ws| | |]; cbn [bind]; try discriminate. destruct (Nat.leb_spec (length ws) (length x)); [|discriminate]. intros E. injection E as <-. cbn [snd]. rewrite app_length, skipn_length. lia. Qed.
Lemma take_len n (l r : list Z) : take n l = Ok r -> length r = n /\ n <= length l.
Proof. unfold take. destruct (Nat.leb_spec n (length l)); [|discriminate]. intros E. injection E as <-. rewrite firstn_length_le by assumption. auto. Qed.
Lemma i32_add_length a b ctl v : br_i32_add a b ctl = Ok v -> fst (fst v) = fst a /\ length (snd (fst v)) = length (snd a).
Proof.
  unfold br_i32_add. destruct (take (word_count (fst a)) (snd a)) as [aw| | |] eqn:Ea; cbn [bind]; try discriminate. destruct (take (word_count (fst a)) (snd b)) as [bw| | |] eqn:Eb; cbn [bind]; try discriminate.
  apply take_len in Ea, Eb. pose proof (add_ctl_length aw bw ctl 0 ltac:(lia)) as L. destruct (add_ctl aw bw ctl 0) as [r c]. intros E. injection E as <-. cbn [fst snd] in *. rewrite app_length, skipn_length. lia.
Qed.
Lemma i32_sub_length a b ctl v : br_i32_sub a b ctl = Ok v -> fst (fst v) = fst a /\ length (snd (fst v)) = length (snd a).
Proof.
  unfold br_i32_sub. destruct (take (word_count (fst a)) (snd a)) as [aw| | |] eqn:Ea; cbn [bind]; try discriminate. destruct (take (word_count (fst a)) (snd b)) as [bw| | |] eqn:Eb; cbn [bind]; try discriminate.
  apply take_len in Ea, Eb. pose proof (sub_ctl_length aw bw ctl 0 ltac:(lia)) as L. destruct (sub_ctl aw bw ctl 0) as [r c]. intros E. injection E as <-. cbn [fst snd] in *. rewrite app_length, skipn_length. lia.
Qed.
(** a result that is Ok: take the binds apart *)
Ltac unbind H := match type of H with
  | bind ?x _ = Ok _ => let E := fresh "E" in let v := fresh "v" in destruct x as [v| | |] eqn:E; cbn [bind] in H; try discriminate H
  end.
Lemma count_pos h : (32 < h)%Z -> (h + 31 < B)%Z -> 1 <= Z.to_nat (Z.shiftr ((h + 31) mod B) 5).
Proof. intros H1 H2. rewrite nwords_shift by lia. pose proof (nwords_bits h ltac:(lia)). lia. Qed.
Lemma muladd_length x z m v : (0 <= fst m)%Z -> (fst m + 31 < B)%Z -> br_i32_muladd_small x z m = Ok v -> length (snd v) = length (snd x).
Proof.
  intros H0 HB. unfold br_i32_muladd_small. destruct (Z.eqb_spec (fst m) 0) as [|_]; [intros E; injection E as <-; reflexivity|]. destruct (Z.leb_spec (fst m) 32) as [Le|G].
  - intros H. unbind H. unbind H. injection H as <-. apply at_len in E. destruct (snd x); [cbn in E; lia|reflexivity].
  - pose proof (count_pos (fst m) G HB) as P. set (L := Z.to_nat (Z.shiftr ((fst m + 31) mod B) 5)) in *. intros H. unbind H. unbind H. unbind H. unbind H. unbind H. cbv zeta in H. unbind H. unbind H.
    apply at_len in E0. apply take_len in E1, E4, E5. pose proof (mul_sub_length v5 v6 (MUX (EQ v0 v4) 4294967295 (MUX (EQ (br_div v0 v3 v4) 0) 0 ((br_div v0 v3 v4 - 1) mod B))) 0 1 ltac:(lia)) as M.
    destruct (mul_sub v5 v6 _ 0 1) as [[r cc] tb]. cbn [fst snd] in M. unbind H. unbind H. injection H as <-. apply i32_add_length in E6. apply i32_sub_length in E7. cbn [fst snd] in *. rewrite (proj2 E7), (proj2 E6). rewrite app_length, skipn_length. cbn [length]. rewrite app_length, skipn_length. lia.
Qed.
Lemma reduce_loop_length m a : (0 <= fst m)%Z -> (fst m + 31 < B)%Z -> forall u x v, reduce_loop u x a m = Ok v -> length (snd v) = length (snd x).
Proof.
  intros H0 HB. induction u as [|u IH]; intros x v H; cbn [reduce_loop] in H; [injection H as <-; reflexivity|]. unbind H. unbind H. rewrite (IH _ _ H). apply (muladd_length x v0 m); assumption.
Qed.
Lemma reduce_length x a m v : (0 <= fst m)%Z -> (fst m + 31 < B)%Z -> (0 <= fst a)%Z -> br_i32_reduce x a m = Ok v -> length (snd v) = length x.
Proof.
  intros H0 HB A0. unfold br_i32_reduce. destruct (Z.eqb_spec (fst m) 0) as [|N0]; [intros E; injection E as <-; reflexivity|].
  assert (P : 1 <= Z.to_nat (Z.shiftr ((fst m + 31) mod B) 5)) by (rewrite nwords_shift by lia; pose proof (nwords_bits (fst m) ltac:(lia)); lia).
  destruct (Z.ltb_spec (fst a) (fst m)) as [Lt|Ge]; intros H; unbind H; apply take_len in E; match type of H with context [Nat.leb ?p ?q] => destruct (Nat.leb_spec p q) end; try discriminate H.
  - injection H as <-. cbn [snd]. rewrite !app_length, repeat_length, skipn_length. rewrite !nwords_shift in * by lia. assert (nwords (fst a) <= nwords (fst m)) by (unfold nwords; apply Z2Nat.inj_le; [apply Z.div_pos; lia|apply Z.div_pos; lia|apply Z.div_le_mono; lia]). lia.
  - rewrite (reduce_loop_length m a H0 HB _ _ _ H). cbn [snd]. rewrite app_length. cbn [length]. rewrite skipn_length. lia.
Qed.
Lemma encode_words_length k : forall x r, encode_words k x = Ok r -> length r = 4 * k.
Proof. induction k as [|k IH]; intros x r H; cbn [encode_words] in H; [injection H as <-; reflexivity|]. unbind H. unbind H. injection H as <-. cbn [be32_bytes app length]. rewrite (IH _ _ E0). lia. Qed.
Lemma encode_length len x e : br_i32_encode len x = Ok e -> length e = len.
Proof.
  unfold br_i32_encode. set (k := Z.to_nat _). set (l := Nat.min len k). pose proof (Nat.div_mod l 4 ltac:(lia)) as D. pose proof (Nat.mod_upper_bound l 4 ltac:(lia)) as U.
  assert (Q : (l + 3) / 4 = l / 4 + (if Nat.eqb (l mod 4) 0 then 0 else 1)).
  { symmetry. apply (Nat.div_unique _ _ _ (match l mod 4 with 0 => 3 | S j => j end)); destruct (l mod 4) as [|j]; cbn [Nat.eqb]; lia. }
  destruct (l mod 4) as [|j] eqn:M; cbn [Nat.eqb] in Q; intros H.
  - unbind H. injection H as <-. apply encode_words_length in E. rewrite app_length, repeat_length. lia.
  - unbind H. unbind H. injection H as <-. apply encode_words_length in E0. rewrite !app_length, repeat_length, skipn_length. cbn [be32_bytes length]. destruct j as [|[|[|j]]]; lia.
Qed.

(** ** The headers *)
Lemma decode_header x buf len v : all_bytes buf -> len <= length buf -> (8 * Z.of_nat len < 2 ^ 31)%Z -> br_i32_decode x buf len = Ok v -> (0 <= fst v)%Z /\ (fst v + 31 < B)%Z.
Proof.
  intros Hb Hl HB. unfold br_i32_decode. destruct (decode_words_spec len buf len Hb Hl (le_n _)) as (ws & E & W & L & V). rewrite E. cbn [bind]. destruct (Nat.leb (length ws) (length x)); [|discriminate]. intros Q. injection Q as <-. cbn [fst].
  pose proof (Nat.div_mod (len + 3) 4 ltac:(lia)) as D. rewrite <- L in D. rewrite B32. rewrite br_i32_bit_length_spec; [|exact W|rewrite B32; lia].
  pose proof (eval_range ws W) as R. rewrite Bn_pow2 in R. pose proof (bits_nonneg (eval ws)). pose proof (bits_upper (eval ws) (32 * Z.of_nat (length ws)) ltac:(lia) ltac:(lia) ltac:(lia)). lia.
Qed.

(** ** Running it *)
Lemma firstn_zeros k : forall n, n <= k -> firstn n (repeat 0%Z k) = repeat 0%Z n.
Proof. induction k as [|k IH]; intros [|n] H; try reflexivity; [lia|]. cbn [repeat firstn]. f_equal. apply IH. lia. Qed.
Ltac eqbs := repeat match goal with
  | |- context [Nat.eqb ?x ?x] => rewrite (Nat.eqb_refl x)
  | |- context [Nat.eqb (length ?x) (length ?y)] => fail 1
  | |- context [Nat.eqb ?x ?y] => rewrite (proj2 (Nat.eqb_neq x y)) by lia
  end.
Ltac heap := unfold get_struct, get_array, get, set_struct, set_array, set_block, free; cbn [find map filter fst snd negb h_live h_next bind s_rr s_modulus s_exponent s_n0inv s_num_bits];
  repeat (eqbs; cbn [find map filter fst snd negb h_live h_next bind s_rr s_modulus s_exponent s_n0inv s_num_bits]).
Section RUN.
Variables (fails : nat -> bool) (junk : nat -> nat -> Z) (a : nat) (l : list (nat * block)) (mod_ exp : list Z).
Hypothesis OK : forall i (b : block), In (i, b) l -> i < a.
Let M := skipn (leading_zeros mod_) mod_.
Hypothesis HB : (zlen M < 2 ^ 27)%Z.
Let F k := live_filter l a k OK.
Let P k c := live_map l a k c OK.
Lemma gen_no_prop : fails a = true -> rsa_gen_key_prop_h fails junk (mkheap a l) mod_ exp = Ok (false, None, mkheap (S a) l).
Proof. intros H. unfold rsa_gen_key_prop_h, alloc. cbn [h_next h_live]. rewrite H. reflexivity. Qed.
Lemma gen_no_modulus : fails a = false -> fails (S a) = true -> exists p, rsa_gen_key_prop_h fails junk (mkheap a l) mod_ exp = Ok (false, p, mkheap (2 + a) l).
Proof.
  intros H0 H1. exists (Some a). unfold rsa_gen_key_prop_h, malloc, alloc. cbn [h_next h_live]. rewrite H0. cbn [h_next h_live]. rewrite H1. heap. rewrite P by lia. cbn [out]. unfold out, rsa_free_key_prop. heap. rewrite F by lia. reflexivity.
Qed.
Ltac keep := rewrite ?P, ?F by lia.
Ltac done_ := unfold out, rsa_free_key_prop; heap; keep; heap; keep; heap; keep; heap; keep; reflexivity.
Lemma junk_length k n : length (map (junk k) (seq 0 n)) = n. Proof. rewrite map_length, seq_length. reflexivity. Qed.
Lemma gen_no_arrays : fails a = false -> fails (S a) = false -> fails (2 + a) = true \/ fails (3 + a) = true \/ fails (4 + a) = true ->
  exists p, rsa_gen_key_prop_h fails junk (mkheap a l) mod_ exp = Ok (false, p, mkheap (5 + a) l).
Proof.
  intros H0 H1 H2. exists (Some a). unfold rsa_gen_key_prop_h, malloc, calloc, alloc. cbn [h_next h_live]. rewrite H0. cbn [h_next h_live]. rewrite H1. heap. keep. heap. fold M.
  rewrite junk_length. eqbs. heap. keep. rewrite (proj2 (Z.leb_gt _ _)) by exact HB. heap.
  cbn [Nat.add] in H2. destruct (fails (S (S a))) eqn:E2; destruct (fails (S (S (S a)))) eqn:E3; destruct (fails (S (S (S (S a))))) eqn:E4; heap; rewrite ?E2, ?E3, ?E4; heap; rewrite ?E2, ?E3, ?E4; heap; try (destruct H2 as [H2|[H2|H2]]; discriminate).
  all: done_.
Qed.
Lemma gen_no_exponent : fails a = false -> fails (S a) = false -> fails (2 + a) = false -> fails (3 + a) = false -> fails (4 + a) = false -> fails (5 + a) = true ->
  exists p, rsa_gen_key_prop_h fails junk (mkheap a l) mod_ exp = Ok (false, p, mkheap (6 + a) l).
Proof.
  intros H0 H1 H2 H3 H4 H5. exists (Some a). cbn [Nat.add] in *. unfold rsa_gen_key_prop_h, malloc, calloc, alloc. cbn [h_next h_live]. rewrite H0. cbn [h_next h_live]. rewrite H1. heap. keep. heap. fold M.
  rewrite junk_length. eqbs. heap. keep. rewrite (proj2 (Z.leb_gt _ _)) by exact HB. heap.
  rewrite H2. heap. rewrite H3. heap. rewrite H4. heap. rewrite H5. heap. keep. done_.
Qed.
Definition after (k : key_prop) : heap := mkheap (7 + a) ((6 + a, Array (p_rr k)) :: (5 + a, Array (p_exponent k)) :: (1 + a, Array (p_modulus k)) ::
  (a, Struct (mkp (Some (6 + a)) (Some (1 + a)) (Some (5 + a)) (p_n0inv k) (p_num_bits k))) :: l).
Hypothesis Hm : all_bytes mod_.
Lemma M_bytes : all_bytes M.
Proof. unfold M, all_bytes in *. rewrite <- (firstn_skipn (leading_zeros mod_) mod_) in Hm. apply Forall_app in Hm. apply Hm. Qed.
Lemma rr_bytes n : all_bytes ([1; 0; 0; 0]%Z ++ repeat 0%Z n).
Proof. apply Forall_app. split; [repeat (apply Forall_cons; [unfold is_byte; lia|]); apply Forall_nil|]. apply Forall_forall. intros x H. apply repeat_spec in H. subst. unfold is_byte. lia. Qed.
Lemma gen_run : fails a = false -> fails (S a) = false -> fails (2 + a) = false -> fails (3 + a) = false -> fails (4 + a) = false -> fails (5 + a) = false ->
  (fails (6 + a) = false -> rsa_gen_key_prop_h fails junk (mkheap a l) mod_ exp = let* k := rsa_gen_key_prop mod_ exp in Ok (true, Some a, after k)) /\
  (forall k, fails (6 + a) = true -> rsa_gen_key_prop mod_ exp = Ok k -> rsa_gen_key_prop_h fails junk (mkheap a l) mod_ exp = Ok (false, Some a, mkheap (7 + a) l)).
Proof.
  intros H0 H1 H2 H3 H4 H5. cbn [Nat.add] in *. unfold rsa_gen_key_prop_h, malloc, calloc, alloc. cbn [h_next h_live]. rewrite H0. cbn [h_next h_live]. rewrite H1. heap. keep. heap. fold M.
  rewrite junk_length. eqbs. heap. keep. unfold rsa_gen_key_prop. fold M. cbv zeta. rewrite (proj2 (Z.leb_gt _ _)) by exact HB. heap.
  rewrite H2. heap. rewrite H3. heap. rewrite H4. heap. rewrite H5. heap. keep. heap.
  destruct (Nat.ltb 8 (length exp)) eqn:E8; [split; [reflexivity|discriminate]|].
  apply Nat.ltb_ge in E8. assert (EX : firstn (8 - length exp) (repeat 0%Z 8) = repeat 0%Z (8 - length exp)). { apply firstn_zeros. lia. }
  rewrite EX. rewrite app_length, !repeat_length. replace (8 - length exp + length exp) with 8 by lia. eqbs. heap.
  set (nb := length M * 8 / 32). set (nr := length M * 8 * 2 / 32). change (1 + nb) with (S nb). change (1 + nr) with (S nr). change (2 + nr) with (S (S nr)). cbn [repeat as_i32 bind snd].
  pose proof M_bytes as MB. unfold zlen in HB.
  destruct (br_i32_decode (repeat 0%Z nb) M (length M)) as [nd| | |] eqn:Ed; cbn [bind]; [|split; [reflexivity|discriminate]..].
  pose proof (decode_length _ _ _ _ Ed) as Ln. pose proof (decode_header _ _ _ _ MB (le_n _) ltac:(lia) Ed) as [Hn0 HnB]. cbn [length]. rewrite Ln, repeat_length. eqbs. heap. keep.
  destruct (at_ (snd nd) 0) as [n1| | |] eqn:E1; cbn [bind]; [|split; [reflexivity|discriminate]..]. heap. keep. heap.
  cbn [length]. rewrite !repeat_length. change (S nr - 1) with (nr - 0). rewrite Nat.sub_0_r.
  set (q := (length M * 8 * 2 + 31) / 32). rewrite (Nat.add_comm q 1). change (S nr <? 1 + q) with (nr <? q). destruct (Nat.ltb_spec nr q) as [|Gq]; [split; [reflexivity|discriminate]|].
  cbn [as_i32 bind snd]. change (0%Z :: repeat 0%Z nr) with (repeat 0%Z (1 + nr)).
  destruct (br_i32_decode (repeat 0%Z (1 + nr)) _ _) as [t| | |] eqn:Et; cbn [bind]; [|split; [reflexivity|discriminate]..].
  pose proof (decode_length _ _ _ _ Et) as Lt. assert (Ht : (0 <= fst t)%Z /\ (fst t + 31 < B)%Z).
  { pose proof (Nat.div_mod (length M * 8 * 2 + 31) 32 ltac:(lia)) as D1. fold q in D1. pose proof (Nat.mod_upper_bound (length M * 8 * 2 + 31) 32 ltac:(lia)) as U1.
    pose proof (Nat.div_mod (length M * 8 * 2 + 7) 8 ltac:(lia)) as D2. set (d := (length M * 8 * 2 + 7) / 8) in *.
    apply (decode_header _ _ _ _ (rr_bytes _)) in Et; [exact Et|rewrite app_length, repeat_length; cbn [length]; lia|lia]. }
  destruct Ht as [Ht0 HtB]. rewrite Lt, repeat_length. change (S (S nr)) with (S (1 + nr)). eqbs. heap. keep.
  destruct (br_i32_reduce (repeat 0%Z nr) t nd) as [r| | |] eqn:Er; cbn [bind]; [|split; [reflexivity|discriminate]..].
  pose proof (reduce_length _ _ _ _ Hn0 HnB Ht0 Er) as Lr. heap. keep. cbn [length]. rewrite Lr, !repeat_length. change (1 + nr) with (S nr). eqbs. heap.
  set (rl := (length M * 8 + 7) / 8).
  split.
  - intros H6. rewrite H6. heap. keep. destruct (br_i32_encode rl r) as [e| | |] eqn:Ee; cbn [bind]; try reflexivity. apply encode_length in Ee. rewrite junk_length, Ee. eqbs. heap. keep. unfold out. heap. keep. heap. keep. reflexivity.
  - intros k H6 _. rewrite H6. heap. keep. done_.
Qed.
Lemma after_free k : rsa_free_key_prop (after k) (Some a) = Ok (mkheap (7 + a) l).
Proof. unfold rsa_free_key_prop, after. cbn [Nat.add]. heap. keep. reflexivity. Qed.
Lemma after_prop k : prop_at (after k) (Some a) k.
Proof. unfold after. cbn [Nat.add]. eexists. split; [heap; reflexivity|]. heap. repeat split. Qed.
Lemma after_use k sig : rsa_mod_exp_sw_h (after k) sig (Some a) = rsa_mod_exp_sw sig k.
Proof. unfold rsa_mod_exp_sw_h, after. cbn [Nat.add]. heap. unfold rsa_mod_exp_sw. cbn [p_num_bits p_modulus p_rr p_exponent p_n0inv]. destruct (Nat.eqb (p_num_bits k) 0); reflexivity. Qed.
End RUN.

(** ** All failures *)
Section CLAIMS.
Variables (fails : nat -> bool) (junk : nat -> nat -> Z).
Lemma gen_fails h mod_ exp k : heap_ok h -> all_bytes mod_ -> rsa_gen_key_prop mod_ exp = Ok k -> some_fails fails h 7 ->
  exists p h', rsa_gen_key_prop_h fails junk h mod_ exp = Ok (false, p, h') /\ h_live h' = h_live h.
Proof.
  destruct h as [a l]. intros OK Hm E (j & Hj & Fj). unfold heap_ok in OK. cbn [h_live h_next] in *.
  assert (HB : (zlen (skipn (leading_zeros mod_) mod_) < 2 ^ 27)%Z). { unfold rsa_gen_key_prop in E. cbv zeta in E. destruct (Z.leb_spec (2 ^ 27) (zlen (skipn (leading_zeros mod_) mod_))); [discriminate|assumption]. }
  destruct (fails a) eqn:F0; [do 2 eexists; split; [apply gen_no_prop; assumption|reflexivity]|].
  destruct (fails (S a)) eqn:F1; [destruct (gen_no_modulus fails junk a l mod_ exp OK F0 F1) as [p Q]; exists p; eexists; split; [exact Q|reflexivity]|].
  destruct (fails (2 + a)) eqn:F2; [destruct (gen_no_arrays fails junk a l mod_ exp OK HB F0 F1 ltac:(auto)) as [p Q]; exists p; eexists; split; [exact Q|reflexivity]|].
  destruct (fails (3 + a)) eqn:F3; [destruct (gen_no_arrays fails junk a l mod_ exp OK HB F0 F1 ltac:(auto)) as [p Q]; exists p; eexists; split; [exact Q|reflexivity]|].
  destruct (fails (4 + a)) eqn:F4; [destruct (gen_no_arrays fails junk a l mod_ exp OK HB F0 F1 ltac:(auto)) as [p Q]; exists p; eexists; split; [exact Q|reflexivity]|].
  destruct (fails (5 + a)) eqn:F5; [destruct (gen_no_exponent fails junk a l mod_ exp OK HB F0 F1 F2 F3 F4 F5) as [p Q]; exists p; eexists; split; [exact Q|reflexivity]|].
  destruct (fails (6 + a)) eqn:F6. { exists (Some a), (mkheap (7 + a) l). split; [apply (proj2 (gen_run fails junk a l mod_ exp OK HB Hm F0 F1 F2 F3 F4 F5) k F6 E)|reflexivity]. }
  exfalso. do 7 (destruct j as [|j]; [cbn [Nat.add] in *; rewrite ?Nat.add_0_r, ?(Nat.add_comm a) in Fj; cbn [Nat.add] in Fj; congruence|]). lia.
Qed.
Lemma gen_ok h mod_ exp : heap_ok h -> all_bytes mod_ -> none_fails fails h 7 ->
  (forall k, rsa_gen_key_prop mod_ exp = Ok k -> exists p h', rsa_gen_key_prop_h fails junk h mod_ exp = Ok (true, p, h') /\ prop_at h' p k /\
     (exists bs, h_live h' = bs ++ h_live h /\ length bs = 4) /\ exists h'', rsa_free_key_prop h' p = Ok h'' /\ h_live h'' = h_live h).
Proof.
  destruct h as [a l]. intros OK Hm NF k E. unfold heap_ok in OK. cbn [h_live h_next] in *.
  assert (HB : (zlen (skipn (leading_zeros mod_) mod_) < 2 ^ 27)%Z). { unfold rsa_gen_key_prop in E. cbv zeta in E. destruct (Z.leb_spec (2 ^ 27) (zlen (skipn (leading_zeros mod_) mod_))); [discriminate|assumption]. }
  assert (G : forall j, j < 7 -> fails (j + a) = false) by (intros j Hj; rewrite Nat.add_comm; apply (NF j Hj)).
  pose proof (proj1 (gen_run fails junk a l mod_ exp OK HB Hm (G 0 ltac:(lia)) (G 1 ltac:(lia)) (G 2 ltac:(lia)) (G 3 ltac:(lia)) (G 4 ltac:(lia)) (G 5 ltac:(lia))) (G 6 ltac:(lia))) as R. rewrite E in R. cbn [bind] in R.
  exists (Some a), (after a l k). split; [exact R|]. split; [apply (after_prop fails junk a l OK)|]. split; [exists (firstn 4 (h_live (after a l k))); split; reflexivity|].
  exists (mkheap (7 + a) l). split; [apply (after_free fails junk a l OK)|reflexivity].
Qed.
Lemma mod_exp_fails h base mod_ exp k : heap_ok h -> all_bytes mod_ -> rsa_gen_key_prop mod_ exp = Ok k -> some_fails fails h 7 -> mod_exp_h fails junk h base exp mod_ = Abort.
Proof. intros OK Hm E S. destruct (gen_fails h mod_ exp k OK Hm E S) as (p & h' & Q & _). unfold mod_exp_h. rewrite Q. reflexivity. Qed.
Lemma mod_exp_heap h base mod_ exp : heap_ok h -> all_bytes mod_ -> (Z.of_nat (length mod_) < 2 ^ 27)%Z -> none_fails fails h 7 ->
  exists h', h_live h' = h_live h /\ mod_exp_h fails junk h base exp mod_ = let* r := mod_exp_sw base exp mod_ in Ok (r, h').
Proof.
  destruct h as [a l]. intros OK Hm HB NF. unfold heap_ok in OK. cbn [h_live h_next] in *. exists (mkheap (7 + a) l). split; [reflexivity|].
  assert (HB' : (zlen (skipn (leading_zeros mod_) mod_) < 2 ^ 27)%Z) by (unfold zlen; rewrite skipn_length; lia).
  assert (G : forall j, j < 7 -> fails (j + a) = false) by (intros j Hj; rewrite Nat.add_comm; apply (NF j Hj)).
  pose proof (proj1 (gen_run fails junk a l mod_ exp OK HB' Hm (G 0 ltac:(lia)) (G 1 ltac:(lia)) (G 2 ltac:(lia)) (G 3 ltac:(lia)) (G 4 ltac:(lia)) (G 5 ltac:(lia))) (G 6 ltac:(lia))) as R.
  unfold mod_exp_h, mod_exp_sw. rewrite R. destruct (rsa_gen_key_prop mod_ exp) as [k| | |]; cbn [bind]; try reflexivity. cbn [check bind]. rewrite (after_use fails junk a l OK).
  destruct (rsa_mod_exp_sw base k) as [r| | |]; cbn [bind]; try reflexivity. rewrite (after_free fails junk a l OK). reflexivity.
Qed.
Lemma powm_fit_gen h base m e : heap_ok h -> modulus_fit m -> all_bytes e -> length e <= 8 -> some_fails fails h 7 ->
  (exists p h', rsa_gen_key_prop_h fails junk h m e = Ok (false, p, h') /\ h_live h' = h_live h) /\ mod_exp_h fails junk h base e m = Abort.
Proof.
  intros OK (M1 & M2 & M3 & M4 & M5) He Le S. destruct (key_prop_spec m (length m / 4) M1 M2 (mod4 _ M4) M5 e He Le M3) as (k & ws & K & _).
  split; [apply (gen_fails h m e k); assumption|apply (mod_exp_fails h base m e k); assumption].
Qed.
End CLAIMS.
