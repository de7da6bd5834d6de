(** pow_mod over memory computes the power; the routines around it on integers. *)
From Coq Require Import List ZArith Bool Lia PeanoNat.
From Verif Require Import Outcome UtilsModel UtilsSpec UtilsProofs RsaModel RsaSpec RsaProofs BitLemmas WordsModel WordsSpec WordsProofs PowmModel PowmProofs PowmArith PowmReduce PowmConv PowmMont PowmSpec PowmMain
  RawModel RawSpec RawProofs RawAlloc PowmRawModel PowmRaw PowmRawSpec.
Import ListNotations.
Open Scope Z_scope.

(** ** Words and bytes *)
Lemma byte_mod x : is_byte (x mod 256).
Proof. unfold is_byte. pose proof (Z.mod_pos_bound x 256 ltac:(lia)). lia. Qed.
Lemma bswap_sum w : bswap w = (w mod 256) * 2 ^ 24 + (w / 2 ^ 8 mod 256) * 2 ^ 16 + (w / 2 ^ 16 mod 256) * 2 ^ 8 + w / 2 ^ 24 mod 256.
Proof.
  unfold bswap. rewrite !Z.shiftr_div_pow2 by lia. pose proof (byte_mod w). pose proof (byte_mod (w / 2 ^ 8)). pose proof (byte_mod (w / 2 ^ 16)). pose proof (byte_mod (w / 2 ^ 24)). unfold is_byte in *.
  set (a := w mod 256) in *. set (b := w / 2 ^ 8 mod 256) in *. set (c := w / 2 ^ 16 mod 256) in *. set (d := w / 2 ^ 24 mod 256) in *. clearbody a b c d.
  rewrite (lor_shiftl_add c d 8) by (change (2 ^ 8) with 256; lia). rewrite (lor_shiftl_add b _ 16) by (change (2 ^ 8) with 256; change (2 ^ 16) with 65536; lia).
  rewrite (lor_shiftl_add a _ 24) by (change (2 ^ 8) with 256; change (2 ^ 16) with 65536; change (2 ^ 24) with 16777216; lia). ring.
Qed.
Lemma bswap_word w : w32 (bswap w).
Proof.
  rewrite bswap_sum. pose proof (byte_mod w). pose proof (byte_mod (w / 2 ^ 8)). pose proof (byte_mod (w / 2 ^ 16)). pose proof (byte_mod (w / 2 ^ 24)). unfold is_byte in *.
  set (a := w mod 256) in *. set (b := w / 2 ^ 8 mod 256) in *. set (c := w / 2 ^ 16 mod 256) in *. set (d := w / 2 ^ 24 mod 256) in *. clearbody a b c d. unfold w32. rewrite B_val.
  change (2 ^ 8) with 256; change (2 ^ 16) with 65536; change (2 ^ 24) with 16777216. lia.
Qed.
Lemma le_of_bswap w : le_bytes (bswap w) = be32_bytes w.
Proof.
  unfold le_bytes, be32_bytes. rewrite bswap_sum, !Z.shiftr_div_pow2 by lia. pose proof (byte_mod w). pose proof (byte_mod (w / 2 ^ 8)). pose proof (byte_mod (w / 2 ^ 16)). pose proof (byte_mod (w / 2 ^ 24)). unfold is_byte in *.
  set (a := w mod 256) in *. set (b := w / 2 ^ 8 mod 256) in *. set (c := w / 2 ^ 16 mod 256) in *. set (d := w / 2 ^ 24 mod 256) in *. clearbody a b c d.
  change (2 ^ 8) with 256. change (2 ^ 16) with 65536. change (2 ^ 24) with 16777216. f_equal; [|f_equal; [|f_equal; [|f_equal]]].
  - symmetry. apply (Z.mod_unique _ _ (a * 65536 + b * 256 + c)); [left; lia|ring].
  - replace ((a * 16777216 + b * 65536 + c * 256 + d) / 256) with (a * 65536 + b * 256 + c) by (apply (Z.div_unique _ _ _ d); [left; lia|ring]). symmetry. apply (Z.mod_unique _ _ (a * 256 + b)); [left; lia|ring].
  - replace ((a * 16777216 + b * 65536 + c * 256 + d) / 65536) with (a * 256 + b) by (apply (Z.div_unique _ _ _ (c * 256 + d)); [left; lia|ring]). symmetry. apply (Z.mod_unique _ _ a); [left; lia|ring].
  - replace ((a * 16777216 + b * 65536 + c * 256 + d) / 16777216) with a by (apply (Z.div_unique _ _ _ (b * 65536 + c * 256 + d)); [left; lia|ring]). apply Z.mod_small. lia.
Qed.
Lemma le_bytes_bytes ws : all_bytes (flat_map le_bytes ws).
Proof. induction ws as [|w ws IH]; [constructor|]. cbn [flat_map]. apply Forall_app. split; [|exact IH]. repeat constructor; apply byte_mod. Qed.
Lemma le_bytes_length ws : length (flat_map le_bytes ws) = (4 * length ws)%nat.
Proof. induction ws as [|w ws IH]; [reflexivity|]. cbn [flat_map]. rewrite app_length, IH. cbn [le_bytes length]. lia. Qed.
Lemma nth_le ws : forall k j, (k < length ws)%nat -> (j < 4)%nat -> nth_error (flat_map le_bytes ws) (4 * k + j) = nth_error (le_bytes (nth k ws 0)) j.
Proof.
  induction ws as [|w ws IH]; intros k j Hk Hj; [cbn in Hk; lia|]. cbn [flat_map]. destruct k as [|k].
  - rewrite nth_error_app1 by (cbn [le_bytes length]; lia). reflexivity.
  - rewrite nth_error_app2 by (cbn [le_bytes length]; lia). replace (4 * S k + j - length (le_bytes w))%nat with (4 * k + j)%nat by (cbn [le_bytes length]; lia). apply IH; [cbn [length] in Hk; lia|exact Hj].
Qed.
Lemma be32_le ws k : (k < length ws)%nat -> be32_at (flat_map le_bytes ws) (4 * k) = Ok (bswap (nth k ws 0)).
Proof.
  intros Hk. unfold be32_at, RsaModel.at_. replace (4 * k)%nat with (4 * k + 0)%nat at 1 by lia. rewrite !nth_le by (assumption || lia). cbn [le_bytes nth_error bind]. f_equal. unfold bswap. rewrite !Z.shiftr_div_pow2 by lia. reflexivity.
Qed.
Lemma be_words_le ws : forall k, (k <= length ws)%nat -> be_words k (flat_map le_bytes ws) = Ok (map bswap (rev (firstn k ws))).
Proof.
  induction k as [|k IH]; intros Hk; [reflexivity|]. cbn [be_words]. rewrite be32_le by lia. cbn [bind]. rewrite IH by lia. cbn [bind]. rewrite (firstn_S_snoc k ws) by lia. rewrite rev_app_distr. reflexivity.
Qed.
Lemma flat_bswap ws : flat_map le_bytes (map bswap ws) = flat_map be32_bytes ws.
Proof. induction ws as [|w ws IH]; [reflexivity|]. cbn [map flat_map]. rewrite le_of_bswap, IH. reflexivity. Qed.
Lemma bswap_words ws : all_words (map bswap ws).
Proof. induction ws as [|w ws IH]; [apply words_nil|]. cbn [map]. apply words_cons. split; [apply bswap_word|exact IH]. Qed.
Lemma pow_words_mod key ns rr ws : length ws = r_len key ->
  pow_mod (mkkey (r_len key) (r_n0inv key) ns rr (r_exponent key)) (flat_map le_bytes ws) =
  (let* o := pow_words key ns rr (map bswap (rev ws)) in Ok (match o with Some r => Some (flat_map le_bytes (map bswap (rev r))) | None => None end)).
Proof.
  intros Lw. unfold pow_mod, pow_words. cbn [k_len k_exponent k_rr k_modulus]. rewrite be_words_le by lia. rewrite firstn_all2 by lia. cbn [bind].
  destruct (_ <? 2); [reflexivity|]. destruct (negb _); [reflexivity|].
  destruct (montgomery_mul _ (map bswap (rev ws)) rr) as [c| | |]; cbn [bind]; try reflexivity.
  destruct (pow_bits _ _ c c) as [c1| | |]; cbn [bind]; try reflexivity. destruct (montgomery_mul _ c1 c1) as [t| | |]; cbn [bind]; try reflexivity. destruct (montgomery_mul _ t _) as [c2| | |]; cbn [bind]; try reflexivity.
  rewrite skipn_all2 by (rewrite le_bytes_length; lia). rewrite app_nil_r, flat_bswap. reflexivity.
Qed.

(** ** pow_mod *)
Lemma reads_block m p (ws : list Z) : reads m p ws -> (0 < length ws)%nat -> (fst p < length m)%nat.
Proof. intros R H. apply (room_block m p (length ws)); [apply reads_room; exact R|exact H]. Qed.
Section POW.
Variables (junk : nat -> nat -> Z) (m : memory) (key : raw_key) (inout : loc) (ns rr ws : list Z).
Let L := r_len key.
Hypothesis L0 : (0 < L)%nat.
Hypothesis Ln : length ns = L.
Hypothesis Lr : length rr = L.
Hypothesis Lw : length ws = L.
Hypothesis Rn : reads m (r_modulus key) ns.
Hypothesis Rr : reads m (r_rr key) rr.
Hypothesis Ri : reads m inout ws.
Lemma pow_mod_r_ok : exists m' o, pow_mod_r junk m key inout = Ok (match o with Some _ => true | None => false end, m') /\ pow_words key ns rr (map bswap (rev ws)) = Ok o /\
  only m m' [(inout, match o with Some _ => L | None => 0%nat end)] /\ match o with Some r => length r = L /\ reads m' inout (map bswap (rev r)) | None => True end.
Proof.
  unfold pow_mod_r. fold L.
  destruct (alloca_ok m (junk 0%nat) L) as (m1 & -> & X1 & M1 & N1). destruct (alloca_ok m1 (junk 1%nat) L) as (m2 & -> & X2 & M2 & N2). destruct (alloca_ok m2 (junk 2%nat) L) as (m3 & -> & X3 & M3 & N3). destruct (alloca_ok m3 (junk 3%nat) L) as (m4 & -> & X4 & M4 & N4).
  pose proof (extends_trans _ _ _ X3 X4) as X34. pose proof (extends_trans _ _ _ X2 X34) as X24. pose proof (extends_trans _ _ _ X1 X24) as X14.
  pose proof (reads_block _ _ _ Rn ltac:(lia)) as Bn_. pose proof (reads_block _ _ _ Rr ltac:(lia)) as Br. pose proof (reads_block _ _ _ Ri ltac:(lia)) as Bi.
  destruct (pow_mod_body_ok key ns rr Ln L0 m4 (length m, 0%nat) (length m1, 0%nat) (length m2, 0%nat) (length m3, 0%nat) inout ws Lw Lr) as (m5 & o & E & S & O & F).
  { apply (extends_reads _ _ _ _ X14 Ri). } { apply (extends_reads _ _ _ _ X14 Rn). } { apply (extends_reads _ _ _ _ X14 Rr). }
  { apply (extends_room _ _ _ _ X24 M1). } { apply (extends_room _ _ _ _ X34 M2). } { apply (extends_room _ _ _ _ X4 M3). } { exact M4. }
  { intros p q Ip Iq Hpq. left. cbn [In] in Ip, Iq. intros E. apply Hpq. destruct Ip as [<-|[<-|[<-|[<-|[]]]]], Iq as [<-|[<-|[<-|[<-|[]]]]]; cbn [fst] in E; f_equal; exact E. }
  { repeat (constructor; [cbn [In]; intros H; repeat (destruct H as [H|H]; [injection H as H; lia|]); exact H|]). constructor. }
  { intros p q Ip Iq. left. cbn [In] in Ip, Iq. destruct Ip as [<-|[<-|[<-|[<-|[]]]]], Iq as [<-|[<-|[<-|[]]]]; cbn [fst]; lia. }
  rewrite E. cbn [bind fst snd]. exists (leave m m5), o. split; [reflexivity|]. split; [exact S|]. split.
  - pose proof (only_leave _ _ _ _ X14 O) as OL. cbn [filter fst] in OL. rewrite !(proj2 (Nat.ltb_ge _ _)) in OL by lia. rewrite (proj2 (Nat.ltb_lt _ _)) in OL by exact Bi. exact OL.
  - destruct o as [r|]; [|exact I]. destruct F as [F1 F2]. split; [exact F1|]. apply leave_reads; [exact F2|exact Bi].
Qed.
End POW.
Lemma holds_words m p n v : holds m p n v -> exists ws, length ws = n /\ all_words ws /\ reads m p ws /\ eval ws = v.
Proof. exact (fun H => H). Qed.
Lemma mont_const_ok ns N k : all_words ns -> eval ns = N -> mont_const N k -> w32 k /\ (nth 0 ns 0 * k + 1) mod B = 0.
Proof.
  intros W E [K1 K2]. rewrite <- B32 in *. split; [exact K1|]. rewrite <- E in K2. destruct ns as [|w t]; [exact K2|]. cbn [nth]. rewrite eval_cons in K2. rewrite <- K2. replace ((w + B * eval t) * k + 1) with (w * k + 1 + (eval t * k) * B) by ring. symmetry. apply Z_mod_plus_full.
Qed.
Lemma cap_Bn n : cap n = Bn n. Proof. unfold cap. symmetry. apply Bn_pow2. Qed.
Lemma cong_of_mod n a b : 0 < n -> a mod n = b mod n -> cong n a b.
Proof. intros H E. exists (a / n - b / n). pose proof (Z.div_mod a n ltac:(lia)). pose proof (Z.div_mod b n ltac:(lia)). nia. Qed.
Lemma pow_mod_memory junk m key inout N RR bs : (0 < r_len key)%nat -> holds m (r_modulus key) (r_len key) N -> Z.odd N = true -> mont_const N (r_n0inv key) ->
  holds m (r_rr key) (r_len key) RR -> RR mod N = (cap (r_len key) * cap (r_len key)) mod N -> Z.odd (r_exponent key) = true -> 3 <= r_exponent key < 2 ^ 64 ->
  bytes_at m inout bs -> length bs = (4 * r_len key)%nat ->
  exists m' v, pow_mod_r junk m key inout = Ok (true, m') /\ only m m' [(inout, r_len key)] /\ bytes_at m' inout (I2OSP v (4 * r_len key)) /\ 0 <= v < cap (r_len key) /\
    v mod N = OS2IP bs ^ effective (r_exponent key) mod N /\ (OS2IP bs < N \/ cap (r_len key) <= 2 * N -> v = OS2IP bs ^ effective (r_exponent key) mod N).
Proof.
  intros L0 (ns & Ln & Wn & Rn & En) Od Kc (rr & Lr & Wr & Rr & Er) Crr Oe Re (ws & Ww & Rw & ->) Lb. rewrite le_bytes_length in Lb. assert (Lw : length ws = r_len key) by lia.
  assert (N0 : 0 < N). { pose proof (eval_range ns Wn) as RN. rewrite En in RN. destruct (Z.eq_dec N 0) as [->|]; [discriminate|lia]. }
  rewrite cap_Bn in *. set (lkey := mkkey (r_len key) (r_n0inv key) ns rr (r_exponent key)).
  destruct (pow_mod_total lkey Wn (mont_const_ok ns N _ Wn En Kc) ltac:(cbn [k_modulus lkey]; rewrite En; exact N0) Ln ltac:(cbn [k_modulus lkey]; rewrite En; exact Od) (flat_map le_bytes ws)) as (v & V1 & V2 & V3 & V4); cbn [k_modulus k_len k_rr k_exponent lkey] in *; try assumption.
  { rewrite En, Er. apply (cong_of_mod N); [exact N0|exact Crr]. } { apply le_bytes_bytes. } { rewrite le_bytes_length. lia. }
  rewrite En in V3, V4. rewrite le_bytes_length in V1.
  destruct (pow_mod_r_ok junk m key inout ns rr ws L0 Ln Lr Lw Rn Rr Rw) as (m' & o & E & S & O & F).
  unfold lkey in V1. rewrite (pow_words_mod key ns rr ws Lw), S in V1. cbn [bind] in V1. destruct o as [r|]; [|discriminate]. injection V1 as V1. rewrite Lw in V1.
  exists m', v. split; [exact E|]. split; [exact O|]. split; [exists (map bswap (rev r)); split; [apply bswap_words|]; split; [apply F|symmetry; exact V1]|]. split; [exact V2|]. split; [apply cong_mod; assumption|exact V4].
Qed.
Lemma pow_mod_refuses junk m key inout ns rr ws : (0 < r_len key)%nat -> length ns = r_len key -> length rr = r_len key -> length ws = r_len key -> reads m (r_modulus key) ns -> reads m (r_rr key) rr -> reads m inout ws ->
  0 <= r_exponent key < 2 ^ 64 -> (Z.even (r_exponent key) = true \/ r_exponent key < 3) -> exists m', pow_mod_r junk m key inout = Ok (false, m') /\ m' = m.
Proof.
  intros L0 Ln Lr Lw Rn Rr Ri Re H. destruct (pow_mod_r_ok junk m key inout ns rr ws L0 Ln Lr Lw Rn Rr Ri) as (m' & o & E & S & O & F).
  assert (o = None).
  { unfold pow_words in S. cbn [k_exponent] in S. destruct (Z.ltb_spec (num_public_exponent_bits (r_exponent key)) 2) as [|G]; [injection S as <-; reflexivity|].
    rewrite bit_set_spec in S by lia. rewrite Z.bit0_odd in S. destruct H as [H|H].
    - rewrite <- Z.negb_even, H in S. cbn [negb andb] in S. injection S as <-. reflexivity.
    - assert (C : r_exponent key = 0 \/ r_exponent key = 1 \/ r_exponent key = 2) by lia. destruct C as [C|[C|C]]; rewrite C in *; try (cbn in G; lia). cbn in S. injection S as <-. reflexivity. }
  subst o. exists m'. split; [exact E|]. apply mem_same; [apply O|]. intros b k. apply O. intros r [<-|[]] [_ W]. cbn [fst snd] in W. lia.
Qed.
