(** Proofs about BigHeapModel, part 3: products, word operands, shifts, divisions, copies and moves. *)
From Coq Require Import List ZArith Bool Lia.
From Verif Require Import Outcome LoopModel WordsModel WordsSpec WordsProofs DivProofs BigintModel BigintSpec BigintProofs BigintClaims BufferModel BufferSpec BufferProofs BigHeapModel BigHeapSpec BigHeapProofs BigHeapOps.
Import ListNotations.
Local Open Scope nat_scope.

Section Rest.
  Variables (N : nat) (junk : nat -> Z) (s : hstate).
  Hypothesis Hi : hinv N s.
  Let n := length (objs (bufs s)).

  Lemma rd1 x X : live s x X -> Forall (readable (bufs s)) [(x, size X)].
  Proof. intros H. constructor; [apply (l_read _ _ _ H)|constructor]. Qed.
  Lemma ws1 x X : live s x X -> map (read_of (bufs s)) [(x, size X)] = [mem X].
  Proof. intros H. cbn [map]. rewrite (l_words _ _ _ H). reflexivity. Qed.
  Lemma live_size x X : live s x X -> 1 <= size X.
  Proof. intros H. apply (l_valid _ _ _ H). Qed.
  Lemma low_live x X : live s x X -> word_h s x 0 = Ok (word0 X).
  Proof.
    intros H. pose proof (l_read _ _ _ H) as R. pose proof (l_words _ _ _ H) as W. pose proof (live_size x X H) as S1. unfold readable, read_of, word0 in *. cbn [fst snd] in *.
    destruct (nth_error (contents (bufs s)) x) as [c|] eqn:E; [|apply nth_error_None in E; rewrite nth_overflow in R by exact E; cbn in R; lia].
    rewrite (nth_error_nth _ _ _ E) in *. rewrite (word_ok N s x c 0 (proj1 Hi) E) by lia. rewrite <- W. destruct c; [cbn in R; lia|]. destruct (size X); [lia|reflexivity].
  Qed.

  (** the destination as the model has it: x itself when they are one object *)
  Definition dest (z x : nat) (X : bigint) : bigint := if Nat.eqb z x then X else Z0.
  Lemma dest_ok z x X : live s x X -> valid (Flex 0) (dest z x X).
  Proof. intros H. unfold dest. destruct (Nat.eqb z x); [apply (l_valid _ _ _ H)|apply Z0_ok]. Qed.
  Lemma dest_len z x X : live s x X -> length (mem (dest z x X)) <= size X.
  Proof. intros H. pose proof (live_size x X H). unfold dest. destruct (Nat.eqb z x); [rewrite (l_len _ _ _ H); lia|cbn; lia]. Qed.
  Lemma dest_same z x X : Nat.eqb z x = true -> dest z x X = X.
  Proof. intros H. unfold dest. rewrite H. reflexivity. Qed.

  Lemma add_word_len (l : list Z) w : length (fst (add_word l w)) = length l.
  Proof. apply add_word_length. Qed.
  Lemma sub_word_len x X w : live s x X -> (0 <= w < 2 ^ 32)%Z -> length (fst (sub_word (mem X) w)) = size X.
  Proof.
    intros H Hw. pose proof (sub_word_spec (mem X) w (live_all _ _ _ H)) as Q. destruct (sub_word (mem X) w) as [r c].
    rewrite <- B_eq in Q. destruct (Q Hw (live_nonempty _ _ _ H)) as (_ & L & _). cbn [fst]. rewrite L. apply (l_len _ _ _ H).
  Qed.

  Lemma add1_goes z x X w yN : live s x X -> z < n -> (0 <= w < 2 ^ 32)%Z ->
    goes N s (add1_signed_h N junk s z x w yN) (upd (values s) z (Some (value X + (if yN then - w else w))%Z)).
  Proof.
    intros LX Hz Hw. destruct (meta_ex N junk s Hi z Hz) as (k & g & Em). pose proof (live_size x X LX) as SX.
    set (same := Nat.eqb z x). set (D := dest z x X).
    destruct (add1_signed_spec (Flex 0) same D X w yN (proj1 (dest_ok z x X LX)) (l_valid _ _ _ LX) ltac:(rewrite <- B_eq; exact Hw) ltac:(intros; exact I) ltac:(intros Q; apply dest_same; exact Q)) as [V E].
    replace (value X + (if yN then - w else w))%Z with (value (add1_signed (Flex 0) same D X w yN)) by (rewrite E; destruct yN; reflexivity).
    apply done_goes; [exact Hi| |exact V]. clear V E. unfold add1_signed_h, add1_signed. rewrite (neg_live _ _ _ LX). cbn [bind].
    pose proof (dest_len z x X LX) as DL. fold D in DL.
    destruct (negb (xorb (neg X) yN)) eqn:Eg.
    - unfold uadd1, uadd1_h. cbn [can_resize]. rewrite (live_words _ _ _ LX). pose proof (add_word_len (mem X) w) as LW. destruct (add_word (mem X) w) as [r c] eqn:EW. cbn [fst] in LW.
      rewrite (size_live _ _ _ LX). cbn [bind]. pose proof (l_len _ _ _ LX) as LL.
      assert (Lr : length (r ++ [c]) = size X + 1) by (rewrite app_length; cbn; lia).
      rewrite store_eq by lia. rewrite Lr. rewrite (set_neg_trim _ (size D) (neg D) k g) by lia. apply done_neg; auto.
      apply into_trim; auto; [lia|apply rd1; exact LX|]. rewrite (ws1 x X LX). cbn [f1]. rewrite EW. reflexivity.
    - rewrite (size_live _ _ _ LX). cbn [bind].
      assert (EL : exists low, (if Nat.ltb 1 (size X) then Ok 0%Z else word_h s x 0) = Ok low /\ (Nat.ltb 1 (size X) = false -> low = word0 X)).
      { destruct (Nat.ltb 1 (size X)); [exists 0%Z; split; [reflexivity|discriminate]|exists (word0 X); split; [apply low_live; exact LX|reflexivity]]. }
      destruct EL as (low & E1 & E2). rewrite E1. cbn [bind].
      assert (EO : (Nat.ltb 1 (size X) || (low >=? w)%Z) = (Nat.ltb 1 (size X) || (word0 X >=? w)%Z)) by (destruct (Nat.ltb 1 (size X)); [reflexivity|rewrite E2; reflexivity]).
      rewrite EO. destruct (Nat.ltb 1 (size X) || (word0 X >=? w)%Z) eqn:EB.
      + unfold usub1. cbn [can_resize]. rewrite (live_words _ _ _ LX). pose proof (sub_word_len x X w LX Hw) as LW. rewrite store_eq by lia. rewrite LW.
        assert (Q : done N s z (usub1_h N junk s z x w) (trim (mk (fst (sub_word (mem X) w)) k g) (size X))).
        { unfold usub1_h. rewrite (size_live _ _ _ LX). cbn [bind]. apply into_trim; auto; [apply rd1; exact LX|]. rewrite (ws1 x X LX). reflexivity. }
        assert (EN : set_neg (trim (mk (fst (sub_word (mem X) w)) (size D) (neg D)) (size X)) (if same then neg (trim (mk (fst (sub_word (mem X) w)) (size D) (neg D)) (size X)) else neg X)
                   = set_neg (trim (mk (fst (sub_word (mem X) w)) k g) (size X)) (if same then neg (trim (mk (fst (sub_word (mem X) w)) k g) (size X)) else neg X)).
        { unfold D, dest, same. destruct (Nat.eqb_spec z x) as [->|Nx].
          - rewrite (l_meta _ _ _ LX) in Em. inversion Em; subst k g. reflexivity.
          - apply set_neg_trim. lia. }
        rewrite EN. destruct Q as (p & QE & Q1 & Q2 & Q3). rewrite QE. cbn [bind].
        rewrite (neg_after N junk s Hi z _ p x X Hz LX). cbn [bind].
        apply (done_neg N s z (Ok (mkh p (upd (meta s) z (size (trim (mk (fst (sub_word (mem X) w)) k g) (size X)), neg (trim (mk (fst (sub_word (mem X) w)) k g) (size X))))))); auto.
        exists p. auto.
      + apply orb_false_iff in EB as [EB1 _]. rewrite (E2 EB1). apply Nat.ltb_ge in EB1.
        replace (assign_word D ((w - word0 X) mod B)) with (mk [((w - word0 X) mod B)%Z] 1 false).
        2:{ unfold assign_word. rewrite skipn_all2 by lia. reflexivity. }
        apply done_neg; auto. apply assign_done; auto.
  Qed.

  Lemma mul_goes z x y X Y : live s x X -> live s y Y -> z < n -> goes N s (mul_h N junk s z x y) (upd (values s) z (Some (value X * value Y)%Z)).
  Proof.
    intros LX LY Hz. destruct (meta_ex N junk s Hi z Hz) as (k & g & Em). pose proof (live_size x X LX) as SX. pose proof (live_size y Y LY) as SY.
    set (sX := Nat.eqb z x). set (sY := Nat.eqb z y).
    set (D := if sX then X else if sY then Y else Z0).
    assert (XY : sX = true -> sY = true -> X = Y).
    { unfold sX, sY. intros H1 H2. apply Nat.eqb_eq in H1, H2. subst y. subst z. pose proof (l_meta _ _ _ LX) as M1. pose proof (l_meta _ _ _ LY) as M2. rewrite M1 in M2. inversion M2.
      pose proof (l_words _ _ _ LX) as W1. pose proof (l_words _ _ _ LY) as W2. destruct X as [mx kx gx], Y as [my ky gy]. cbn in *. subst ky gy. congruence. }
    assert (DV : valid (Flex 0) D) by (unfold D; destruct sX; [apply (l_valid _ _ _ LX)|destruct sY; [apply (l_valid _ _ _ LY)|apply Z0_ok]]).
    assert (DL : length (mem D) <= size X + size Y) by (unfold D; pose proof (l_len _ _ _ LX); pose proof (l_len _ _ _ LY); destruct sX; [lia|destruct sY; [lia|cbn; lia]]).
    destruct (mul_claim (Flex 0) sX sY D X Y DV (l_valid _ _ _ LX) (l_valid _ _ _ LY) I) as (R & ER & VR & E).
    { unfold D. intros ->. reflexivity. } { unfold D. intros HY. rewrite HY. destruct sX eqn:HX; [apply XY; auto|reflexivity]. }
    rewrite <- E. apply done_goes; [exact Hi| |exact VR]. clear E VR.
    destruct (mul_nm_spec (mem X) (mem Y) (live_all _ _ _ LX) (live_all _ _ _ LY) (live_nonempty _ _ _ LX) (live_nonempty _ _ _ LY)) as (_ & LM & _).
    rewrite (l_len _ _ _ LX), (l_len _ _ _ LY) in LM.
    unfold mul in ER. cbn [can_resize] in ER. rewrite (live_words _ _ _ LX), (live_words _ _ _ LY), store_eq, LM in ER by lia.
    injection ER as <-.
    assert (TE : sX = true \/ sY = true -> trim (mk (mul_nm (mem X) (mem Y)) (size D) (neg D)) (size X + size Y) = trim (mk (mul_nm (mem X) (mem Y)) k g) (size X + size Y)).
    { intros H. replace (neg D) with g; [apply trim_size; lia|]. unfold D, sX, sY in *. destruct (Nat.eqb_spec z x) as [->|Nx].
      - rewrite (l_meta _ _ _ LX) in Em. congruence.
      - destruct (Nat.eqb_spec z y) as [->|Ny]; [rewrite (l_meta _ _ _ LY) in Em; congruence|]. destruct H; discriminate. }
    set (T := trim (mk (mul_nm (mem X) (mem Y)) k g) (size X + size Y)) in *.
    assert (RE : set_neg (trim (mk (mul_nm (mem X) (mem Y)) (size D) (neg D)) (size X + size Y))
        (xorb (if sX then neg (trim (mk (mul_nm (mem X) (mem Y)) (size D) (neg D)) (size X + size Y)) else neg X)
              (if sY then neg (trim (mk (mul_nm (mem X) (mem Y)) (size D) (neg D)) (size X + size Y)) else neg Y))
        = set_neg T (xorb (if sX then neg T else neg X) (if sY then neg T else neg Y))).
    { destruct sX eqn:HX; [rewrite TE by auto; reflexivity|]. destruct sY eqn:HY; [rewrite TE by auto; reflexivity|]. apply set_neg_trim. lia. }
    rewrite RE. assert (Q : done N s z (let* s := into N junk s z (size X + size Y) [(x, size X); (y, size Y)] (f2 (fun a b => Ok (mul_nm a b))) in trim_h s z (size X + size Y)) T).
    { apply into_trim; auto; [lia|apply rd2; assumption|]. rewrite (ws2 s x y X Y LX LY). reflexivity. }
    unfold mul_h. rewrite (size_live _ _ _ LX), (size_live _ _ _ LY). cbn [bind].
    destruct Q as (p & QE & Q1 & Q2 & Q3). destruct (into _ _ _ _ _ _ _) as [s1| | |]; try discriminate QE. cbn [bind] in *. rewrite QE. cbn [bind].
    rewrite (neg_after N junk s Hi z T p x X Hz LX). cbn [bind]. rewrite (neg_after N junk s Hi z T p y Y Hz LY). cbn [bind].
    apply (done_neg N s z (Ok (mkh p (upd (meta s) z (size T, neg T)))) T); auto. exists p. auto.
  Qed.

  (** the pattern: word loop, copy the sign, trim *)
  Lemma signed_done z x X m f r : live s x X -> z < n -> 1 <= m -> f (mem X) = Ok r -> length r = m ->
    done N s z (let* s := into N junk s z m [(x, size X)] (f1 f) in let* g := neg_h s x in let* s := set_neg_h s z g in trim_h s z m)
      (trim (mk r 1 (neg X)) m).
  Proof.
    intros LX Hz Hm Ef Lr. destruct (meta_ex N junk s Hi z Hz) as (k & g & Em).
    assert (Q : done N s z (into N junk s z m [(x, size X)] (f1 f)) (mk r k g)).
    { apply into_done; auto; [apply rd1; exact LX|]. rewrite (ws1 x X LX). exact Ef. }
    destruct Q as (p & QE & Q1 & Q2 & Q3). rewrite QE. cbn [bind]. rewrite (neg_after N junk s Hi z (mk r k g) p x X Hz LX). cbn [bind].
    replace (if Nat.eqb z x then neg (mk r k g) else neg X) with (neg X).
    2:{ destruct (Nat.eqb_spec z x) as [->|Nx]; [|reflexivity]. rewrite (l_meta _ _ _ LX) in Em. cbn. congruence. }
    pose proof (done_neg N s z (Ok (mkh p (upd (meta s) z (size (mk r k g), neg (mk r k g))))) (mk r k g) (neg X) Hi Hz) as DN. cbn [bind] in DN.
    rewrite (trim_size r 1 (neg X) k) by exact Hm.
    apply (done_trim N junk s Hi z (set_neg_h _ z (neg X)) (mk r k (neg X)) m Hz); [|cbn; lia]. apply DN. exists p. auto.
  Qed.

  Lemma mulu1_goes z x X w : live s x X -> z < n -> (0 <= w < 2 ^ 32)%Z -> goes N s (mulu1_h N junk s z x w) (upd (values s) z (Some (value X * w)%Z)).
  Proof.
    intros LX Hz Hw. pose proof (live_size x X LX) as SX.
    destruct (mulu1_claim (Flex 0) Z0 X w Z0_ok (l_valid _ _ _ LX) Hw I) as [V E]. rewrite <- E. apply done_goes; [exact Hi| |exact V]. clear V E.
    unfold mulu1. cbn [can_resize]. rewrite (live_words _ _ _ LX). pose proof (mul_word_n_spec (mem X) w (live_all _ _ _ LX) ltac:(rewrite <- B_eq; exact Hw)) as Q.
    destruct (mul_word_n (mem X) w) as [r h] eqn:EW. destruct Q as (_ & Lr & _). rewrite (l_len _ _ _ LX) in Lr.
    assert (LL : length (r ++ [h]) = size X + 1) by (rewrite app_length; cbn; lia). rewrite LL. rewrite put_eq by (cbn; lia). unfold set_neg. cbn [mem size].
    unfold mulu1_h. rewrite (size_live _ _ _ LX). cbn [bind]. cbn [Z0 size]. apply signed_done; auto; [lia|]. rewrite EW. reflexivity.
  Qed.
  Lemma shl_goes z x X k : live s x X -> z < n -> (0 <= k)%Z -> goes N s (shl_h N junk s z x k) (upd (values s) z (Some (value X * 2 ^ k)%Z)).
  Proof.
    intros LX Hz Hk. pose proof (live_size x X LX) as SX.
    destruct (shl_claim (Flex 0) Z0 X k Z0_ok (l_valid _ _ _ LX) Hk I) as (R & ER & V & E). rewrite <- E. apply done_goes; [exact Hi| |exact V]. clear V E.
    unfold shl in ER. cbn [can_resize] in ER. rewrite (live_words _ _ _ LX) in ER.
    destruct (shift_left_spec (mem X) k (live_all _ _ _ LX) (live_nonempty _ _ _ LX) Hk) as (_ & LL & _). rewrite (l_len _ _ _ LX) in LL.
    rewrite put_eq in ER by (cbn; lia). injection ER as <-. unfold set_neg. cbn [mem size Z0].
    unfold shl_h. rewrite (size_live _ _ _ LX). cbn [bind]. apply signed_done; auto. lia.
  Qed.
  Lemma clear_goes z : z < n -> goes N s (clear_h N junk s z) (upd (values s) z (Some 0%Z)).
  Proof. intros Hz. apply word_goes; auto. lia. Qed.
  Lemma shr_goes z x X k : live s x X -> z < n -> (0 <= k)%Z -> goes N s (shr_h N junk s z x k) (upd (values s) z (Some (Z.quot (value X) (2 ^ k))%Z)).
  Proof.
    intros LX Hz Hk. pose proof (live_size x X LX) as SX.
    destruct (shr_claim (Flex 0) Z0 X k Z0_ok (l_valid _ _ _ LX) Hk) as (V & E). rewrite <- E.
    unfold shr_h, shr in *. rewrite (size_live _ _ _ LX). cbn [bind]. destruct (Z.leb_spec (32 * Z.of_nat (size X)) k) as [Q|Q].
    - apply (clear_goes z Hz).
    - apply done_goes; [exact Hi| |exact V]. rewrite (live_words _ _ _ LX).
      destruct (shift_right_spec (mem X) k (live_all _ _ _ LX)) as (_ & LL & _); [rewrite (l_len _ _ _ LX); lia|]. rewrite (l_len _ _ _ LX) in LL. rewrite LL.
      assert (1 <= size X - Z.to_nat (k / 32)).
      { assert (k / 32 < Z.of_nat (size X))%Z by (apply Z.div_lt_upper_bound; lia). pose proof (Z.div_pos k 32 Hk ltac:(lia)). lia. }
      rewrite put_eq by (cbn; lia). unfold set_neg. cbn [mem size Z0]. apply signed_done; auto.
  Qed.

  Lemma divs1_goes z x X k : live s x X -> z < n -> (- 2 ^ 31 <= k < 2 ^ 31)%Z -> k <> 0%Z -> goes N s (divs1_h N junk s z x k) (upd (values s) z (Some (Z.quot (value X) k)%Z)).
  Proof.
    intros LX Hz Hk K0. pose proof (live_size x X LX) as SX. destruct (meta_ex N junk s Hi z Hz) as (k0 & g & Em).
    assert (AK : (0 < cabs32 k < B)%Z) by (rewrite <- B_eq, cabs32_spec; lia).
    destruct (div_word_spec (mem X) (cabs32 k) (live_all _ _ _ LX) AK) as (ws & r & ED & _ & LW & _). rewrite (l_len _ _ _ LX) in LW.
    assert (CL : exists R, divs1 (Flex 0) Z0 X k = Ok R /\ valid (Flex 0) R /\ value R = Z.quot (value X) k) by (apply divs1_spec; [apply Z0_st|apply (l_valid _ _ _ LX)|unfold int32; lia|exact K0]).
    destruct CL as (R & ER & V & E). rewrite <- E. apply done_goes; [exact Hi| |exact V]. clear V E.
    unfold divs1, div_mods1_q in ER. cbn [can_resize] in ER. rewrite (live_words _ _ _ LX), ED in ER. cbn [bind fst] in ER. rewrite LW, put_eq in ER by (cbn; lia). injection ER as <-.
    unfold set_neg. cbn [mem size Z0]. unfold divs1_h. rewrite (neg_live _ _ _ LX). cbn [bind]. rewrite (size_live _ _ _ LX). cbn [bind].
    rewrite (set_neg_ok s z k0 g _ Em). cbn [bind].
    set (g' := xorb (neg X) (k <? 0)%Z). set (s1 := mkh (bufs s) (upd (meta s) z (k0, g'))).
    (* the flag is set first: the same buffers *)
    pose proof (into_gen N junk s1 z (size X) [(x, size X)] (f1 (fun a => let* r := div_word a (cabs32 k) in Ok (fst r))) (proj1 Hi) Hz SX (rd1 x X LX)) as IG.
    change (bufs s1) with (bufs s) in IG. rewrite (ws1 x X LX) in IG. cbn [f1] in IG. rewrite ED in IG. cbn [bind fst] in IG. destruct (IG LW) as (p & E1 & P1 & P2 & P3).
    rewrite (trim_size ws 1 g' k0) by lia.
    apply (done_trim N junk s Hi z (into N junk s1 z (size X) _ _) (mk ws k0 g') (size X) Hz); [|cbn; lia].
    exists p. rewrite E1. auto.
  Qed.
End Rest.
