From Coq Require Import List ZArith Bool Lia.
From Verif Require Import Outcome LoopModel LoopProofs WordsModel WordsSpec WordsProofs DivProofs RawModel RawSpec RawProofs RawLoops RawAlloc RawMul RawAdd RawDiv RawFull RawDivMain RawDivAll.
Import ListNotations.
Open Scope nat_scope.

Lemma cap_Bn n : cap n = Bn n.
Proof. unfold cap. now rewrite Bn_pow2. Qed.
Lemma writes_holds m p n ws m' v : writes m p ws m' -> length ws = n -> all_words ws -> eval ws = v -> holds m' p n v /\ only m m' [(p, n)].
Proof. intros W L A E. split; [exists ws; repeat split; try assumption; apply (writes_reads _ _ _ _ W)|rewrite <- L; apply (writes_only _ _ _ _ W)]. Qed.
Lemma word_B w : (0 <= w < 2 ^ 32)%Z -> (0 <= w < B)%Z.
Proof. now rewrite B_eq. Qed.
Lemma quo_rem a b q r : (0 <= r < b)%Z -> (r + b * q = a)%Z -> r = (a mod b)%Z /\ q = (a / b)%Z.
Proof. intros R E. split; [apply (Z.mod_unique a b q r); lia|apply (Z.div_unique a b q r); lia]. Qed.

Lemma compare_claim m x y n X Y : holds m x n X -> holds m y n Y ->
  cmp_ge_r m x y n = Ok (Y <=? X)%Z /\ cmp_r m x y n = Ok (Z.sgn (X - Y)).
Proof.
  intros (xs & Lx & Wx & Rx & Ex) (ys & Ly & Wy & Ry & Ey). split.
  - rewrite (cmp_ge_ok m x y n xs ys Lx Ly Rx Ry), (cmp_ge_n_spec xs ys Wx Wy ltac:(lia)), Ex, Ey. f_equal. lia.
  - rewrite (cmp_ok m x y n xs ys Lx Ly Rx Ry), (cmp_n_spec xs ys Wx Wy ltac:(lia)), Ex, Ey. f_equal. destruct (Z.compare_spec X Y) as [E|E|E]; subst; lia.
Qed.
Lemma real_size_claim m x n X : 0 < n -> holds m x n X ->
  exists k, real_size_r m x n = Ok k /\ 1 <= k <= n /\ holds m x k X /\ (1 < k -> (cap (k - 1) <= X)%Z).
Proof.
  intros Hn (xs & Lx & Wx & Rx & Ex). assert (Nx : xs <> []) by (intros ->; cbn in Lx; lia). destruct (get_real_size_spec xs Nx) as (Hr & Es & Ht & Ev).
  exists (get_real_size xs). split; [apply (real_size_ok m x n xs Lx Rx)|]. split; [lia|]. set (k := get_real_size xs) in *.
  assert (Lf : length (firstn k xs) = k) by (apply firstn_length_le; lia).
  split; [exists (firstn k xs); repeat split; [assumption|now apply words_firstn|now apply reads_firstn|congruence]|].
  intros Hk. rewrite cap_Bn. assert (Nf : firstn k xs <> []) by (intros E; rewrite E in Lf; cbn in Lf; lia).
  destruct (last_bounds (firstn k xs) (words_firstn _ _ Wx) Nf) as (R0 & R1). rewrite Lf in R1.
  assert (El : last (firstn k xs) 0%Z = nth (k - 1) xs 0%Z).
  { destruct (exists_snoc _ Nf) as (l & a & E). rewrite E, last_snoc. rewrite <- (firstn_skipn k xs), E, app_nth1, app_nth2; rewrite ?app_length; cbn [length].
    - rewrite E, app_length in Lf. cbn [length] in Lf. replace (k - 1 - length l) with 0 by lia. reflexivity.
    - rewrite E, app_length in Lf. cbn [length] in Lf. lia.
    - rewrite E, app_length in Lf. cbn [length] in Lf. lia. }
  pose proof (Ht Hk) as H0. rewrite <- El in H0. pose proof (Bn_pos (k - 1)). nia.
Qed.

Lemma add_claim m z x y n X Y : holds m x n X -> holds m y n Y -> room m z n -> upward z x n -> upward z y n ->
  exists m', add_n_r m z x y n = Ok ((X + Y) / cap n, m')%Z /\ holds m' z n ((X + Y) mod cap n) /\ only m m' [(z, n)].
Proof.
  intros (xs & Lx & Wx & Rx & Ex) (ys & Ly & Wy & Ry & Ey) Rz Ux Uy. destruct (add_n_ok m z x y n xs ys Lx Ly Rx Ry Rz Ux Uy) as (m' & E & W).
  pose proof (add_n_spec xs ys Wx Wy ltac:(lia)) as S. destruct (add_n xs ys) as [zs c]. destruct S as (Wz & Lz & Hc & Ez). cbn [fst snd] in *.
  pose proof (eval_range zs Wz) as Rg. rewrite Lz, Lx in Rg. rewrite Lx in *. destruct (quo_rem (X + Y) (Bn n) c (eval zs) Rg ltac:(lia)) as [E1 E2].
  rewrite cap_Bn, <- E1, <- E2. exists m'. split; [assumption|]. now apply (writes_holds m z n zs m').
Qed.
Lemma sub_claim m z x y n X Y : holds m x n X -> holds m y n Y -> room m z n -> upward z x n -> upward z y n ->
  exists m', sub_n_r m z x y n = Ok (if X <? Y then 1 else 0, m')%Z /\ holds m' z n ((X - Y) mod cap n) /\ only m m' [(z, n)].
Proof.
  intros (xs & Lx & Wx & Rx & Ex) (ys & Ly & Wy & Ry & Ey) Rz Ux Uy. destruct (sub_n_ok m z x y n xs ys Lx Ly Rx Ry Rz Ux Uy) as (m' & E & W).
  pose proof (sub_n_spec xs ys Wx Wy ltac:(lia)) as S. destruct (sub_n xs ys) as [zs c]. destruct S as (Wz & Lz & Hc & Ez). cbn [fst snd] in *.
  pose proof (eval_range zs Wz) as Rg. pose proof (eval_range xs Wx) as Gx. pose proof (eval_range ys Wy) as Gy. rewrite Lz, Lx in Rg. rewrite Lx in *. rewrite Ly in *.
  destruct (quo_rem (X - Y) (Bn n) (- c) (eval zs) Rg ltac:(lia)) as [E1 _].
  assert (Ec : c = (if X <? Y then 1 else 0)%Z) by (destruct (Z.ltb_spec X Y); assert (c = 0 \/ c = 1)%Z as [->| ->] by lia; lia).
  rewrite cap_Bn, <- E1, <- Ec. exists m'. split; [assumption|]. now apply (writes_holds m z n zs m').
Qed.
Lemma mul_word_claim m z x n X w : holds m x n X -> (0 <= w < 2 ^ 32)%Z -> room m z n -> upward z x n ->
  exists m', mul_word_n_r m z x w n = Ok ((X * w) / cap n, m')%Z /\ holds m' z n ((X * w) mod cap n) /\ only m m' [(z, n)].
Proof.
  intros (xs & Lx & Wx & Rx & Ex) Hw Rz Ux. apply word_B in Hw. destruct (mul_word_n_ok m z x w n xs Lx Rx Rz Ux) as (m' & E & W).
  pose proof (mul_word_n_spec xs w Wx Hw) as S. destruct (mul_word_n xs w) as [zs c]. destruct S as (Wz & Lz & Hc & Ez). cbn [fst snd] in *.
  pose proof (eval_range zs Wz) as Rg. rewrite Lz, Lx in Rg. rewrite Lx, Ex in *. destruct (quo_rem (X * w) (Bn n) c (eval zs) Rg ltac:(lia)) as [E1 E2].
  rewrite cap_Bn, <- E1, <- E2. exists m'. split; [assumption|]. now apply (writes_holds m z n zs m').
Qed.
Lemma mul_word_add_claim m z x n X Z0 w : holds m x n X -> holds m z n Z0 -> (0 <= w < 2 ^ 32)%Z -> upward z x n ->
  exists m', mul_word_add_n_r m z x w n = Ok ((Z0 + X * w) / cap n, m')%Z /\ holds m' z n ((Z0 + X * w) mod cap n) /\ only m m' [(z, n)].
Proof.
  intros (xs & Lx & Wx & Rx & Ex) (zs0 & Lz0 & Wz0 & Rz0 & Ez0) Hw Ux. apply word_B in Hw. destruct (mul_word_add_n_ok m z x w n xs zs0 Lx Lz0 Rx Rz0 Ux) as (m' & E & W).
  pose proof (mul_word_add_n_spec zs0 xs w Wz0 Wx ltac:(lia) Hw) as S. destruct (mul_word_add_n zs0 xs w) as [zs c]. destruct S as (Wz & Lz & Hc & Ez). cbn [fst snd] in *.
  pose proof (eval_range zs Wz) as Rg. rewrite Lz, Lx in Rg. rewrite Lx, Ex, Ez0 in *. destruct (quo_rem (Z0 + X * w) (Bn n) c (eval zs) Rg ltac:(lia)) as [E1 E2].
  rewrite cap_Bn, <- E1, <- E2. exists m'. split; [assumption|]. now apply (writes_holds m z n zs m').
Qed.
Lemma copy_claim m y x n X : holds m x n X -> room m y n -> upward y x n ->
  exists m', copy_n_r m y x n = Ok m' /\ holds m' y n X /\ only m m' [(y, n)].
Proof.
  intros (xs & Lx & Wx & Rx & Ex) Ry U. destruct (copy_n_ok m y x n xs Lx Rx Ry U) as (m' & E & W). exists m'. split; [assumption|]. now apply (writes_holds m y n xs m').
Qed.
Lemma clear_claim m x n : room m x n -> exists m', clear_n_r m x n = Ok m' /\ holds m' x n 0%Z /\ only m m' [(x, n)].
Proof.
  intros R. destruct (clear_n_ok m x n R) as (m' & E & W). exists m'. split; [assumption|]. apply (writes_holds m x n (repeat 0%Z n) m' 0 W); [apply repeat_length|apply words_repeat0|apply eval_repeat0].
Qed.

Lemma shl_claim m z x n X bit : 0 < n -> holds m x n X -> (0 < bit < 32)%Z -> room m z n -> downward z x n ->
  exists m', shl_n_r m z x bit n = Ok ((X * 2 ^ bit) / cap n, m')%Z /\ holds m' z n ((X * 2 ^ bit) mod cap n) /\ only m m' [(z, n)].
Proof.
  intros Hn (xs & Lx & Wx & Rx & Ex) Hb Rz D. destruct n as [|n]; [lia|]. destruct (shl_n_ok m z x bit n xs Hb Lx Rx Rz D) as (m' & E & W).
  assert (Nx : xs <> []) by (intros ->; discriminate). pose proof (shl_n_spec xs bit Wx Nx Hb) as S. destruct (shl_n xs bit) as [zs c]. destruct S as (Wz & Lz & Hc & Ez). cbn [fst snd] in *.
  pose proof (eval_range zs Wz) as Rg. rewrite Lz, Lx in Rg. rewrite Lx, Ex in *. destruct (quo_rem (X * 2 ^ bit) (Bn (S n)) c (eval zs) Rg ltac:(lia)) as [E1 E2].
  rewrite cap_Bn, <- E1, <- E2. exists m'. split; [assumption|]. now apply (writes_holds m z (S n) zs m').
Qed.
Lemma shr_claim m z x n X bit : 0 < n -> holds m x n X -> (0 < bit < 32)%Z -> room m z n -> upward z x n ->
  exists m', shr_n_r m z x bit n = Ok m' /\ holds m' z n (X / 2 ^ bit) /\ only m m' [(z, n)].
Proof.
  intros Hn (xs & Lx & Wx & Rx & Ex) Hb Rz D. destruct n as [|n]; [lia|]. destruct (shr_n_ok m z x bit n xs Hb Lx Rx Rz D) as (m' & E & W).
  assert (Nx : xs <> []) by (intros ->; discriminate). destruct (shr_n_spec xs bit Wx Nx Hb) as (Wz & Lz & Ez).
  exists m'. split; [assumption|]. apply (writes_holds m z (S n) (shr_n xs bit) m' _ W); [congruence|assumption|congruence].
Qed.
Lemma shift_left_claim m y x n X bit : 0 < n -> holds m x n X -> (0 <= bit)%Z -> room m y (n + Z.to_nat ((bit + 31) / 32)) -> downward (at_ y (Z.to_nat (bit / 32))) x n ->
  let k := n + Z.to_nat ((bit + 31) / 32) in
  exists m', shift_left_r m y x bit n = Ok (k, m') /\ holds m' y k (X * 2 ^ bit)%Z /\ only m m' [(y, k)].
Proof.
  intros Hn (xs & Lx & Wx & Rx & Ex) Hb Ry D k. destruct n as [|n]; [lia|]. assert (Nx : xs <> []) by (intros ->; discriminate).
  destruct (shift_left_spec xs bit Wx Nx Hb) as (Wz & Lz & Ez). rewrite Lx in Lz. fold k in Lz, Ry.
  destruct (shift_left_ok m y x bit n xs Hb Lx Rx) as (m' & E & W); [now rewrite Lz|assumption|]. rewrite Lz in E.
  exists m'. split; [assumption|]. apply (writes_holds m y k _ m' _ W); [assumption|assumption|congruence].
Qed.
Lemma shift_right_claim m y x n X bit : 0 < n -> holds m x n X -> (0 <= bit < 32 * Z.of_nat n)%Z -> room m y (n - Z.to_nat (bit / 32)) -> upward y (at_ x (Z.to_nat (bit / 32))) (n - Z.to_nat (bit / 32)) ->
  let k := n - Z.to_nat (bit / 32) in
  exists m', shift_right_r m y x bit n = Ok (k, m') /\ holds m' y k (X / 2 ^ bit)%Z /\ only m m' [(y, k)].
Proof.
  intros Hn (xs & Lx & Wx & Rx & Ex) Hb Ry D k. destruct n as [|n]; [lia|].
  destruct (shift_right_spec xs bit Wx) as (Wz & Lz & Ez); [rewrite Lx; lia|]. rewrite Lx in Lz. fold k in Lz.
  destruct (shift_right_ok m y x bit n xs ltac:(lia) Lx Rx Ry D) as (m' & E & W).
  exists m'. split; [assumption|]. apply (writes_holds m y k _ m' _ W); [assumption|assumption|congruence].
Qed.

Lemma add_word_claim m y n Y w : 0 < n -> holds m y n Y -> (0 <= w < 2 ^ 32)%Z ->
  exists m', add_word_r m y n w = Ok ((Y + w) / cap n, m')%Z /\ holds m' y n ((Y + w) mod cap n) /\ only m m' [(y, n)].
Proof.
  intros Hn (ys & Ly & Wy & Ry & Ey) Hw. apply word_B in Hw. assert (Ny : ys <> []) by (intros ->; cbn in Ly; lia). destruct (add_word_ok m y n w ys Ly Ry) as (m' & E & W).
  pose proof (add_word_spec ys w Wy Hw Ny) as S. destruct (add_word ys w) as [zs c]. destruct S as (Wz & Lz & Hc & Ez). cbn [fst snd] in *.
  pose proof (eval_range zs Wz) as Rg. rewrite Lz, Ly in Rg. rewrite Ly, Ey in *. destruct (quo_rem (Y + w) (Bn n) c (eval zs) Rg ltac:(lia)) as [E1 E2].
  rewrite cap_Bn, <- E1, <- E2. exists m'. split; [assumption|]. now apply (writes_holds m y n zs m').
Qed.
Lemma sub_word_claim m y n Y w : 0 < n -> holds m y n Y -> (0 <= w < 2 ^ 32)%Z ->
  exists m', sub_word_r m y n w = Ok (if Y <? w then 1 else 0, m')%Z /\ holds m' y n ((Y - w) mod cap n) /\ only m m' [(y, n)].
Proof.
  intros Hn (ys & Ly & Wy & Ry & Ey) Hw. apply word_B in Hw. assert (Ny : ys <> []) by (intros ->; cbn in Ly; lia). destruct (sub_word_ok m y n w ys Ly Ry) as (m' & E & W).
  pose proof (sub_word_spec ys w Wy Hw Ny) as S. destruct (sub_word ys w) as [zs c]. destruct S as (Wz & Lz & Hc & Ez). cbn [fst snd] in *.
  pose proof (eval_range zs Wz) as Rg. pose proof (eval_range ys Wy) as Gy. rewrite Lz, Ly in Rg. rewrite Ly, Ey in *. destruct (quo_rem (Y - w) (Bn n) (- c) (eval zs) Rg ltac:(lia)) as [E1 _].
  assert (HB : (B <= Bn n)%Z) by (rewrite <- Bn_1; apply Bn_mono; lia).
  assert (Ec : c = (if Y <? w then 1 else 0)%Z) by (destruct (Z.ltb_spec Y w); assert (c = 0 \/ c = 1)%Z as [->| ->] by lia; lia).
  rewrite cap_Bn, <- E1, <- Ec. exists m'. split; [assumption|]. now apply (writes_holds m y n zs m').
Qed.

Lemma div_word_claim m q x n X w : holds m x n X -> (0 < w < 2 ^ 32)%Z -> room m q n -> downward q x n ->
  exists m', div_word_r m q x n w = Ok (X mod w, m')%Z /\ holds m' q n (X / w) /\ only m m' [(q, n)].
Proof.
  intros (xs & Lx & Wx & Rx & Ex) Hw Rq D. assert (Hw' : (0 < w < B)%Z) by (rewrite <- B_eq; lia). unfold div_word_r. replace (w =? 0)%Z with false by lia. cbn [negb check bind].
  destruct (div_word_loop_ok n q x w 0%Z m xs Lx Rx Rq D ltac:(lia) ltac:(lia)) as (m' & E & W).
  destruct (div_word_spec xs w Wx Hw') as (qs & r & Ed & Wq & Lq & Hr & Ee). unfold div_word in Ed. replace (w =? 0)%Z with false in Ed by lia. cbn [negb check bind] in Ed.
  destruct (div_word_loop 0 (rev xs) w) as [qr rr]. cbn [fst snd] in *. injection Ed as <- <-.
  destruct (quo_rem X w (eval (rev qr)) rr Hr ltac:(lia)) as [E1 E2]. rewrite <- E1, <- E2. exists m'. split; [assumption|].
  apply (writes_holds m q n _ m' _ W); [congruence|assumption|reflexivity].
Qed.
Lemma mod_word_claim m x n X w : holds m x n X -> (0 < w < 2 ^ 32)%Z -> mod_word_r m x n w = Ok (X mod w)%Z.
Proof.
  intros (xs & Lx & Wx & Rx & Ex) Hw. assert (Hw' : (0 < w < B)%Z) by (rewrite <- B_eq; lia). unfold mod_word_r. replace (w =? 0)%Z with false by lia. cbn [negb check bind].
  rewrite (mod_word_loop_ok n m x w 0%Z xs Lx Rx ltac:(lia) ltac:(lia)).
  pose proof (mod_word_spec xs w Wx Hw') as S. unfold mod_word in S. rewrite Ex in S. rewrite <- S.
  destruct (div_word_spec xs w Wx Hw') as (qs & r & Ed & Wq & Lq & Hr & Ee). unfold div_word in Ed. replace (w =? 0)%Z with false in * by lia. cbn [negb check bind] in *.
  destruct (div_word_loop 0 (rev xs) w). reflexivity.
Qed.

Lemma mul_claim junk m z x y xn yn X Y : 0 < xn -> 0 < yn -> holds m x xn X -> holds m y yn Y -> room m z (xn + yn) ->
  same_or_apart z (xn + yn) x xn -> same_or_apart z (xn + yn) y yn ->
  exists m', mul_nm_r junk m z x xn y yn = Ok (true, m') /\ holds m' z (xn + yn) (X * Y) /\ only m m' [(z, xn + yn)].
Proof.
  intros Hx Hy (xs & Lx & Wx & Rx & Ex) (ys & Ly & Wy & Ry & Ey) Rz Sx Sy. subst xn yn.
  assert (Nx : xs <> []) by (intros ->; cbn in Hx; lia). assert (Ny : ys <> []) by (intros ->; cbn in Hy; lia).
  destruct (mul_nm_ok junk m z x y xs ys Nx Ny Rx Ry Rz Sx Sy) as (m' & E & W). destruct (mul_nm_spec xs ys Wx Wy Nx Ny) as (Wz & Lz & Ez).
  exists m'. split; [assumption|]. apply (writes_holds m z _ _ m' _ W); [assumption|assumption|congruence].
Qed.

Lemma top_of ys n Y : length ys = n -> 0 < n -> all_words ys -> eval ys = Y -> (cap (n - 1) <= Y)%Z -> last ys 0%Z <> 0%Z.
Proof.
  intros L Hn W E H C. assert (Ny : ys <> []) by (intros ->; cbn in L; lia). destruct (last_bounds ys W Ny) as (_ & R). rewrite C, L, E, <- cap_Bn in R. lia.
Qed.
Lemma nonempty (ws : list Z) n : length ws = n -> 0 < n -> ws <> [].
Proof. intros L H ->. cbn in L. lia. Qed.
Lemma divq_claim junk m q qn x xn y yn X Y : 0 < xn -> 0 < yn -> holds m x xn X -> holds m y yn Y -> (0 < Y)%Z -> (cap (yn - 1) <= Y)%Z ->
  room m q qn -> 1 <= qn -> xn - yn + 1 <= qn -> apart x xn y yn -> apart q qn x xn -> apart q qn y yn ->
  exists n m', div_r junk m (Some q) qn x xn y yn = Ok (n, m') /\ 1 <= n <= yn /\ holds m' q qn (X / Y) /\ holds m' x n (X mod Y) /\ only m m' [(q, qn); (x, xn)].
Proof.
  intros Hx Hy (xs & Lx & Wx & Rx & Ex) (ys & Ly & Wy & Ry & Ey) HY Ht Rq Hq Hqn Axy Aqx Aqy. pose proof (top_of ys yn Y Ly Hy Wy Ey Ht) as Hl.
  pose proof (nonempty xs xn Lx Hx) as Nx. pose proof (nonempty ys yn Ly Hy) as Ny. subst xn yn.
  destruct (div_r_ok junk m (Some q) qn x y xs ys Rx Ry Rq Hq Hqn Nx Ny Wx Wy Hl Axy Aqx Aqy) as (n & m' & E & qw & rw & Ln & H1 & Hn & Lq & Wq & Rq' & Wr & Rr & Ee & Hr & O).
  rewrite Ex, Ey in *. destruct (quo_rem X Y (eval qw) (eval rw) Hr ltac:(lia)) as [E1 E2].
  exists n, m'. split; [assumption|]. split; [lia|]. split; [exists qw; auto|]. split; [exists rw; auto|exact O].
Qed.
Lemma divr_claim junk m qn x xn y yn X Y : 0 < xn -> 0 < yn -> holds m x xn X -> holds m y yn Y -> (0 < Y)%Z -> (cap (yn - 1) <= Y)%Z ->
  1 <= qn -> xn - yn + 1 <= qn -> apart x xn y yn ->
  exists n m', div_r junk m None qn x xn y yn = Ok (n, m') /\ 1 <= n <= yn /\ holds m' x n (X mod Y) /\ only m m' [(x, xn)].
Proof.
  intros Hx Hy (xs & Lx & Wx & Rx & Ex) (ys & Ly & Wy & Ry & Ey) HY Ht Hq Hqn Axy. pose proof (top_of ys yn Y Ly Hy Wy Ey Ht) as Hl.
  pose proof (nonempty xs xn Lx Hx) as Nx. pose proof (nonempty ys yn Ly Hy) as Ny. subst xn yn.
  destruct (div_r_ok junk m None qn x y xs ys Rx Ry I Hq Hqn Nx Ny Wx Wy Hl Axy I I) as (n & m' & E & qw & rw & Ln & H1 & Hn & Lq & Wq & Rq' & Wr & Rr & Ee & Hr & O).
  rewrite Ex, Ey in *. destruct (quo_rem X Y (eval qw) (eval rw) Hr ltac:(lia)) as [E1 E2].
  exists n, m'. split; [assumption|]. split; [lia|]. split; [exists rw; auto|exact O].
Qed.

Lemma uadd_claim m z x y xn yn X Y : yn <= xn -> 0 < yn -> holds m x xn X -> holds m y yn Y -> room m z (S xn) ->
  same_or_apart z (S xn) x xn -> same_or_apart z (S xn) y yn ->
  exists m', uadd_r m z x xn y yn = Ok m' /\ holds m' z (S xn) (X + Y) /\ only m m' [(z, S xn)].
Proof.
  intros L Hy (xs & Lx & Wx & Rx & Ex) (ys & Ly & Wy & Ry & Ey) Rz Sx Sy. subst xn yn. destruct (uadd_ok m z x y xs ys L Rx Ry Rz Sx Sy) as (m' & E & W).
  exists m'. split; [assumption|]. set (k := length ys) in *. assert (Lf : length (firstn k xs) = k) by (apply firstn_length_le; lia).
  unfold uadd_words in W. fold k in W. pose proof (add_n_spec (firstn k xs) ys (words_firstn _ _ Wx) Wy ltac:(lia)) as S1. destruct (add_n (firstn k xs) ys) as [z1 c1]. destruct S1 as (W1 & L1 & H1 & E1).
  rewrite (eval_split k xs L) in Ex. pose proof B_pos as HB. rewrite Lf in *.
  destruct (Nat.ltb_spec k (length xs)) as [Hk|Hk].
  - assert (Ns : skipn k xs <> []) by (intros C; apply (f_equal (@length Z)) in C; rewrite skipn_length in C; cbn in C; lia).
    pose proof (add_word_spec (skipn k xs) c1 (words_skipn _ _ Wx) ltac:(lia) Ns) as S2. destruct (add_word (skipn k xs) c1) as [t c2]. destruct S2 as (W2 & L2 & H2 & E2). rewrite skipn_length in *.
    apply (writes_holds m z _ _ m' _ W).
    + rewrite !app_length. cbn [length]. lia.
    + rewrite !words_app. repeat split; try assumption. apply words_cons. split; [lia|apply words_nil].
    + rewrite !eval_app, eval_single, app_length, L1, L2. replace (k + (length xs - k)) with (length xs) by lia.
      replace (Bn (length xs)) with (Bn k * Bn (length xs - k))%Z by (rewrite <- Bn_add; f_equal; lia). nia.
  - rewrite app_nil_r in W. rewrite skipn_all2 in Ex by lia. rewrite eval_nil in Ex. apply (writes_holds m z _ _ m' _ W).
    + rewrite !app_length. cbn [length]. lia.
    + rewrite !words_app. repeat split; try assumption. apply words_cons. split; [lia|apply words_nil].
    + rewrite eval_app, eval_single, L1. nia.
Qed.
Lemma uadd1_claim m z x n X w : 0 < n -> holds m x n X -> (0 <= w < 2 ^ 32)%Z -> room m z (S n) -> same_or_apart z (S n) x n ->
  exists m', uadd1_r m z x n w = Ok m' /\ holds m' z (S n) (X + w) /\ only m m' [(z, S n)].
Proof.
  intros Hn (xs & Lx & Wx & Rx & Ex) Hw Rz Sx. apply word_B in Hw. pose proof B_pos as HB. pose proof (nonempty xs n Lx Hn) as Nx. subst n. destruct (uadd1_ok m z x xs w Rx Rz Sx) as (m' & E & W).
  exists m'. split; [assumption|]. pose proof (add_word_spec xs w Wx Hw Nx) as S. destruct (add_word xs w) as [zs c]. destruct S as (Wz & Lz & Hc & Ez). cbn [fst snd] in *.
  apply (writes_holds m z _ _ m' _ W).
  - rewrite app_length. cbn [length]. lia.
  - rewrite words_app. split; [assumption|]. apply words_cons. split; [lia|apply words_nil].
  - rewrite eval_app, eval_single, Lz. lia.
Qed.
Lemma usub1_claim m z x n X w : 0 < n -> holds m x n X -> (0 <= w < 2 ^ 32)%Z -> (w <= X)%Z -> room m z n -> same_or_apart z n x n ->
  exists m', usub1_r m z x n w = Ok m' /\ holds m' z n (X - w) /\ only m m' [(z, n)].
Proof.
  intros Hn (xs & Lx & Wx & Rx & Ex) Hw Hle Rz Sx. apply word_B in Hw. pose proof (nonempty xs n Lx Hn) as Nx. subst n.
  pose proof (sub_word_spec xs w Wx Hw Nx) as S. assert (H0 : snd (sub_word xs w) = 0%Z /\ eval (fst (sub_word xs w)) = (X - w)%Z /\ all_words (fst (sub_word xs w)) /\ length (fst (sub_word xs w)) = length xs).
  { destruct (sub_word xs w) as [zs c]. destruct S as (Wz & Lz & Hc & Ez). cbn [fst snd]. pose proof (eval_range zs Wz) as Rg. rewrite Lz in Rg. assert (c = 0 \/ c = 1)%Z as [->| ->] by lia; [|lia]. repeat split; try assumption; lia. }
  destruct H0 as (H0 & E0 & W0 & L0). destruct (usub1_ok m z x xs w Rx Rz Sx H0) as (m' & E & W). exists m'. split; [assumption|]. now apply (writes_holds m z _ _ m' _ W).
Qed.
Lemma usub_claim m z x y xn yn X Y : yn <= xn -> 0 < yn -> holds m x xn X -> holds m y yn Y -> (Y <= X)%Z -> room m z xn ->
  same_or_apart z xn x xn -> same_or_apart z xn y yn ->
  exists m', usub_r m z x xn y yn = Ok m' /\ holds m' z xn (X - Y) /\ only m m' [(z, xn)].
Proof.
  intros L Hy (xs & Lx & Wx & Rx & Ex) (ys & Ly & Wy & Ry & Ey) Hle Rz Sx Sy. subst xn yn.
  assert (H0 : snd (usub_words xs ys) = 0%Z /\ eval (fst (usub_words xs ys)) = (X - Y)%Z /\ all_words (fst (usub_words xs ys)) /\ length (fst (usub_words xs ys)) = length xs).
  { set (k := length ys) in *. assert (Lf : length (firstn k xs) = k) by (apply firstn_length_le; lia). unfold usub_words. fold k.
    pose proof (sub_n_spec (firstn k xs) ys (words_firstn _ _ Wx) Wy ltac:(lia)) as S1. destruct (sub_n (firstn k xs) ys) as [z1 c1]. destruct S1 as (W1 & L1 & H1 & E1).
    pose proof (eval_range z1 W1) as G1. rewrite (eval_split k xs L) in Ex. pose proof B_pos as HB. rewrite Lf in *. rewrite L1 in G1.
    destruct (Nat.ltb_spec k (length xs)) as [Hk|Hk].
    - assert (Ns : skipn k xs <> []) by (intros C; apply (f_equal (@length Z)) in C; rewrite skipn_length in C; cbn in C; lia).
      pose proof (sub_word_spec (skipn k xs) c1 (words_skipn _ _ Wx) ltac:(lia) Ns) as S2. destruct (sub_word (skipn k xs) c1) as [t c2]. destruct S2 as (W2 & L2 & H2 & E2). rewrite skipn_length in *. cbn [fst snd].
      pose proof (eval_range t W2) as G2. rewrite L2 in G2. rewrite eval_app, L1, app_length. pose proof (Bn_pos k) as Pk. pose proof (Bn_pos (length xs - k)) as Pd.
      assert (Ec : c2 = 0%Z) by (assert (c2 = 0 \/ c2 = 1)%Z as [->| ->] by lia; [reflexivity|nia]). subst c2.
      split; [reflexivity|]. split; [nia|]. split; [now apply words_app|lia].
    - rewrite skipn_all2 in Ex by lia. rewrite eval_nil in Ex. rewrite app_nil_r. cbn [fst snd].
      assert (Ec : c1 = 0%Z) by (assert (c1 = 0 \/ c1 = 1)%Z as [->| ->] by lia; [reflexivity|nia]). subst c1. repeat split; try assumption; nia || lia. }
  destruct H0 as (H0 & E0 & W0 & L0). destruct (usub_ok m z x y xs ys L Rx Ry Rz Sx Sy H0) as (m' & E & W). exists m'. split; [assumption|]. now apply (writes_holds m z _ _ m' _ W).
Qed.
Lemma mulu1_claim m z x n X w : holds m x n X -> (0 <= w < 2 ^ 32)%Z -> room m z (S n) -> upward z x n ->
  exists m', mulu1_r m z x w n = Ok m' /\ holds m' z (S n) (X * w) /\ only m m' [(z, S n)].
Proof.
  intros (xs & Lx & Wx & Rx & Ex) Hw Rz U. apply word_B in Hw. subst n. destruct (mulu1_ok m z x xs w Rx Rz U) as (m' & E & W).
  exists m'. split; [assumption|]. pose proof (mul_word_n_spec xs w Wx Hw) as S. destruct (mul_word_n xs w) as [zs c]. destruct S as (Wz & Lz & Hc & Ez). cbn [fst snd] in *.
  apply (writes_holds m z _ _ m' _ W).
  - rewrite app_length. cbn [length]. lia.
  - rewrite words_app. split; [assumption|]. apply words_cons. split; [lia|apply words_nil].
  - rewrite eval_app, eval_single, Lz. lia.
Qed.

Lemma reads_firstn_nth m b ws n : reads m (b, 0) ws -> length ws = n -> firstn n (nth b m []) = ws.
Proof.
  intros R L. subst n. unfold reads, rd in R. cbn [fst snd] in R. destruct (nth_error m b) as [d|] eqn:E.
  - rewrite (nth_error_nth m b [] E). clear E. revert d R. induction ws as [|a ws IH]; intros d R; [reflexivity|].
    pose proof (R 0 ltac:(cbn; lia)) as R0. destruct d as [|a' d]; [discriminate|]. cbn in R0. injection R0 as ->. cbn [length firstn]. f_equal. apply IH.
    intros j Hj. apply (R (S j)). cbn [length]. lia.
  - destruct ws as [|a ws]; [reflexivity|]. specialize (R 0 ltac:(cbn; lia)). discriminate.
Qed.
Lemma udivq_claim junk m q qn x xn y yn X Y : 0 < yn -> yn <= xn -> holds m x xn X -> holds m y yn Y -> (0 < Y)%Z -> (cap (yn - 1) <= Y)%Z ->
  room m q qn -> qn = xn - yn + 1 -> apart q qn y yn ->
  exists rw m', udiv_r junk m (Some q) qn x xn y yn = Ok (rw, m') /\ all_words rw /\ 1 <= length rw <= yn /\ eval rw = (X mod Y)%Z /\ holds m' q qn (X / Y) /\ only m m' [(q, qn)].
Proof.
  intros Hy Hxy Hx (ys & Ly & Wy & Ry & Ey) HY Ht Rq Hq Aqy. destruct Hx as (xs & Lx & Wx & Rx & Ex). unfold udiv_r.
  destruct (alloca_ok m (junk 4) xn) as (m1 & -> & E1 & Rp & _).
  assert (Bq : fst q < length m) by (apply (room_block m q qn Rq); lia).
  assert (By : fst y < length m) by (apply (room_block m y yn); [rewrite <- Ly; now apply reads_room|lia]).
  assert (Bx : fst x < length m) by (apply (room_block m x xn); [rewrite <- Lx; now apply reads_room|lia]).
  destruct (copy_n_ok m1 (length m, 0) x xn xs Lx (extends_reads _ _ _ _ E1 Rx) Rp) as (m2 & -> & W2); [left; cbn [fst]; lia|]. cbn [bind].
  assert (E2 : extends m m2) by (apply (extends_writes m m1 _ _ m2 E1 W2); cbn [fst]; lia).
  destruct (divq_claim junk m2 q qn (length m, 0) xn y yn X Y) as (n & m3 & Ed & Hn & Hq3 & Hr3 & O); try assumption; try lia.
  - exists xs. repeat split; try assumption. apply (writes_reads _ _ _ _ W2).
  - exists ys. repeat split; try assumption. now apply (extends_reads m m2).
  - now apply (extends_room m m2).
  - left. cbn [fst]. lia.
  - left. cbn [fst]. lia.
  - rewrite Ed. cbn [bind fst snd]. destruct Hr3 as (rw & Lr & Wr & Rr & Er). destruct Hq3 as (qw & Lq & Wq & Rq3 & Eq).
    rewrite (reads_firstn_nth m3 (length m) rw n Rr Lr). exists rw, (leave m m3). split; [reflexivity|]. split; [assumption|]. split; [lia|]. split; [assumption|].
    split; [exists qw; repeat split; try assumption; now apply leave_reads|]. apply (only_leave2 m m2 m3 [(q, qn)] (length m, 0) xn E2 O). cbn [fst]. lia.
Qed.
Lemma udivr_claim junk m qn x xn y yn X Y : 0 < yn -> yn <= xn -> holds m x xn X -> holds m y yn Y -> (0 < Y)%Z -> (cap (yn - 1) <= Y)%Z -> qn = xn - yn + 1 ->
  exists rw, udiv_r junk m None qn x xn y yn = Ok (rw, m) /\ all_words rw /\ 1 <= length rw <= yn /\ eval rw = (X mod Y)%Z.
Proof.
  intros Hy Hxy Hx (ys & Ly & Wy & Ry & Ey) HY Ht Hq. destruct Hx as (xs & Lx & Wx & Rx & Ex). unfold udiv_r.
  destruct (alloca_ok m (junk 4) xn) as (m1 & -> & E1 & Rp & _).
  assert (By : fst y < length m) by (apply (room_block m y yn); [rewrite <- Ly; now apply reads_room|lia]).
  assert (Bx : fst x < length m) by (apply (room_block m x xn); [rewrite <- Lx; now apply reads_room|lia]).
  destruct (copy_n_ok m1 (length m, 0) x xn xs Lx (extends_reads _ _ _ _ E1 Rx) Rp) as (m2 & -> & W2); [left; cbn [fst]; lia|]. cbn [bind].
  assert (E2 : extends m m2) by (apply (extends_writes m m1 _ _ m2 E1 W2); cbn [fst]; lia).
  destruct (divr_claim junk m2 qn (length m, 0) xn y yn X Y) as (n & m3 & Ed & Hn & Hr3 & O); try assumption; try lia.
  - exists xs. repeat split; try assumption. apply (writes_reads _ _ _ _ W2).
  - exists ys. repeat split; try assumption. now apply (extends_reads m m2).
  - left. cbn [fst]. lia.
  - rewrite Ed. cbn [bind fst snd]. destruct Hr3 as (rw & Lr & Wr & Rr & Er).
    rewrite (reads_firstn_nth m3 (length m) rw n Rr Lr). exists rw. split; [|split; [assumption|split; [lia|assumption]]]. do 2 f_equal.
    destruct (only_leave2 m m2 m3 [] (length m, 0) xn E2 O) as [S H]; [cbn [fst]; lia|]. apply mem_same; [exact S|]. intros b k. apply H. intros r [].
Qed.

(* the divisor 0, or one with a leading zero word *)
Lemma div_zero_claim junk m q qn x xn y yn X Y : 0 < xn -> 0 < yn -> holds m x xn X -> holds m y yn Y -> room m q qn -> (Y = 0 \/ Y < cap (yn - 1))%Z ->
  div_r junk m (Some q) qn x xn y yn = Abort /\ div_r junk m None qn x xn y yn = Abort.
Proof.
  intros Hx Hy (xs & Lx & Wx & Rx & Ex) (ys & Ly & Wy & Ry & Ey) Rq H0. pose proof (nonempty ys yn Ly Hy) as Ny. pose proof (nonempty xs xn Lx Hx) as Nx.
  destruct (last_bounds ys Wy Ny) as (R0 & R1). rewrite Ly, Ey, <- cap_Bn in R1. assert (Pc : (0 < cap (yn - 1))%Z) by (rewrite cap_Bn; apply Bn_pos).
  assert (L0 : last ys 0%Z = 0%Z) by nia. unfold div_r. destruct (Nat.eqb_spec yn 1) as [->|Hy1].
  - destruct ys as [|y0 [|? ?]]; cbn [length] in Ly; try lia. cbn [last] in L0. subst y0. unfold div1_r. replace (0 <? xn) with true by (symmetry; now apply Nat.ltb_lt). cbn [check bind].
    rewrite (real_size_ok m x xn xs Lx Rx). cbn [bind]. destruct (get_real_size_spec xs Nx) as (Hr & _). assert (Ey0 : forall m', reads m' y [0%Z] -> ld m' y 0 = Ok 0%Z) by (intros m' R; apply (reads_ld0 m' y [0%Z] 0 R); cbn; lia).
    split; [|now rewrite (Ey0 m Ry)].
    destruct (xn <=? qn) eqn:Eq; [|reflexivity]. apply Nat.leb_le in Eq. cbn [check bind].
    assert (C : exists m1 v, (if get_real_size xs <? qn then clear_n_r m (at_ q (get_real_size xs)) (qn - get_real_size xs) else Ok m) = Ok m1 /\ ld m1 y 0 = Ok v /\ (v = 0)%Z).
    { destruct (Nat.ltb_spec (get_real_size xs) qn) as [Hl|Hl]; [|exists m, 0%Z; auto].
      destruct (clear_n_ok m (at_ q (get_real_size xs)) (qn - get_real_size xs)) as (m1 & Em & W); [apply (room_sub m q qn); [assumption|lia]|]. exists m1, 0%Z. split; [assumption|]. split; [|reflexivity].
      unfold ld. destruct W as [Sm W]. destruct (W (fst y) (snd y + 0)) as [W1 W2]. pose proof (Ry 0 ltac:(cbn; lia)) as R. cbn [nth] in R.
      destruct (within_dec (at_ q (get_real_size xs)) (length (repeat 0%Z (qn - get_real_size xs))) (fst y) (snd y + 0)) as [D|D].
      - rewrite (W1 D). now rewrite nth_repeat.
      - rewrite (W2 D), R. reflexivity. }
    destruct C as (m1 & v & -> & Ev & ->). cbn [bind]. rewrite Ev. reflexivity.
  - destruct ((0 <? xn) && (1 <? yn)); [|now split]. cbn [check bind].
    assert (Et : ld m y (yn - 1) = Ok 0%Z).
    { rewrite <- L0. destruct (exists_snoc ys Ny) as (u & a & ->). rewrite last_snoc. rewrite app_length in Ly. cbn [length] in Ly. destruct (reads_snoc _ _ _ _ Ry) as [_ Ea]. now replace (yn - 1) with (length u) by lia. }
    rewrite Et. split; [destruct ((xn <? yn) || (xn - yn + 1 <=? qn)); reflexivity|]. rewrite orb_true_r. reflexivity.
Qed.

(* [copy_n] to an overlapping higher address is not a copy *)
Lemma copy_up_r k : forall i x m a, reads m x (repeat a (S i)) -> room m x (S i + k) ->
  exists m', copy_r k i (at_ x 1) x m = Ok m' /\ reads m' x (repeat a (S i + k)).
Proof.
  induction k as [|k IH]; intros i x m a R Rm.
  - exists m. rewrite Nat.add_0_r. now split.
  - cbn [copy_r]. rewrite (reads_ld0 m x _ i R) by (rewrite repeat_length; lia). cbn [bind]. replace (nth i (repeat a (S i)) 0%Z) with a by (rewrite (nth_indep _ 0%Z a) by (rewrite repeat_length; lia); now rewrite nth_repeat).
    destruct (st_ok m (at_ x 1) i a) as (m1 & -> & W); [cbn [at_ fst snd]; replace (snd x + 1 + i) with (snd x + S i) by lia; apply Rm; lia|]. cbn [bind].
    rewrite at_at in W. cbn [plus] in W. destruct (IH (S i) x m1 a) as (m' & E & R').
    + replace (repeat a (S (S i))) with (repeat a (S i) ++ [a]) by (rewrite <- repeat_cons; reflexivity). apply reads_app. rewrite repeat_length. split; [|apply (writes_reads _ _ _ _ W)].
      apply (writes_frame _ _ _ _ _ _ W R). rewrite repeat_length. unfold apart, at_. cbn [fst snd length]. lia.
    + apply (writes_room _ _ _ _ _ _ W). now replace (S (S i) + k) with (S i + S k) by lia.
    + exists m'. split; [assumption|]. now replace (S i + S k) with (S (S i) + k) by lia.
Qed.
Lemma copy_overlap_claim m x n a ws : length ws = n -> reads m x (a :: ws) ->
  exists m', copy_n_r m (at_ x 1) x n = Ok m' /\ reads m' x (repeat a (S n)).
Proof.
  intros L R. destruct (copy_up_r n 0 x m a) as (m' & E & R').
  - intros j Hj. cbn [repeat length] in Hj. specialize (R j). assert (j = 0) by lia. subst j. apply R. cbn. lia.
  - rewrite <- L. apply (reads_room m x (a :: ws) R).
  - exists m'. now split.
Qed.
