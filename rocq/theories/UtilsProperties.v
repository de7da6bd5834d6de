(** Property theorems C01, C02, C03, C43. *)
From Coq Require Import List ZArith.
From Coq Require Lia.
From Verif Require Import Outcome UtilsModel UtilsSpec UtilsProofs.
Import ListNotations.
Open Scope Z_scope.

(** C01: decoding any hexadecimal printing of [b] gives [b]; every [b] has a printing. *)
Theorem C01_hex_decode : forall s b, hex_text s b -> from_hex s = Ok b.
Proof. exact from_hex_text. Qed.
Print Assumptions C01_hex_decode.
Theorem C01_hex_exists : forall b, all_bytes b -> exists s, hex_text s b.
Proof. exact hex_text_of. Qed.
Print Assumptions C01_hex_exists.
Example C01_ex : hex_text [65; 66; 48; 102] [171; 15] /\ from_hex [65; 66; 48; 102] = Ok [171; 15].
Proof.
  split; [|reflexivity]. apply (hex_cons 65 66 10 11).
  - exact (hex_upper 10 ltac:(Lia.lia)). - exact (hex_upper 11 ltac:(Lia.lia)).
  - apply (hex_cons 48 102 0 15); [exact (hex_dec 0 ltac:(Lia.lia))|exact (hex_lower 15 ltac:(Lia.lia))|constructor].
Qed.

Theorem C01_hex_decode_odd : forall s b, hex_text_odd s b -> from_hex s = Ok b.
Proof. exact from_hex_text_odd. Qed.
Print Assumptions C01_hex_decode_odd.
Example C01_odd_ex : from_hex [102; 65; 66] = Ok [15; 171]. Proof. reflexivity. Qed.

Theorem C01_hex_bad_char_aborts : forall s,
  (exists c, In c (strip_nul s) /\ ~ is_hex_char c) -> from_hex s = Abort.
Proof. exact from_hex_bad. Qed.
Print Assumptions C01_hex_bad_char_aborts.
Example C01_bad_ex : ~ is_hex_char 103 /\ from_hex [65; 103] = Abort.
Proof. split; [|reflexivity]. intros [d H]; apply hex_digit_char in H; discriminate H. Qed.

Theorem C01_hex_trailing_nul : forall s, Forall (fun c => c <> 0) s -> from_hex (s ++ [0]) = from_hex s.
Proof. exact from_hex_nul. Qed.
Print Assumptions C01_hex_trailing_nul.

Theorem C01_hex_small_dest_aborts : forall s n,
  (n < (length (strip_nul s) + 1) / 2)%nat -> from_hex_into s n = Abort.
Proof. exact from_hex_into_small. Qed.
Print Assumptions C01_hex_small_dest_aborts.

Theorem C01_hex_never_overruns : forall s n r, from_hex_into s n = Ok r -> (length r <= n)%nat.
Proof. exact from_hex_into_nofail. Qed.
Print Assumptions C01_hex_never_overruns.

Theorem C01_hex_fixed : forall N s b, hex_text s b \/ hex_text_odd s b -> (length b <= N)%nat ->
  from_hex_fixed N s = Ok (b ++ repeat 0 (N - length b)).
Proof. exact from_hex_fixed_text. Qed.
Print Assumptions C01_hex_fixed.
Example C01_fixed_ex : from_hex_fixed 4 [97; 98; 99] = Ok [10; 188; 0; 0]. Proof. reflexivity. Qed.

Theorem C01_hex_literal : forall s b, hex_text s b -> from_hex_literal s = Ok b.
Proof. exact from_hex_literal_text. Qed.
Print Assumptions C01_hex_literal.

(** C02: memxor is total on byte buffers, is the pointwise xor of the prefix, keeps the rest. *)
Theorem C02_memxor : forall dst src num, all_bytes dst -> all_bytes src ->
  exists out, memxor dst src num = Ok out /\ memxor_result dst src num out.
Proof. exact memxor_spec. Qed.
Print Assumptions C02_memxor.
Theorem C02_memxor_involutive : forall dst src num out, all_bytes dst -> all_bytes src ->
  memxor dst src num = Ok out -> memxor out src num = Ok dst.
Proof. exact memxor_involutive. Qed.
Print Assumptions C02_memxor_involutive.
Example C02_ex :
  memxor (repeat 1 18) (repeat 3 40) 17 = Ok (repeat 2 17 ++ [1]). Proof. reflexivity. Qed.

(** C03: streams of views round-trip; truncation is not silently accepted iff skip checks. *)
Theorem C03_views_roundtrip : forall b ds r,
  Forall (fun d => Z.of_nat (length d) < 2 ^ 32) ds ->
  read_views b (length ds) (write_views [] ds ++ r) = Ok (ds, r).
Proof. exact views_round. Qed.
Print Assumptions C03_views_roundtrip.
Example C03_ex : exists s, s = write_views [] [repeat 7 130; [1; 2]] /\ length s = 135%nat /\
  read_views false 2 (s ++ [9]) = Ok ([repeat 7 130; [1; 2]], [9]).
Proof. eexists; repeat split; vm_compute; reflexivity. Qed.

Theorem C03_truncated_rejected : forall d k, Z.of_nat (length d) < 2 ^ 32 -> (k < length d)%nat ->
  read_view true (varuint_write 5 (Z.of_nat (length d) mod 2 ^ 32) ++ firstn k d) = Abort.
Proof. exact (read_view_truncated_gen true). Qed.
Print Assumptions C03_truncated_rejected.

(** The code itself never checks the declared length: with an unchecked [skip] the view
    handed out runs past the end of the stream. *)
Theorem C03_truncated_unchecked_refuted : exists s, read_view false s = UB.
Proof. exists [5; 1]. vm_compute. reflexivity. Qed.
Print Assumptions C03_truncated_unchecked_refuted.

Theorem C03_view_is_a_slice : forall b s d r, read_view b s = Ok (d, r) -> exists p, s = p ++ d ++ r.
Proof. exact read_view_consumes. Qed.
Print Assumptions C03_view_is_a_slice.

(** C43: equality of spans and keys is equality of contents. *)
Theorem C43_span_equality : forall mem l r, span_of mem l -> span_of mem r ->
  span_eqb l r = true <-> sp_data l = sp_data r.
Proof. exact span_eqb_iff. Qed.
Print Assumptions C43_span_equality.
Theorem C43_rsa_key_equality : forall mem l r,
  span_of mem (k_mod l) -> span_of mem (k_exp l) -> span_of mem (k_mod r) -> span_of mem (k_exp r) ->
  rsa_key_eqb l r = true <-> sp_data (k_mod l) = sp_data (k_mod r) /\ sp_data (k_exp l) = sp_data (k_exp r).
Proof. exact rsa_key_eqb_iff. Qed.
Print Assumptions C43_rsa_key_equality.
Theorem C43_rsa_pss_key_equality : forall mem l r,
  span_of mem (pk_mod l) -> span_of mem (pk_exp l) -> span_of mem (pk_mod r) -> span_of mem (pk_exp r) ->
  rsa_pss_key_eqb l r = true <->
  sp_data (pk_mod l) = sp_data (pk_mod r) /\ sp_data (pk_exp l) = sp_data (pk_exp r) /\ pk_salt l = pk_salt r.
Proof. exact rsa_pss_key_eqb_iff. Qed.
Print Assumptions C43_rsa_pss_key_equality.
Example C43_ex : let mem := fun a => a mod 5 in
  span_of mem {| sp_addr := 3; sp_data := [3; 4; 0] |} /\ span_of mem {| sp_addr := 8; sp_data := [3; 4; 0] |} /\
  span_eqb {| sp_addr := 3; sp_data := [3; 4; 0] |} {| sp_addr := 8; sp_data := [3; 4; 0] |} = true.
Proof.
  cbv zeta; repeat split; intros i Hi; cbn in Hi;
  do 3 (destruct i as [|i]; [reflexivity|]); Lia.lia.
Qed.
