(** Property C77: [powm] of rsa.hpp on views, in the software branch, over memory. *)
From Coq Require Import List ZArith Bool Lia.
From Verif Require Import Outcome UtilsSpec RsaModel RsaSpec PowmModel PowmSpec PowmClaims RawModel RawSpec PowmRawSpec WholeModel WholeView.
Import ListNotations.
Open Scope Z_scope.

(** The modulus is [length lo] zero bytes and then [n :: t]; the base is [hi ++ lo].  The views may overlap; the
    memory of the caller is as before. *)
Theorem C77_result : forall junk m base exp mod_ hi lo es n t, all_bytes (hi ++ lo) -> all_bytes es -> all_bytes (n :: t) ->
  reads m base (hi ++ lo) -> reads m exp es -> reads m mod_ (repeat 0 (length lo) ++ n :: t) ->
  n <> 0 -> length (n :: t) = length hi -> (length hi mod 4 = 0)%nat -> (length lo mod 4 = 0)%nat -> Z.of_nat (length hi) < 2 ^ 27 -> (0 < length es <= 8)%nat ->
  Z.odd (OS2IP (n :: t)) = true -> Z.odd (OS2IP es) = true -> 3 <= OS2IP es ->
  exists v, powm_view_w junk m base (length (hi ++ lo)) exp (length es) mod_ (length (repeat 0 (length lo) ++ n :: t)) = Ok (I2OSP v (length hi) ++ lo, m) /\
    0 <= v < 256 ^ Z.of_nat (length hi) /\ v mod OS2IP (n :: t) = OS2IP hi ^ effective (OS2IP es) mod OS2IP (n :: t) /\
    (OS2IP hi < OS2IP (n :: t) \/ 256 ^ Z.of_nat (length hi) <= 2 * OS2IP (n :: t) -> v = OS2IP hi ^ effective (OS2IP es) mod OS2IP (n :: t)).
Proof. exact view_ok. Qed.
Print Assumptions C77_result.

(** An even exponent, or one below 3: the failure is not reported, the result is zero. *)
Theorem C77_unreported : forall junk m base exp mod_ hi lo es n t, all_bytes (hi ++ lo) -> all_bytes es -> all_bytes (n :: t) ->
  reads m base (hi ++ lo) -> reads m exp es -> reads m mod_ (repeat 0 (length lo) ++ n :: t) ->
  n <> 0 -> length (n :: t) = length hi -> (length hi mod 4 = 0)%nat -> (length lo mod 4 = 0)%nat -> Z.of_nat (length hi) < 2 ^ 27 -> (0 < length es <= 8)%nat ->
  Z.even (OS2IP es) = true \/ OS2IP es < 3 ->
  powm_view_w junk m base (length (hi ++ lo)) exp (length es) mod_ (length (repeat 0 (length lo) ++ n :: t)) = Ok (repeat 0 (length (repeat 0 (length lo) ++ n :: t)), m).
Proof. exact view_refuses. Qed.
Print Assumptions C77_unreported.

(** Empty views, a base and a modulus of different lengths, and exponents from 2^64 on are stopped. *)
Theorem C77_lengths : forall junk m base exp mod_ (bs es ms : list Z), reads m exp es ->
  bs = [] \/ es = [] \/ ms = [] \/ length bs <> length ms -> powm_view_w junk m base (length bs) exp (length es) mod_ (length ms) = Abort.
Proof. exact view_lengths. Qed.
Print Assumptions C77_lengths.
Theorem C77_big_exponent : forall junk m base exp mod_ (bs es ms : list Z), reads m exp es -> all_bytes es ->
  2 ^ 64 <= OS2IP es -> powm_view_w junk m base (length bs) exp (length es) mod_ (length ms) = Abort.
Proof. exact view_big. Qed.
Print Assumptions C77_big_exponent.

(** For the moduli of C11 and bases in range the run over memory is the function of C09 with the primitive of C11,
    for every exponent and every base length. *)
Theorem C77_agrees : forall junk m base exp mod_ bs es ms, modulus_fit ms -> all_bytes bs -> all_bytes es -> reads m base bs -> reads m exp es -> reads m mod_ ms ->
  OS2IP bs < OS2IP ms \/ 256 ^ Z.of_nat (length ms) <= 2 * OS2IP ms ->
  powm_view_w junk m base (length bs) exp (length es) mod_ (length ms) = (let* r := RsaModel.powm mod_exp_sw bs es ms in Ok (r, m)).
Proof. exact view_agrees. Qed.
Print Assumptions C77_agrees.

(** An exponent of more than eight bytes whose value fits 64 bits passes the check of lines 182-186, which compares
    the value; rsa_gen_key_prop then copies all its bytes into the eight of the struct. *)
Theorem C77_exponent_length_ub : forall junk m base exp mod_ (bs es ms : list Z), reads m exp es -> reads m mod_ ms -> all_bytes es ->
  (8 < length es)%nat -> OS2IP es < 2 ^ 64 -> (0 < length bs)%nat -> length bs = length ms -> powm_view_w junk m base (length bs) exp (length es) mod_ (length ms) = UB.
Proof. exact view_long. Qed.
Print Assumptions C77_exponent_length_ub.

(** A modulus whose length without its leading zeros is not a multiple of four bytes, with a base of the length of
    the modulus: powm of rsa.hpp lets it through. *)
Theorem C77_modulus_length_ub : forall junk m base exp mod_ (bs es : list Z) z n t, all_bytes (n :: t) -> reads m exp es -> reads m mod_ (repeat 0 z ++ n :: t) -> n <> 0 -> (0 < length es <= 8)%nat ->
  length bs = length (repeat 0 z ++ n :: t) -> (length (n :: t) mod 4 <> 0)%nat -> powm_view_w junk m base (length bs) exp (length es) mod_ (length (repeat 0 z ++ n :: t)) = UB.
Proof. exact view_ub. Qed.
Print Assumptions C77_modulus_length_ub.

(** A number of leading zeros of the modulus that is not a multiple of four: the call is
    undefined, either for the reason above or because the base then has a length that is no multiple of four. *)
Theorem C77_leading_zeros_ub : forall junk m base exp mod_ bs es z n t, all_bytes (n :: t) -> reads m base bs -> reads m exp es -> reads m mod_ (repeat 0 z ++ n :: t) -> n <> 0 -> (0 < length es <= 8)%nat ->
  length bs = length (repeat 0 z ++ n :: t) -> Z.of_nat (length (n :: t)) < 2 ^ 27 ->
  (z mod 4 <> 0)%nat -> powm_view_w junk m base (length bs) exp (length es) mod_ (length (repeat 0 z ++ n :: t)) = UB.
Proof. exact view_base_ub. Qed.
Print Assumptions C77_leading_zeros_ub.

(** ** Examples *)
Definition ex_v : memory := [[0; 0; 1; 4; 7; 8; 9; 1]; [3]; [0; 0; 0; 0; 255; 255; 255; 251]; [0; 0; 0; 0; 0; 0; 0; 0; 1]; [9; 0; 0; 0; 0; 0; 0; 0; 0]; [65; 0; 5]].
Ltac rds := intros [|[|[|[|[|[|[|[|[|?]]]]]]]]] ?; cbn in *; (reflexivity || lia).
Ltac bts := repeat constructor; unfold is_byte; lia.
Example C77_result_ex : powm_view_w (fun _ _ => 77) ex_v (0, 0)%nat 8 (1, 0)%nat 1 (2, 0)%nat 8 = Ok ([1; 12; 48; 64; 7; 8; 9; 1], ex_v).
Proof.
  destruct (C77_result (fun _ _ => 77) ex_v (0, 0)%nat (1, 0)%nat (2, 0)%nat [0; 0; 1; 4] [7; 8; 9; 1] [3] 255 [255; 255; 251]) as (v & E & _ & _ & V).
  1-3: bts. 1-3: rds. 1: discriminate. 1-4: reflexivity. 1: cbn; lia. 1-2: reflexivity. 1: discriminate. rewrite V in E by (left; reflexivity). exact E.
Qed.
(** the exponent is read from within the base *)
Example C77_overlap_ex : exists v, powm_view_w (fun _ _ => 77) ex_v (0, 4)%nat 4 (0, 4)%nat 1 (2, 4)%nat 4 = Ok (I2OSP v 4, ex_v) /\ v = 117967105 ^ 7 mod 4294967291.
Proof.
  destruct (C77_result (fun _ _ => 77) ex_v (0, 4)%nat (0, 4)%nat (2, 4)%nat [7; 8; 9; 1] [] [7] 255 [255; 255; 251]) as (v & E & _ & _ & V).
  1-3: bts. 1-3: rds. 1: discriminate. 1-4: reflexivity. 1: cbn; lia. 1-2: reflexivity. 1: discriminate. exists v. split; [rewrite app_nil_r in E; exact E|]. apply V. left. reflexivity.
Qed.
Example C77_unreported_ex : powm_view_w (fun _ _ => 77) ex_v (0, 0)%nat 8 (5, 0)%nat 2 (2, 0)%nat 8 = Ok ([0; 0; 0; 0; 0; 0; 0; 0], ex_v).
Proof.
  apply (C77_unreported (fun _ _ => 77) ex_v (0, 0)%nat (5, 0)%nat (2, 0)%nat [0; 0; 1; 4] [7; 8; 9; 1] [65; 0] 255 [255; 255; 251]).
  1-3: bts. 1-3: rds. 1: discriminate. 1-4: reflexivity. 1: cbn; lia. left; reflexivity.
Qed.
Example C77_lengths_ex : powm_view_w (fun _ _ => 77) ex_v (0, 0)%nat 4 (1, 0)%nat 1 (2, 0)%nat 8 = Abort.
Proof. apply (C77_lengths (fun _ _ => 77) ex_v (0, 0)%nat (1, 0)%nat (2, 0)%nat [0; 0; 1; 4] [3] [0; 0; 0; 0; 255; 255; 255; 251]); [rds|]. right; right; right. discriminate. Qed.
Example C77_big_exponent_ex : powm_view_w (fun _ _ => 77) ex_v (0, 0)%nat 4 (4, 0)%nat 9 (2, 4)%nat 4 = Abort.
Proof. apply (C77_big_exponent (fun _ _ => 77) ex_v (0, 0)%nat (4, 0)%nat (2, 4)%nat [0; 0; 1; 4] [9; 0; 0; 0; 0; 0; 0; 0; 0] [255; 255; 255; 251]); [rds|bts|]. vm_compute. discriminate. Qed.
Example C77_agrees_ex : powm_view_w (fun _ _ => 77) ex_v (0, 0)%nat 4 (1, 0)%nat 1 (2, 4)%nat 4 = (let* r := RsaModel.powm mod_exp_sw [0; 0; 1; 4] [3] [255; 255; 255; 251] in Ok (r, ex_v)).
Proof.
  apply (C77_agrees (fun _ _ => 77) ex_v (0, 0)%nat (1, 0)%nat (2, 4)%nat [0; 0; 1; 4] [3] [255; 255; 255; 251]); [|bts|bts|rds|rds|rds|left; reflexivity].
  split; [bts|]. split; [reflexivity|]. split; [reflexivity|]. split; reflexivity.
Qed.
Example C77_exponent_length_ub_ex : powm_view_w (fun _ _ => 77) ex_v (0, 0)%nat 4 (3, 0)%nat 9 (2, 4)%nat 4 = UB.
Proof. apply (C77_exponent_length_ub (fun _ _ => 77) ex_v (0, 0)%nat (3, 0)%nat (2, 4)%nat [0; 0; 1; 4] [0; 0; 0; 0; 0; 0; 0; 0; 1] [255; 255; 255; 251]); [rds|rds|bts|cbn; lia|reflexivity|cbn; lia|reflexivity]. Qed.
Example C77_modulus_length_ub_ex : powm_view_w (fun _ _ => 77) ex_v (0, 0)%nat 3 (1, 0)%nat 1 (2, 5)%nat 3 = UB.
Proof. apply (C77_modulus_length_ub (fun _ _ => 77) ex_v (0, 0)%nat (1, 0)%nat (2, 5)%nat [0; 0; 1] [3] 0 255 [255; 251]); [bts|rds|rds|discriminate|cbn; lia|reflexivity|discriminate]. Qed.
Example C77_leading_zeros_ub_ex : powm_view_w (fun _ _ => 77) ex_v (0, 0)%nat 5 (1, 0)%nat 1 (2, 3)%nat 5 = UB.
Proof. apply (C77_leading_zeros_ub (fun _ _ => 77) ex_v (0, 0)%nat (1, 0)%nat (2, 3)%nat [0; 0; 1; 4; 7] [3] 1 255 [255; 255; 251]); [bts|rds|rds|rds|discriminate|cbn; lia|reflexivity|reflexivity|discriminate]. Qed.
