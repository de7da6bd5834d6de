(** Property C76: the software branch of the RSA exponentiation as a whole, over memory: key preparation, the
    Montgomery exponentiation and the copy of the result. *)
From Coq Require Import List ZArith Bool Lia.
From Verif Require Import Outcome UtilsSpec RsaSpec PowmSpec RawModel RawSpec PowmRawSpec WholeModel WholeMain.
Import ListNotations.
Open Scope Z_scope.

(** A modulus as long as the base, without leading zero byte; base, exponent, modulus and result may share memory.
    Only the bytes of the result change, whatever the fresh arrays contained. *)
Theorem C76_powm : forall junk m base exp mod_ out bs es n t, all_bytes bs -> all_bytes es -> all_bytes (n :: t) -> reads m base bs -> reads m exp es -> reads m mod_ (n :: t) -> room m out (length bs) ->
  n <> 0 -> length (n :: t) = length bs -> (length bs mod 4 = 0)%nat -> Z.of_nat (length bs) < 2 ^ 27 -> (length es <= 8)%nat -> Z.odd (OS2IP (n :: t)) = true -> Z.odd (OS2IP es) = true -> 3 <= OS2IP es ->
  exists m' v, powm_w junk m base (length bs) exp (length es) mod_ (length (n :: t)) out = Ok (true, m') /\ only m m' [(out, length bs)] /\ reads m' out (I2OSP v (length bs)) /\
    0 <= v < 256 ^ Z.of_nat (length bs) /\ v mod OS2IP (n :: t) = OS2IP bs ^ effective (OS2IP es) mod OS2IP (n :: t) /\
    (OS2IP bs < OS2IP (n :: t) \/ 256 ^ Z.of_nat (length bs) <= 2 * OS2IP (n :: t) -> v = OS2IP bs ^ effective (OS2IP es) mod OS2IP (n :: t)).
Proof. exact powm_plain. Qed.
Print Assumptions C76_powm.

(** The modulus is [z] zero bytes and then the bytes [n :: t].  Of the base, only as many bytes as these are raised
    to the power: the first ones.  The others are copied to the result. *)
Theorem C76_zeros : forall junk m base exp mod_ out hi lo es z n t, all_bytes (hi ++ lo) -> all_bytes es -> all_bytes (n :: t) -> reads m base (hi ++ lo) -> reads m exp es -> reads m mod_ (repeat 0 z ++ n :: t) -> room m out (length (hi ++ lo)) ->
  n <> 0 -> length (n :: t) = length hi -> (length hi mod 4 = 0)%nat -> (length lo mod 4 = 0)%nat -> Z.of_nat (length hi) < 2 ^ 27 -> (length es <= 8)%nat -> Z.odd (OS2IP (n :: t)) = true -> Z.odd (OS2IP es) = true -> 3 <= OS2IP es ->
  exists m' v, powm_w junk m base (length (hi ++ lo)) exp (length es) mod_ (z + length (n :: t)) out = Ok (true, m') /\ only m m' [(out, length (hi ++ lo))] /\ reads m' out (I2OSP v (length hi) ++ lo) /\
    0 <= v < 256 ^ Z.of_nat (length hi) /\ v mod OS2IP (n :: t) = OS2IP hi ^ effective (OS2IP es) mod OS2IP (n :: t) /\
    (OS2IP hi < OS2IP (n :: t) \/ 256 ^ Z.of_nat (length hi) <= 2 * OS2IP (n :: t) -> v = OS2IP hi ^ effective (OS2IP es) mod OS2IP (n :: t)).
Proof. exact powm_claim. Qed.
Print Assumptions C76_zeros.

(** An even exponent, or one below 3, is refused and the memory of the caller is as before. *)
Theorem C76_refuses : forall junk m base exp mod_ out hi lo es z n t, all_bytes (hi ++ lo) -> all_bytes es -> all_bytes (n :: t) -> reads m base (hi ++ lo) -> reads m exp es -> reads m mod_ (repeat 0 z ++ n :: t) ->
  n <> 0 -> length (n :: t) = length hi -> (length hi mod 4 = 0)%nat -> (length lo mod 4 = 0)%nat -> Z.of_nat (length hi) < 2 ^ 27 -> (length es <= 8)%nat -> Z.even (OS2IP es) = true \/ OS2IP es < 3 ->
  powm_w junk m base (length (hi ++ lo)) exp (length es) mod_ (z + length (n :: t)) out = Ok (false, m).
Proof. exact refuses_all. Qed.
Print Assumptions C76_refuses.

(** A modulus whose length without its leading zeros is not a multiple of four bytes makes br_i32_decode write past
    the end of the array n of powm.h:804, whatever the base. *)
Theorem C76_modulus_length_ub : forall junk m base base_len exp mod_ out es z n t, all_bytes (n :: t) -> reads m exp es -> reads m mod_ (repeat 0 z ++ n :: t) -> n <> 0 -> (length (n :: t) mod 4 <> 0)%nat -> (length es <= 8)%nat ->
  powm_w junk m base base_len exp (length es) mod_ (z + length (n :: t)) out = UB.
Proof. exact ub_claim. Qed.
Print Assumptions C76_modulus_length_ub.

(** A base whose length is not a multiple of four bytes makes the memcpy of rsa_mod_exp_sw leave its array. *)
Theorem C76_base_length_ub : forall junk m base base_len exp mod_ out bs es z n t, all_bytes (n :: t) -> reads m exp es -> reads m mod_ (repeat 0 z ++ n :: t) -> reads m base bs -> n <> 0 -> Z.of_nat (length (n :: t)) < 2 ^ 27 -> (length es <= 8)%nat ->
  (base_len mod 4 <> 0)%nat -> powm_w junk m base base_len exp (length es) mod_ (z + length (n :: t)) out = UB.
Proof. exact ub_base. Qed.
Print Assumptions C76_base_length_ub.

(** ** Examples *)
Definition ex_w : memory := [[0; 0; 1; 4; 7; 8; 9; 1]; [3]; [0; 0; 0; 0; 255; 255; 255; 251]; [9; 9; 9; 9; 9; 9; 9; 9; 9]; [65; 0; 5]].
Ltac rds := intros [|[|[|[|[|[|[|[|?]]]]]]]] ?; cbn in *; (reflexivity || lia).
Ltac rms := intros [|[|[|[|[|[|[|[|?]]]]]]]] ?; cbn in *; (discriminate || lia).
Ltac bts := repeat constructor; unfold is_byte; lia.
Example C76_powm_ex : exists m', powm_w (fun _ _ => 77) ex_w (0, 0)%nat 4 (1, 0)%nat 1 (2, 4)%nat 4 (3, 1)%nat = Ok (true, m') /\ only ex_w m' [((3, 1)%nat, 4%nat)] /\ reads m' (3, 1)%nat [1; 12; 48; 64].
Proof.
  destruct (C76_powm (fun _ _ => 77) ex_w (0, 0)%nat (1, 0)%nat (2, 4)%nat (3, 1)%nat [0; 0; 1; 4] [3] 255 [255; 255; 251]) as (m' & v & E & O & R & _ & _ & V).
  1-3: bts. 1-3: rds. 1: rms. 1: discriminate. 1-3: reflexivity. 1: cbn; lia. 1-2: reflexivity. 1: discriminate.
  exists m'. split; [exact E|]. split; [exact O|]. rewrite V in R by (left; reflexivity). exact R.
Qed.
(** the result in place of the base *)
Example C76_in_place_ex : exists m', powm_w (fun _ _ => 77) ex_w (0, 0)%nat 4 (1, 0)%nat 1 (2, 4)%nat 4 (0, 0)%nat = Ok (true, m') /\ only ex_w m' [((0, 0)%nat, 4%nat)] /\ reads m' (0, 0)%nat [1; 12; 48; 64].
Proof.
  destruct (C76_powm (fun _ _ => 77) ex_w (0, 0)%nat (1, 0)%nat (2, 4)%nat (0, 0)%nat [0; 0; 1; 4] [3] 255 [255; 255; 251]) as (m' & v & E & O & R & _ & _ & V).
  1-3: bts. 1-3: rds. 1: rms. 1: discriminate. 1-3: reflexivity. 1: cbn; lia. 1-2: reflexivity. 1: discriminate.
  exists m'. split; [exact E|]. split; [exact O|]. rewrite V in R by (left; reflexivity). exact R.
Qed.
(** eight bytes of base and modulus, half of the modulus zero: 260^3, and the other half of the base *)
Example C76_zeros_ex : exists m', powm_w (fun _ _ => 77) ex_w (0, 0)%nat 8 (1, 0)%nat 1 (2, 0)%nat 8 (3, 1)%nat = Ok (true, m') /\ only ex_w m' [((3, 1)%nat, 8%nat)] /\ reads m' (3, 1)%nat [1; 12; 48; 64; 7; 8; 9; 1].
Proof.
  destruct (C76_zeros (fun _ _ => 77) ex_w (0, 0)%nat (1, 0)%nat (2, 0)%nat (3, 1)%nat [0; 0; 1; 4] [7; 8; 9; 1] [3] 4 255 [255; 255; 251]) as (m' & v & E & O & R & _ & _ & V).
  1-3: bts. 1-3: rds. 1: rms. 1: discriminate. 1-4: reflexivity. 1: cbn; lia. 1-2: reflexivity. 1: discriminate.
  exists m'. split; [exact E|]. split; [exact O|]. rewrite V in R by (left; reflexivity). exact R.
Qed.
Example C76_refuses_ex : powm_w (fun _ _ => 77) ex_w (0, 0)%nat 8 (4, 0)%nat 2 (2, 0)%nat 8 (3, 1)%nat = Ok (false, ex_w).
Proof.
  apply (C76_refuses (fun _ _ => 77) ex_w (0, 0)%nat (4, 0)%nat (2, 0)%nat (3, 1)%nat [0; 0; 1; 4] [7; 8; 9; 1] [65; 0] 4 255 [255; 255; 251]).
  1-3: bts. 1-3: rds. 1: discriminate. 1-4: reflexivity. 1: cbn; lia. left; reflexivity.
Qed.
Example C76_modulus_length_ub_ex : powm_w (fun _ _ => 77) ex_w (0, 0)%nat 4 (1, 0)%nat 1 (3, 0)%nat 5 (0, 0)%nat = UB.
Proof. apply (C76_modulus_length_ub (fun _ _ => 77) ex_w (0, 0)%nat 4 (1, 0)%nat (3, 0)%nat (0, 0)%nat [3] 0 9 [9; 9; 9; 9]); [bts|rds|rds|discriminate|discriminate|cbn; lia]. Qed.
Example C76_base_length_ub_ex : powm_w (fun _ _ => 77) ex_w (3, 0)%nat 5 (1, 0)%nat 1 (2, 3)%nat 5 (3, 0)%nat = UB.
Proof. apply (C76_base_length_ub (fun _ _ => 77) ex_w (3, 0)%nat 5 (1, 0)%nat (2, 3)%nat (3, 0)%nat [9; 9; 9; 9; 9] [3] 1 255 [255; 255; 251]); [bts|rds|rds|rds|discriminate|reflexivity|cbn; lia|discriminate]. Qed.
