(** Model of mgf.hpp. *)
From Coq Require Import List ZArith Bool.
From Verif Require Import Outcome UtilsModel.
Import ListNotations.
Open Scope Z_scope.

(** mgf.hpp:33-36: the counter as four big-endian bytes. *)
Definition counter_bytes (c : Z) : list Z :=
  [Z.land (Z.shiftr c 24) 255; Z.land (Z.shiftr c 16) 255; Z.land (Z.shiftr c 8) 255; Z.land c 255].

Section MGF.
(** the hash function and the copy function (new contents of the destination span) are parameters *)
Variable hash : list Z -> list Z.
Variable copy : list Z -> list Z -> nat -> outcome (list Z).

(** mgf.hpp:28-46: the loop; [mask] is the span still to be written, [fuel] bounds the iterations
    (a hash with an empty digest would loop for ever). *)
Fixpoint mgf1_loop (fuel : nat) (seed mask : list Z) (counter : Z) : outcome (list Z) :=
  match mask with
  | [] => Ok []
  | _ :: _ =>
      match fuel with
      | O => NoFuel
      | S fuel' =>
          let digest := hash (seed ++ counter_bytes counter) in
          let copied := Nat.min (length digest) (length mask) in
          let* m := copy mask digest copied in
          let* rest := mgf1_loop fuel' seed (skipn copied m) ((counter + 1) mod 2 ^ 32) in
          Ok (firstn copied m ++ rest)
      end
  end.
(** mgf.hpp:19-47 [mgf1]: the new contents of [mask]. *)
Definition mgf1 (seed mask : list Z) : outcome (list Z) := mgf1_loop (length mask) seed mask 0.
End MGF.

(** mgf.hpp:21 the default copy function: memcpy. *)
Definition copy_mem (dst src : list Z) (n : nat) : outcome (list Z) :=
  if Nat.leb n (length src) && Nat.leb n (length dst) then Ok (firstn n src ++ skipn n dst) else UB.
(** rsa.hpp:315-317: xor into the mask. *)
Definition copy_xor (dst src : list Z) (n : nat) : outcome (list Z) := memxor dst src n.
