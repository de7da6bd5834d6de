(** SHA-3 as in FIPS 202, at the level of bits. *)
From Coq Require Import List ZArith Bool.
From Verif Require Import ShaSpec.
Import ListNotations.
Open Scope nat_scope.

(** 3.1: the state array A[x,y,z]; it is stored as 25 lanes of 64 bits, lane (x,y) at 5y+x *)
Notation state := (list Z).
Definition bit (A : state) (x y z : nat) : bool := Z.testbit (nth (5 * y + x) A 0%Z) (Z.of_nat z).
Definition make (f : nat -> nat -> nat -> bool) : state :=
  map (fun k => word (fun z => f (k mod 5) (k / 5) (Z.to_nat z))) (seq 0 25).

(** (z - n) mod 64, for n <= 384 *)
Definition back (z n : nat) : nat := (z + 384 - n) mod 64.

(** 3.2.1 *)
Definition C_bit (A : state) (x z : nat) : bool :=
  xorb (bit A x 0 z) (xorb (bit A x 1 z) (xorb (bit A x 2 z) (xorb (bit A x 3 z) (bit A x 4 z)))).
Definition D_bit (A : state) (x z : nat) : bool := xorb (C_bit A ((x + 4) mod 5) z) (C_bit A ((x + 1) mod 5) (back z 1)).
Definition theta (A : state) : state := make (fun x y z => xorb (bit A x y z) (D_bit A x z)).
(** 3.2.2: the offset of lane (x,y): t-th lane of the walk has offset (t+1)(t+2)/2 *)
Fixpoint walk_offset (fuel t x y x' y' : nat) : nat :=
  match fuel with
  | O => 0
  | S f => if Nat.eqb x x' && Nat.eqb y y' then (t + 1) * (t + 2) / 2
           else walk_offset f (t + 1) y ((2 * x + 3 * y) mod 5) x' y'
  end.
Definition offset (x y : nat) : nat := walk_offset 24 0 1 0 x y.
Definition rho (A : state) : state := make (fun x y z => bit A x y (back z (offset x y))).
(** 3.2.3 *)
Definition pi (A : state) : state := make (fun x y z => bit A ((x + 3 * y) mod 5) x z).
(** 3.2.4 *)
Definition chi (A : state) : state :=
  make (fun x y z => xorb (bit A x y z) (andb (xorb (bit A ((x + 1) mod 5) y z) true) (bit A ((x + 2) mod 5) y z))).
(** 3.2.5, algorithm 5 *)
Definition rc_step (R : list bool) : list bool :=
  match false :: R with
  | [r0; r1; r2; r3; r4; r5; r6; r7; r8] => [xorb r0 r8; r1; r2; r3; xorb r4 r8; xorb r5 r8; xorb r6 r8; r7]
  | _ => []
  end.
Definition rc (t : nat) : bool :=
  if Nat.eqb (t mod 255) 0 then true
  else hd false (Nat.iter (t mod 255) rc_step [true; false; false; false; false; false; false; false]).
Definition RC_bit (ir z : nat) : bool := existsb (fun j => Nat.eqb z (2 ^ j - 1) && rc (j + 7 * ir)) (seq 0 7).
Definition iota (ir : nat) (A : state) : state :=
  make (fun x y z => if Nat.eqb x 0 && Nat.eqb y 0 then xorb (bit A x y z) (RC_bit ir z) else bit A x y z).
(** 3.3, 3.4: Keccak-f[1600] *)
Definition Rnd (A : state) (ir : nat) : state := iota ir (chi (pi (rho (theta A)))).
Definition Keccak_f (A : state) : state := fold_left Rnd (seq 0 24) A.

(** 3.1.2, 3.1.3 and 4: the sponge on bit strings *)
Definition state_of (S : list bool) : state := make (fun x y z => nth (64 * (5 * y + x) + z) S false).
Definition string_of (A : state) : list bool := flat_map (fun l => map (fun z => Z.testbit l (Z.of_nat z)) (seq 0 64)) A.
Definition f_string (S : list bool) : list bool := string_of (Keccak_f (state_of S)).
(** 5.1 *)
Definition pad10s1 (x m : nat) : list bool := [true] ++ repeat false ((x * (m + 2) - (m + 2)) mod x) ++ [true].
Definition xor_bits (a b : list bool) : list bool := map (fun p => xorb (fst p) (snd p)) (combine a b).
Fixpoint split_blocks (r n : nat) (P : list bool) : list (list bool) :=
  match n with O => [] | S n => firstn r P :: split_blocks r n (skipn r P) end.
Fixpoint squeeze_bits (fuel r d : nat) (S : list bool) : list bool :=
  match fuel with
  | O => []
  | S fuel => if Nat.leb d r then firstn d S
              else firstn r S ++ squeeze_bits fuel r (d - r) (f_string S)
  end.
Definition sponge (r : nat) (N : list bool) (d : nat) : list bool :=
  let P := N ++ pad10s1 r (length N) in
  let S := fold_left (fun S P => f_string (xor_bits S (P ++ repeat false (1600 - r)))) (split_blocks r (length P / r) P) (repeat false 1600) in
  squeeze_bits (d + 1) r d S.
(** B.1: bytes as bit strings *)
Definition bits_of (m : list Z) : list bool := flat_map (fun b => map (fun z => Z.testbit b (Z.of_nat z)) (seq 0 8)) m.
(** 6.1, 6.2 *)
Definition SHA3 (d : nat) (M : list bool) : list bool := sponge (1600 - 2 * d) (M ++ [false; true]) d.
Definition SHAKE (c d : nat) (M : list bool) : list bool := sponge (1600 - c) (M ++ [true; true; true; true]) d.
