(** Model of keccak.hpp.  [U] (unsigned long long) is [Z] in [0,2^64), [C] (byte_t) is [Z] in [0,256);
    loop counters and indices are [nat]. *)
From Coq Require Import List ZArith Bool.
From Verif Require Import Outcome RsaModel ShaModel.
Import ListNotations.
Open Scope Z_scope.

(** keccak.hpp:19, 32, 37, 40, 66, 72: the operations ^ and & on U *)
Definition xor64 (a b : Z) : Z := Z.lxor a b.
Definition and64 (a b : Z) : Z := Z.land a b.

(** keccak.hpp:18-20 [rot]; a shift by 64 is UB. *)
Definition rotl (a n : Z) : Z := xor64 (shl64 a n) (Z.shiftr a (64 - n)).
Definition rot (a n : Z) : outcome Z := if (0 <? n) && (n <? 64) then Ok (rotl a n) else UB.

(** [s[k] ^= v] *)
Definition xor_at (s : list Z) (k : nat) (v : Z) : outcome (list Z) :=
  let* a := at_ s k in put s k (xor64 a v).

(** keccak.hpp:29-34: column parities *)
Definition parities (s B : list Z) : outcome (list Z) :=
  for_each (fun i B =>
    let* B := put B i 0 in
    for_each (fun j B => let* a := at_ s (i + 5 * j) in xor_at B i a) (seq 0 5) B) (seq 0 5) B.
(** keccak.hpp:36-42 *)
Definition theta_step (s B : list Z) : outcome (list Z) :=
  for_each (fun i s =>
    let* b4 := at_ B ((i + 4) mod 5) in
    let* b1 := at_ B ((i + 1) mod 5) in
    let* r1 := rot b1 1 in
    let t := xor64 b4 r1 in
    for_each (fun j s => xor_at s (i + 5 * j) t) (seq 0 5) s) (seq 0 5) s.

(** keccak.hpp:44-58: the walk over the lanes; [x], [y], [r] are bytes *)
Record walk := mkwalk { wx : nat; wy : nat; wr : nat; wt : Z; ws : list Z }.
Definition rho_pi_step (s : list Z) : outcome (list Z) :=
  let* t := at_ s 1 in
  let* w := for_each (fun j w =>
    let r := ((wr w + (j + 1)) mod 256)%nat in
    let Y := (2 * wx w + 3 * wy w)%nat in
    let x := wy w in
    let y := (Y mod 5)%nat in
    let* Y := at_ (ws w) (x + 5 * y) in
    let* v := rot (wt w) (Z.of_nat (r mod 64)) in
    let* s := put (ws w) (x + 5 * y) v in
    Ok (mkwalk x y r Y s)) (seq 0 24) (mkwalk 1 0 0 t s) in
  Ok (ws w).

(** keccak.hpp:60-68 *)
Definition chi_step (s B : list Z) : outcome (list Z * list Z) :=
  for_each (fun j sB =>
    let* B := for_each (fun i B => let* a := at_ (fst sB) (i + 5 * j) in put B i a) (seq 0 5) (snd sB) in
    let* s := for_each (fun i s =>
      let* b0 := at_ B i in
      let* b1 := at_ B ((i + 1) mod 5) in
      let* b2 := at_ B ((i + 2) mod 5) in
      put s (i + 5 * j) (xor64 b0 (and64 (not64 b1) b2))) (seq 0 5) (fst sB) in
    Ok (s, B)) (seq 0 5) (s, B).

(** keccak.hpp:71: the byte R *)
Definition next_R (R : Z) : Z := Z.lxor (Z.shiftl R 1) (113 * Z.shiftr R 7) mod 256.
(** keccak.hpp:70-74 *)
Definition iota_step (s : list Z) (R : Z) : outcome (list Z * Z) :=
  for_each (fun j sR =>
    let R := next_R (snd sR) in
    if negb (Z.land R 2 =? 0) then
      let* s := xor_at (fst sR) 0 (Z.shiftl 1 (2 ^ Z.of_nat j - 1)) in Ok (s, R)
    else Ok (fst sR, R)) (seq 0 7) (s, R).

(** keccak.hpp:28-75: one round; [B] persists between rounds *)
Definition round_step (sBR : list Z * list Z * Z) : outcome (list Z * list Z * Z) :=
  let '(s, B, R) := sBR in
  let* B := parities s B in
  let* s := theta_step s B in
  let* s := rho_pi_step s in
  let* r := chi_step s B in
  let '(s, B) := r in
  let* r := iota_step s R in
  let '(s, R) := r in
  Ok (s, B, R).
(** keccak.hpp:22-76 [F]. *)
Definition F (s : list Z) : outcome (list Z) :=
  let* r := for_each (fun _ st => round_step st) (seq 0 24) (s, repeat 0 5, 1) in
  Ok (fst (fst r)).

(** keccak.hpp:85-87, 101-103: xor [r] bytes of [m] from offset [o] into the state *)
Definition absorb (r : nat) (m : list Z) (o : nat) (s : list Z) : outcome (list Z) :=
  for_each (fun i s => let* b := at_ m (o + i) in xor_at s (i / 8) (shl64 b (Z.of_nat (i mod 8 * 8)))) (seq 0 r) s.
(** keccak.hpp:84-92 *)
Fixpoint absorb_blocks (fuel r : nat) (m : list Z) (o n : nat) (s : list Z) : outcome (nat * nat * list Z) :=
  if Nat.leb r n then
    match fuel with
    | O => NoFuel
    | S fuel =>
        let* s := absorb r m o s in
        let* s := F s in
        absorb_blocks fuel r m (o + r) (n - r) s
    end
  else Ok (o, n, s).
(** keccak.hpp:105-111: [h] is the output array *)
Definition squeeze (r d : nat) (s h : list Z) : outcome (list Z) :=
  let* sh := for_each (fun i sh =>
    let* s := (if Nat.eqb (i mod r) 0 then F (fst sh) else Ok (fst sh)) in
    let* w := at_ s (i mod r / 8) in
    let* h := put (snd sh) i (Z.shiftr w (8 * Z.of_nat (i mod 8)) mod 256) in
    Ok (s, h)) (seq 0 d) (s, h) in
  Ok (snd sh).
(** keccak.hpp:79-112 [keccak<r,p>]: [junk] is the output array, of [d] bytes, as passed in. *)
Definition keccak (r : nat) (p : Z) (m : list Z) (junk : list Z) : outcome (list Z) :=
  let* a := absorb_blocks (length m) r m 0 (length m) (repeat 0 25) in
  let '(o, n, s) := a in
  let* t := for_each (fun i t => let* b := at_ m (o + i) in put t i b) (seq 0 n) (repeat 0 200) in
  let* t := put t n p in
  let* b := at_ t (r - 1) in
  let* t := put t (r - 1) (Z.lor b 128) in
  let* s := absorb r t 0 s in
  squeeze r (length junk) s junk.

(** keccak.hpp:123-260: the wrappers *)
Definition sha3_256 (junk m : list Z) := keccak (17 * 8) 6 m junk.   (* junk: 32 bytes *)
Definition sha3_384 (junk m : list Z) := keccak (13 * 8) 6 m junk.   (* 48 bytes *)
Definition sha3_512 (junk m : list Z) := keccak (9 * 8) 6 m junk.    (* 64 bytes *)
Definition shake128 (junk m : list Z) := keccak (21 * 8) 31 m junk.  (* hash_len bytes *)
Definition shake256 (junk m : list Z) := keccak (17 * 8) 31 m junk.
