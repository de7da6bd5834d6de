(** SHA-384 as in FIPS 180-4, written without reference to the code. *)
From Coq Require Import List ZArith.
From Verif Require Import RsaSpec.
Import ListNotations.
Open Scope Z_scope.

(** ** words as bit strings *)
(** the 64-bit word with the given bits *)
Fixpoint of_bits (n : nat) (f : Z -> bool) : Z :=
  match n with
  | O => 0
  | S k => of_bits k f + (if f (Z.of_nat k) then 2 ^ Z.of_nat k else 0)
  end.
Definition word (f : Z -> bool) : Z := of_bits 64 f.
(** 3.2: rotation right, shift right, addition modulo 2^64 *)
Definition rotr (n x : Z) : Z := word (fun i => Z.testbit x ((i + n) mod 64)).
Definition shr (n x : Z) : Z := word (fun i => if i + n <? 64 then Z.testbit x (i + n) else false).
Definition add (a b : Z) : Z := (a + b) mod 2 ^ 64.
Definition xor3 (x y z : Z) : Z := word (fun i => xorb (Z.testbit x i) (xorb (Z.testbit y i) (Z.testbit z i))).
(** 4.1.3: choice and majority *)
Definition ch (x y z : Z) : Z := word (fun i => if Z.testbit x i then Z.testbit y i else Z.testbit z i).
Definition maj (x y z : Z) : Z :=
  word (fun i => if Z.testbit x i then (if Z.testbit y i then true else Z.testbit z i)
                 else (if Z.testbit y i then Z.testbit z i else false)).
Definition Sigma0 x := xor3 (rotr 28 x) (rotr 34 x) (rotr 39 x).
Definition Sigma1 x := xor3 (rotr 14 x) (rotr 18 x) (rotr 41 x).
Definition sigma0 x := xor3 (rotr 1 x) (rotr 8 x) (shr 7 x).
Definition sigma1 x := xor3 (rotr 19 x) (rotr 61 x) (shr 6 x).

(** ** constants *)
(** the first 80 primes *)
Definition is_prime_b (n : nat) : bool :=
  Nat.leb 2 n && forallb (fun d => negb (Nat.eqb (n mod d) 0)) (seq 2 (n - 2)).
Definition primes : list Z := map Z.of_nat (filter is_prime_b (seq 0 410)).
(** 4.2.3: first 64 bits of the fractional part of the cube root of p *)
Definition cube_root_bits (p k : Z) : Prop :=
  exists r, r ^ 3 <= p * 2 ^ 192 < (r + 1) ^ 3 /\ 0 <= r /\ k = r mod 2 ^ 64.
(** 5.3.4: first 64 bits of the fractional part of the square root of p *)
Definition square_root_bits (p k : Z) : Prop :=
  exists r, r ^ 2 <= p * 2 ^ 128 < (r + 1) ^ 2 /\ 0 <= r /\ k = r mod 2 ^ 64.
(** K: the cube roots of the first 80 primes; H0: the square roots of the 9th to 16th *)
Definition round_constants (K : list Z) : Prop := Forall2 cube_root_bits primes K.
Definition initial_value (H : list Z) : Prop := Forall2 square_root_bits (firstn 8 (skipn 8 primes)) H.

(** ** hash computation *)
(** 5.1.2: 0x80, the least number of zero bytes, the 128-bit bit length *)
Definition pad (m : list Z) : list Z :=
  m ++ [128] ++ repeat 0 (Z.to_nat ((- (Z.of_nat (length m) + 17)) mod 128)) ++ I2OSP (8 * Z.of_nat (length m)) 16.
Fixpoint chunks (k : nat) (n : nat) (l : list Z) : list (list Z) :=
  match n with
  | O => []
  | S n => firstn k l :: chunks k n (skipn k l)
  end.
(** the message schedule of 6.4.2 step 1 *)
Definition extend (W : list Z) : list Z :=
  let t := length W in
  W ++ [add (add (add (sigma1 (nth (t - 2) W 0)) (nth (t - 7) W 0)) (sigma0 (nth (t - 15) W 0))) (nth (t - 16) W 0)].
Definition schedule (block : list Z) : list Z := Nat.iter 64 extend (map OS2IP (chunks 8 16 block)).
(** step 3 *)
Definition round (s : list Z) (kw : Z * Z) : list Z :=
  match s with
  | [a; b; c; d; e; f; g; h] =>
      let T1 := add (add (add (add h (Sigma1 e)) (ch e f g)) (fst kw)) (snd kw) in
      let T2 := add (Sigma0 a) (maj a b c) in
      [add T1 T2; a; b; c; add d T1; e; f; g]
  | _ => []
  end.
(** steps 2-4 *)
Definition compress (K : list Z) (H block : list Z) : list Z :=
  map (fun p => add (fst p) (snd p)) (combine H (fold_left round (combine K (schedule block)) H)).
(** 6.5: the leftmost 384 bits *)
Definition SHA384 (K H0 m : list Z) : list Z :=
  let p := pad m in
  firstn 48 (flat_map (fun w => I2OSP w 8) (fold_left (compress K) (chunks 128 (length p / 128) p) H0)).
