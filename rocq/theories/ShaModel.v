(** Model of sha.hpp.  Bytes are [Z] in [0,256), uint64_t is [Z] in [0,2^64). *)
From Coq Require Import List ZArith Bool.
From Verif Require Import Outcome RsaModel.
Import ListNotations.
Open Scope Z_scope.

(** sha.hpp:33-42 [sha384_initial_hash_values] *)
Definition sha384_initial : list Z :=
  [0xcbbb9d5dc1059ed8; 0x629a292a367cd507; 0x9159015a3070dd17; 0x152fecd8f70e5939;
   0x67332667ffc00b31; 0x8eb44a8768581511; 0xdb0c2e0d64f98fa7; 0x47b5481dbefa4fa4].
(** sha.hpp:44-65 [K_512] *)
Definition K_512 : list Z :=
  [0x428a2f98d728ae22; 0x7137449123ef65cd; 0xb5c0fbcfec4d3b2f; 0xe9b5dba58189dbbc;
   0x3956c25bf348b538; 0x59f111f1b605d019; 0x923f82a4af194f9b; 0xab1c5ed5da6d8118;
   0xd807aa98a3030242; 0x12835b0145706fbe; 0x243185be4ee4b28c; 0x550c7dc3d5ffb4e2;
   0x72be5d74f27b896f; 0x80deb1fe3b1696b1; 0x9bdc06a725c71235; 0xc19bf174cf692694;
   0xe49b69c19ef14ad2; 0xefbe4786384f25e3; 0x0fc19dc68b8cd5b5; 0x240ca1cc77ac9c65;
   0x2de92c6f592b0275; 0x4a7484aa6ea6e483; 0x5cb0a9dcbd41fbd4; 0x76f988da831153b5;
   0x983e5152ee66dfab; 0xa831c66d2db43210; 0xb00327c898fb213f; 0xbf597fc7beef0ee4;
   0xc6e00bf33da88fc2; 0xd5a79147930aa725; 0x06ca6351e003826f; 0x142929670a0e6e70;
   0x27b70a8546d22ffc; 0x2e1b21385c26c926; 0x4d2c6dfc5ac42aed; 0x53380d139d95b3df;
   0x650a73548baf63de; 0x766a0abb3c77b2a8; 0x81c2c92e47edaee6; 0x92722c851482353b;
   0xa2bfe8a14cf10364; 0xa81a664bbc423001; 0xc24b8b70d0f89791; 0xc76c51a30654be30;
   0xd192e819d6ef5218; 0xd69906245565a910; 0xf40e35855771202a; 0x106aa07032bbd1b8;
   0x19a4c116b8d2d0c8; 0x1e376c085141ab53; 0x2748774cdf8eeb99; 0x34b0bcb5e19b48a8;
   0x391c0cb3c5c95a63; 0x4ed8aa4ae3418acb; 0x5b9cca4f7763e373; 0x682e6ff3d6b2b8a3;
   0x748f82ee5defb2fc; 0x78a5636f43172f60; 0x84c87814a1f0ab72; 0x8cc702081a6439ec;
   0x90befffa23631e28; 0xa4506cebde82bde9; 0xbef9a3f7b2c67915; 0xc67178f2e372532b;
   0xca273eceea26619c; 0xd186b8c721c0c207; 0xeada7dd6cde0eb1e; 0xf57d4f7fee6ed178;
   0x06f067aa72176fba; 0x0a637dc5a2c898a6; 0x113f9804bef90dae; 0x1b710b35131c471b;
   0x28db77f523047d84; 0x32caab7b40c72493; 0x3c9ebe0a15c9bebc; 0x431d67c49c100d4c;
   0x4cc5d4becb3e42b6; 0x597f299cfc657e2a; 0x5fcb6fab3ad6faec; 0x6c44198c4a475817].

(** uint64_t arithmetic *)
Definition add64 (a b : Z) : Z := (a + b) mod 2 ^ 64.
Definition shl64 (a n : Z) : Z := Z.shiftl a n mod 2 ^ 64.
Definition not64 (a : Z) : Z := 2 ^ 64 - 1 - a.

(** sha.hpp:67-77 [write_u64le] (big-endian, in spite of its name): the eight bytes. *)
Definition u64_bytes (x : Z) : list Z :=
  map (fun s => Z.land (Z.shiftr x s) 255) [56; 48; 40; 32; 24; 16; 8; 0].

(** sha.hpp:79-87 [read_u32be]; 89-94 [read_u64be]. *)
Definition read_u32be (src : list Z) (o : nat) : outcome Z :=
  let* b0 := at_ src o in
  let* b1 := at_ src (o + 1) in
  let* b2 := at_ src (o + 2) in
  let* b3 := at_ src (o + 3) in
  Ok (Z.lor (Z.lor (Z.lor (Z.shiftl b0 24) (Z.shiftl b1 16)) (Z.shiftl b2 8)) b3 mod 2 ^ 32).
Definition read_u64be (src : list Z) (o : nat) : outcome Z :=
  let* upper := read_u32be src o in
  let* lower := read_u32be src (o + 4) in
  Ok (Z.lor (shl64 (Z.land upper 0xffffffff) 32) (Z.land lower 0xffffffff)).

(** sha.hpp:96-102 [ROTR]; [-n & 63] on uint64_t. *)
Definition ROTR (x n : Z) : Z := Z.lor (Z.shiftr x n) (shl64 x (Z.land ((- n) mod 2 ^ 64) 63)).
(** sha.hpp:105-136 *)
Definition Ch (x y z : Z) : Z := Z.lxor (Z.land x y) (Z.land (not64 x) z).
Definition Maj (x y z : Z) : Z := Z.lxor (Z.lxor (Z.land x y) (Z.land x z)) (Z.land y z).
Definition SIG0 (x : Z) : Z := Z.lxor (Z.lxor (ROTR x 28) (ROTR x 34)) (ROTR x 39).
Definition SIG1 (x : Z) : Z := Z.lxor (Z.lxor (ROTR x 14) (ROTR x 18)) (ROTR x 41).
Definition sig0 (x : Z) : Z := Z.lxor (Z.lxor (ROTR x 1) (ROTR x 8)) (Z.shiftr x 7).
Definition sig1 (x : Z) : Z := Z.lxor (Z.lxor (ROTR x 19) (ROTR x 61)) (Z.shiftr x 6).

(** [a[k] = v] on an array *)
Definition put (a : list Z) (k : nat) (v : Z) : outcome (list Z) :=
  if Nat.ltb k (length a) then Ok (firstn k a ++ v :: skipn (k + 1) a) else UB.

(** a counted loop over the given indices *)
Fixpoint for_each {A} (f : nat -> A -> outcome A) (l : list nat) (a : A) : outcome A :=
  match l with
  | [] => Ok a
  | t :: l => let* a := f t a in for_each f l a
  end.
(** the two loops unrolled 16 times: [t = from, from+16, ..., 64] *)
Definition unrolled (from : nat) : list nat :=
  flat_map (fun t => map (fun j => (t + j)%nat) (seq 0 16)) (filter (fun t => Nat.leb from t) [0; 16; 32; 48; 64]%nat).

(** sha.hpp:138-141 [sha512_prepare]. *)
Definition sha512_prepare (t : nat) (W : list Z) : outcome (list Z) :=
  let* a := at_ W (t - 7) in
  let* b := at_ W (t - 16) in
  let* c := at_ W (t - 15) in
  let* d := at_ W (t - 2) in
  put W t (add64 (add64 (add64 a b) (sig0 c)) (sig1 d)).

(** the working variables a..h *)
Record vars := mkvars { va : Z; vb : Z; vc : Z; vd : Z; ve : Z; vf : Z; vg : Z; vh : Z }.
(** sha.hpp:181-193 [round]. *)
Definition sha512_round (W : list Z) (t : nat) (s : vars) : outcome vars :=
  let* w := at_ W t in
  let* k := at_ K_512 t in
  let T1 := add64 (add64 (add64 (add64 (Ch (ve s) (vf s) (vg s)) w) k) (vh s)) (SIG1 (ve s)) in
  let T2 := add64 (Maj (va s) (vb s) (vc s)) (SIG0 (va s)) in
  Ok (mkvars (add64 T1 T2) (va s) (vb s) (vc s) (add64 (vd s) T1) (ve s) (vf s) (vg s)).

(** sha.hpp:152-214 [sha512_compress]: [o] is the offset of the block in [data]; [H] has eight words. *)
Definition sha512_compress (data : list Z) (o : nat) (H : vars) : outcome vars :=
  let* W := for_each (fun t W => let* x := read_u64be data (o + t * 8) in put W t x) (seq 0 16) (repeat 0 80) in
  let* W := for_each sha512_prepare (unrolled 16) W in
  let* s := for_each (sha512_round W) (unrolled 0) H in
  Ok (mkvars (add64 (va H) (va s)) (add64 (vb H) (vb s)) (add64 (vc H) (vc s)) (add64 (vd H) (vd s))
             (add64 (ve H) (ve s)) (add64 (vf H) (vf s)) (add64 (vg H) (vg s)) (add64 (vh H) (vh s))).

(** sha.hpp:224-228: whole blocks; [pos] and [size] as [data] and [size] of the code. *)
Fixpoint whole_blocks (fuel : nat) (data : list Z) (pos size : nat) (H : vars) : outcome (nat * nat * vars) :=
  if Nat.leb 128 size then
    match fuel with
    | O => NoFuel
    | S fuel => let* H := sha512_compress data pos H in whole_blocks fuel data (pos + 128) (size - 128) H
    end
  else Ok (pos, size, H).

(** [while (i < n) block[i++] = 0] *)
Definition zero_to (i n : nat) (block : list Z) : outcome (list Z) :=
  for_each (fun k b => put b k 0) (seq i (n - i)) block.
Definition write_u64 (x : Z) (o : nat) (block : list Z) : outcome (list Z) :=
  for_each (fun k b => put b (o + k) (nth k (u64_bytes x) 0)) (seq 0 8) block.

(** sha.hpp:218-262 [sha512_compute].  [junk] is the indeterminate contents of the local array
    [block] (128 bytes).  [size] is [length data], a uint64_t. *)
Definition sha512_compute (junk : list Z) (init : list Z) (data : list Z) : outcome (list Z) :=
  let size := Z.of_nat (length data) in
  let bit_length_low := shl64 size 3 in
  let bit_length_high := Z.shiftr size (64 - 3) in
  match init with
  | [h0; h1; h2; h3; h4; h5; h6; h7] =>
      let* r := whole_blocks (length data) data 0 (length data) (mkvars h0 h1 h2 h3 h4 h5 h6 h7) in
      let '(pos, size, H) := r in
      let* tail := slice data pos size in
      let block := tail ++ skipn size junk in
      let* block := put block size 0x80 in
      let i := (size + 1)%nat in
      let* r := (if Nat.ltb (128 - 16) i then
                   let* block := zero_to i 128 block in
                   let* H := sha512_compress block 0 H in
                   Ok (0%nat, block, H)
                 else Ok (i, block, H)) in
      let '(i, block, H) := r in
      let* block := zero_to i (128 - 16) block in
      let* block := write_u64 bit_length_high 112 block in
      let* block := write_u64 bit_length_low (112 + 8) block in
      let* H := sha512_compress block 0 H in
      Ok (flat_map u64_bytes [va H; vb H; vc H; vd H; ve H; vf H; vg H; vh H])
  | _ => UB
  end.

(** sha.hpp:144-150 [truncate], 273-279 [sha384]. *)
Definition sha384 (junk data : list Z) : outcome (list Z) :=
  let* h := sha512_compute junk sha384_initial data in slice h 0 48.
