(** RFC 8017 in a few definitions. *)
From Coq Require Import List ZArith Bool.
From Verif Require Import UtilsSpec.
Import ListNotations.
Open Scope Z_scope.

(** 4.1, 4.2: integers and octet strings. *)
Definition OS2IP (l : list Z) : Z := fold_left (fun a b => 256 * a + b) l 0.
Fixpoint I2OSP (x : Z) (n : nat) : list Z :=
  match n with
  | O => []
  | S n' => I2OSP (x / 256) n' ++ [x mod 256]
  end.

(** B.2.1: MGF1. *)
Definition ceil_div (a b : nat) : nat := ((a + b - 1) / b)%nat.
Definition MGF1 (hash : list Z -> list Z) (hlen : nat) (seed : list Z) (len : nat) : list Z :=
  firstn len (concat (map (fun c => hash (seed ++ I2OSP (Z.of_nat c) 4)) (seq 0 (ceil_div len hlen)))).

Definition xor_bytes (a b : list Z) : list Z := map (fun p => Z.lxor (fst p) (snd p)) (combine a b).

(** 9.2 with A.2.4: DigestInfo in DER.  Lengths below 128 only. *)
Definition der (tag : Z) (contents : list Z) : list Z := tag :: Z.of_nat (length contents) :: contents.
Fixpoint base128 (fuel : nat) (v : Z) (more : bool) : list Z :=
  match fuel with
  | O => []
  | S f => (if v <? 128 then [] else base128 f (v / 128) true) ++ [v mod 128 + (if more then 128 else 0)]
  end.
Definition oid (arcs : list Z) : list Z :=
  match arcs with
  | a :: b :: t => der 6 (flat_map (fun v => base128 5 v false) (40 * a + b :: t))
  | _ => []
  end.
Definition digest_info (arcs digest : list Z) : list Z :=
  der 48 (der 48 (oid arcs ++ der 5 []) ++ der 4 digest).
Definition oid_sha1 := [1; 3; 14; 3; 2; 26].
Definition oid_sha256 := [2; 16; 840; 1; 101; 3; 4; 2; 1].
Definition oid_sha384 := [2; 16; 840; 1; 101; 3; 4; 2; 2].
Definition oid_sha512 := [2; 16; 840; 1; 101; 3; 4; 2; 3].

(** 9.2: the encoded message; defined for emLen >= |T| + 11. *)
Definition emsa_pkcs1 (T : list Z) (emLen : nat) : list Z :=
  [0; 1] ++ repeat 255 (emLen - length T - 3) ++ [0] ++ T.
(** 8.2.2 *)
Definition rsassa_pkcs1_valid (n e : Z) (k : nat) (T sig : list Z) : Prop :=
  length sig = k /\ OS2IP sig < n /\ (length T + 11 <= k)%nat /\
  I2OSP (OS2IP sig ^ e mod n) k = emsa_pkcs1 T k.

(** 9.1.2 EMSA-PSS-VERIFY. *)
Definition clear_top (bits : Z) (l : list Z) : list Z :=
  match l with b :: t => b mod 2 ^ (8 - bits) :: t | [] => [] end.
Definition emsa_pss_consistent (hash : list Z -> list Z) (hlen slen : nat) (mhash em : list Z) (embits : Z) : Prop :=
  let emlen := length em in
  let unused := 8 * Z.of_nat emlen - embits in
  (hlen + slen + 2 <= emlen)%nat /\
  exists maskedDB H, em = maskedDB ++ H ++ [188] /\ length H = hlen /\
    hd 0 maskedDB < 2 ^ (8 - unused) /\
    exists salt, length salt = slen /\
      clear_top unused (xor_bytes maskedDB (MGF1 hash hlen H (emlen - hlen - 1))) =
        repeat 0 (emlen - hlen - slen - 2) ++ [1] ++ salt /\
      hash (repeat 0 8 ++ mhash ++ salt) = H.
(** 8.1.2 *)
Definition rsassa_pss_valid (hash : list Z -> list Z) (hlen slen : nat) (n e : Z) (k : nat) (mhash sig : list Z) : Prop :=
  length sig = k /\ OS2IP sig < n /\
  let m := OS2IP sig ^ e mod n in
  let embits := Z.log2 n in
  let emlen := Z.to_nat ((embits + 7) / 8) in
  m < 256 ^ Z.of_nat emlen /\ emsa_pss_consistent hash hlen slen mhash (I2OSP m emlen) embits.

(** the modulus bytes have no leading zero *)
Definition no_leading_zero (l : list Z) : Prop := match l with b :: _ => 0 < b | [] => False end.

(** the exponentiation primitive computes base^e mod n for reduced bases of the modulus' length *)
From Verif Require Import Outcome.
Definition exact_for (mod_exp : list Z -> list Z -> list Z -> outcome (option (list Z))) (modulus exponent : list Z) : Prop :=
  forall base, all_bytes base -> length base = length modulus -> OS2IP base < OS2IP modulus ->
    mod_exp base exponent modulus = Ok (Some (I2OSP (OS2IP base ^ OS2IP exponent mod OS2IP modulus) (length modulus))).
