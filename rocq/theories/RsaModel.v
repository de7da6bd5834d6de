(** Model of rsa.hpp.  Byte strings are lists of [Z] in [0,256). *)
From Coq Require Import List ZArith Bool.
From Verif Require Import Outcome UtilsModel MgfModel.
Import ListNotations.
Open Scope Z_scope.

(** rsa.hpp:30-52: DigestInfo prefixes. *)
Definition sha1_prefix : list Z :=
  [48; 33; 48; 9; 6; 5; 43; 14; 3; 2; 26; 5; 0; 4; 20].
Definition sha256_prefix : list Z :=
  [48; 49; 48; 13; 6; 9; 96; 134; 72; 1; 101; 3; 4; 2; 1; 5; 0; 4; 32].
Definition sha384_prefix : list Z :=
  [48; 65; 48; 13; 6; 9; 96; 134; 72; 1; 101; 3; 4; 2; 2; 5; 0; 4; 48].
Definition sha512_prefix : list Z :=
  [48; 81; 48; 13; 6; 9; 96; 134; 72; 1; 101; 3; 4; 2; 3; 5; 0; 4; 64].

(** rsa.hpp:81-84, 92-95: number of leading zero bytes. *)
Fixpoint leading_zeros (l : list Z) : nat :=
  match l with
  | 0 :: t => S (leading_zeros t)
  | _ => O
  end.
(** rsa.hpp:113-121 *)
Fixpoint less_bytes (s n : list Z) : bool :=
  match s, n with
  | a :: s', b :: n' => if a <? b then true else if a >? b then false else less_bytes s' n'
  | _, _ => false
  end.
(** rsa.hpp:79-125 [is_s_valid]. *)
Definition is_s_valid (s n : list Z) : bool :=
  let sofs := leading_zeros s in
  if Nat.eqb sofs (length s) then true
  else
    let nofs := leading_zeros n in
    if Nat.ltb sofs nofs then true
    else if Nat.ltb (length n - nofs) (length s - sofs) then false
    else if Nat.ltb (length s - sofs) (length n - nofs) then true
    else less_bytes (skipn sofs s) (skipn nofs n).

(** n elements from index i on; outside the array: UB *)
Definition slice (l : list Z) (i n : nat) : outcome (list Z) :=
  if Nat.leb (i + n) (length l) then Ok (firstn n (skipn i l)) else UB.
Definition at_ (l : list Z) (i : nat) : outcome Z :=
  match nth_error l i with Some b => Ok b | None => UB end.
(** [memcmp(...) == 0] *)
Fixpoint bytes_eqb (a b : list Z) : bool :=
  match a, b with
  | [], [] => true
  | x :: a', y :: b' => (x =? y) && bytes_eqb a' b'
  | _, _ => false
  end.

Section RSA.
(** The exponentiation primitive called on lines 158 / 160-168: [Ok (Some r)] is success with the
    result bytes written to the front of the output, [Ok None] a non-zero return code (the output
    buffer then stays zero), [Abort] the failed check of line 161. *)
Variable mod_exp : list Z -> list Z -> list Z -> outcome (option (list Z)).

(** rsa.hpp:141-171 and 181-196 [powm]. *)
Definition powm (base exponent modulus : list Z) : outcome (list Z) :=
  let* _ := check (if Nat.ltb 8 (length exponent)
                   then forallb (fun b => b =? 0) (firstn (length exponent - 8) exponent) else true) in
  let* _ := check (negb (Nat.eqb (length base) 0) && negb (Nat.eqb (length modulus) 0) &&
                   negb (Nat.eqb (length exponent) 0)) in
  let* _ := check (Nat.eqb (length base) (length modulus)) in
  let* r := mod_exp base exponent modulus in
  Ok (match r with Some out => out | None => repeat 0 (length modulus) end).

(** rsa.hpp:198-203 [rsavp1]. *)
Definition rsavp1 (modulus exponent signature : list Z) : outcome (list Z) :=
  if is_s_valid signature modulus then powm signature exponent modulus else Ok [].

(** rsa.hpp:206-245 [rsassa_pkcs1_v1_5_verify]: the part after [rsavp1]; [t] is what [gen_t] writes. *)
Definition pkcs1_check (em t : list Z) : outcome bool :=
  let t_len := length t in
  if Nat.ltb (length em) (t_len + 11) then Ok false
  else
    let* b0 := at_ em 0 in
    let* b1 := at_ em 1 in
    if negb (b0 =? 0) || negb (b1 =? 1) then Ok false
    else
      let ps_len := (length em - t_len - 3)%nat in
      let* b2 := at_ em 2 in
      let* bz := at_ em (2 + ps_len) in
      if negb (b2 =? 255) || negb (bz =? 0) then Ok false
      else
        let* p := slice em 3 (ps_len - 1) in
        let* q := slice em 2 (ps_len - 1) in
        if negb (bytes_eqb p q) then Ok false
        else
          let* u := slice em (3 + ps_len) t_len in
          Ok (bytes_eqb u t).
Definition rsassa_pkcs1_v1_5_verify (modulus exponent signature t : list Z) : outcome bool :=
  if negb (Nat.eqb (length signature) (length modulus)) then Ok false
  else
    let* em := rsavp1 modulus exponent signature in pkcs1_check em t.

(** rsa.hpp:250-256 [rsa_1_5_t_generator] and 356-448: the four hash types. *)
Definition verify_rsa_sha1 m e digest sig := rsassa_pkcs1_v1_5_verify m e sig (sha1_prefix ++ digest).
Definition verify_rsa_sha256 m e digest sig := rsassa_pkcs1_v1_5_verify m e sig (sha256_prefix ++ digest).
Definition verify_rsa_sha384 m e digest sig := rsassa_pkcs1_v1_5_verify m e sig (sha384_prefix ++ digest).
Definition verify_rsa_sha512 m e digest sig := rsassa_pkcs1_v1_5_verify m e sig (sha512_prefix ++ digest).

(** size_t is 32 bits wide on wasm *)
Definition size32 (x : Z) : Z := x mod 2 ^ 32.
Definition zlen (l : list Z) : Z := Z.of_nat (length l).

(** rsa.hpp:320-330: the zero bytes up to index [idx], then 0x01.  Reading past the end is UB. *)
Fixpoint pss_padding (em : list Z) (idx : nat) : outcome bool :=
  match em with
  | [] => UB
  | b :: t =>
      match idx with
      | O => Ok (b =? 1)
      | S idx' => if b =? 0 then pss_padding t idx' else Ok false
      end
  end.

Section PSS.
Variable hash : list Z -> list Z.
Variable hlen : nat.

(** rsa.hpp:291-343: EMSA-PSS-VERIFY on [em]; [nlen] is the modulus length. *)
Definition pss_check (nlen : nat) (salt_len : option Z) (digest em : list Z) : outcome bool :=
  let H := Z.of_nat hlen in
  let slen := match salt_len with Some s => s | None => H end in
  if zlen em <? size32 (size32 (H + slen) + 2) then Ok false
  else
    let* last_ := (match rev em with b :: _ => Ok b | [] => UB end) in
    if negb (last_ =? 188) then Ok false
    else
      let embits := size32 (size32 (Z.of_nat nlen * 8) - 1) in
      let top_bitmask := Z.shiftr 255 (size32 (size32 (zlen em * 8) - embits)) in
      let* e0 := at_ em 0 in
      if negb (Z.land e0 255 =? Z.land e0 top_bitmask) then Ok false
      else
        let dblen := Z.to_nat (size32 (zlen em - H - 1)) in
        let* db := slice em 0 dblen in
        let* h := slice em dblen hlen in
        let* db := mgf1 hash copy_xor h db in
        match db with
        | [] => UB
        | d0 :: dt =>
            let db := Z.land d0 top_bitmask :: dt in
            let em := db ++ skipn dblen em in
            let idx := Z.to_nat (size32 (zlen em - H - slen - 2)) in
            let* ok := pss_padding em idx in
            if negb ok then Ok false
            else
              let* salt := (if zlen db <? slen then UB else Ok (skipn (length db - Z.to_nat slen) db)) in
              let mlen := size32 (8 + H + slen) in
              if (mlen <? 8 + H + slen) then UB
              else
                let h2 := hash (repeat 0 8 ++ digest ++ salt) in
                Ok (bytes_eqb h h2)
        end.

(** rsa.hpp:273-343 [rsassa_pss_mgf1_verify]. *)
Definition rsassa_pss_mgf1_verify (modulus exponent : list Z) (salt_len : option Z) (digest signature : list Z)
  : outcome bool :=
  if negb (Nat.eqb (length signature) (length modulus)) then Ok false
  else
    let* em := rsavp1 modulus exponent signature in pss_check (length modulus) salt_len digest em.
End PSS.
End RSA.
