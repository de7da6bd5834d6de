(** Model of the RSA verification functions of rsa.hpp, of mgf1 and of memxor over memory: the signature, the
    modulus and the exponent are views into the memory of the caller, the vectors and arrays of the functions are
    fresh blocks, and every byte is read and written through pointers (memory as in RawModel, the exponentiation of
    WholeModel).  The vector [bytes] that [rsavp1] returns is a block of the caller. *)
From Coq Require Import List ZArith Bool.
From Verif Require Import Outcome UtilsModel MgfModel RsaModel RawModel PowmRawModel WholeModel ContractModel.
Import ListNotations.
Open Scope Z_scope.

Notation at_ := RawModel.at_.

(** rsa.hpp:113-121: k bytes are left, from the indices i and j *)
Fixpoint less_w (k i j : nat) (m : memory) (s n : loc) : outcome bool :=
  match k with
  | O => Ok false
  | S k =>
      let* a := ld m s i in
      let* b := ld m n j in
      if a <? b then Ok true else if a >? b then Ok false else less_w k (S i) (S j) m s n
  end.
(** rsa.hpp:79-125 [is_s_valid]; the loops of 82-84 and 93-95 are the one of powm.h:790-791 *)
Definition valid_w (m : memory) (s : loc) (s_len : nat) (n : loc) (n_len : nat) : outcome bool :=
  let* sofs := zeros_w s_len 0 m s in
  if Nat.eqb sofs s_len then Ok true
  else
    let* nofs := zeros_w n_len 0 m n in
    if Nat.ltb sofs nofs then Ok true
    else if Nat.ltb (n_len - nofs) (s_len - sofs) then Ok false
    else if Nat.ltb (s_len - sofs) (n_len - nofs) then Ok true
    else less_w (s_len - sofs) sofs nofs m s n.
(** rsa.hpp:198-203 [rsavp1]: the contents of the vector, and the memory *)
Definition rsavp1_w (junk : nat -> nat -> Z) (m : memory) (sig : loc) (sig_len : nat) (exp : loc) (exp_len : nat) (mod_ : loc) (mod_len : nat) : outcome (list Z * memory) :=
  let* ok := valid_w m sig sig_len mod_ mod_len in
  if ok then powm_view_w junk m sig sig_len exp exp_len mod_ mod_len else Ok ([], m).
(** [memcmp(p, q, n) == 0]; all bytes are read *)
Definition memcmp_w (m : memory) (p q : loc) (n : nat) : outcome bool :=
  let* a := load_n m p 0 n in
  let* b := load_n m q 0 n in Ok (bytes_eqb a b).
(** rsa.hpp:250-256 [rsa_1_5_t_generator]; the prefix and the digest are arrays of their own *)
Definition gen_t_w (m : memory) (t : loc) (prefix digest : list Z) : outcome memory :=
  let '(m, p) := place m prefix in
  let* m := memcpy_r m t p (length prefix) in
  let '(m, hash) := place m digest in
  memcpy_r m (at_ t (length prefix)) hash (length digest).
(** rsa.hpp:214-245: the vector em holds em_len bytes *)
Definition pkcs1_check_w (jt : nat -> Z) (m : memory) (em : loc) (em_len : nat) (prefix digest : list Z) : outcome (bool * memory) :=
  let t_len := (length prefix + length digest)%nat in
  if Nat.ltb em_len (t_len + 11) then Ok (false, m)
  else
    let* b0 := ld m em 0 in
    let* b1 := ld m em 1 in
    if negb (b0 =? 0) || negb (b1 =? 1) then Ok (false, m)
    else
      let ps_len := (em_len - t_len - 3)%nat in
      let* b2 := ld m em 2 in
      let* bz := ld m em (2 + ps_len) in
      if negb (b2 =? 255) || negb (bz =? 0) then Ok (false, m)
      else
        let* eq_ := memcmp_w m (at_ em 3) (at_ em 2) (ps_len - 1) in
        if negb eq_ then Ok (false, m)
        else
          let '(m, t) := alloca m jt t_len in
          let* m := gen_t_w m t prefix digest in
          let* eq_ := memcmp_w m (at_ em (3 + ps_len)) t t_len in
          Ok (eq_, m).
(** rsa.hpp:206-245 [rsassa_pkcs1_v1_5_verify] with the generator of 250-256 *)
Definition pkcs1_w (junk : nat -> nat -> Z) (jt : nat -> Z) (m0 : memory) (sig : loc) (sig_len : nat) (exp : loc) (exp_len : nat) (mod_ : loc) (mod_len : nat) (prefix digest : list Z) : outcome (bool * memory) :=
  if negb (Nat.eqb sig_len mod_len) then Ok (false, m0)
  else
    let* r := rsavp1_w junk m0 sig sig_len exp exp_len mod_ mod_len in
    let '(m, em) := place (snd r) (fst r) in
    let* c := pkcs1_check_w jt m em (length (fst r)) prefix digest in
    Ok (fst c, leave m0 (snd c)).

(** ** memxor and mgf1 *)
(** utils.hpp:216-228: nb blocks of 16 bytes are left, from index i; the words are little-endian (193-199) *)
Fixpoint memxor_blocks_w (nb i : nat) (m : memory) (dst src : loc) : outcome memory :=
  match nb with
  | O => Ok m
  | S nb =>
      let* d := load_n m dst i 16 in
      let* s := load_n m src i 16 in
      match load_words 4 d, load_words 4 s with
      | Some x, Some y => let* m := store_n m dst i (concat (map word_le (map2 Z.lxor x y))) in memxor_blocks_w nb (16 + i) m dst src
      | _, _ => UB
      end
  end.
(** utils.hpp:231-233 *)
Fixpoint memxor_tail_w (k i : nat) (m : memory) (dst src : loc) : outcome memory :=
  match k with
  | O => Ok m
  | S k =>
      let* d := ld m dst i in
      let* s := ld m src i in
      let* m := st m dst i (Z.lxor d s) in memxor_tail_w k (S i) m dst src
  end.
(** utils.hpp:207-234 [memxor] *)
Definition memxor_w (m : memory) (dst : loc) (dst_len : nat) (src : loc) (src_len num : nat) : outcome memory :=
  let num := Nat.min (Nat.min num dst_len) src_len in
  let num_blocks := (num - num mod 16)%nat in
  let* m := memxor_blocks_w (num_blocks / 16) 0 m dst src in
  memxor_tail_w (num - num_blocks) num_blocks m dst src.

Section MGF.
(** the hash function: the bytes of the digest *)
Variable hash : list Z -> list Z.
(** mgf.hpp:28-46: the loop.  buf is the array of line 27, the mask is what is left of the span. *)
Fixpoint mgf1_loop_w (fuel : nat) (m : memory) (buf seed : loc) (seed_len : nat) (mask : loc) (mask_len : nat) (counter : Z) : outcome memory :=
  match mask_len with
  | O => Ok m
  | S _ =>
      match fuel with
      | O => NoFuel
      | S fuel =>
          let* m := memcpy_r m buf seed seed_len in
          let* m := store_n m buf seed_len (counter_bytes counter) in
          let* b := load_n m buf 0 (seed_len + 4) in
          let '(m, digest) := place m (hash b) in
          let copied := Nat.min (length (hash b)) mask_len in
          let* m := memxor_w m mask mask_len digest (length (hash b)) copied in
          mgf1_loop_w fuel m buf seed seed_len (at_ mask copied) (mask_len - copied) ((counter + 1) mod 2 ^ 32)
      end
  end.
(** mgf.hpp:19-47 [mgf1] with the copy function of rsa.hpp:315-317 *)
Definition mgf1_w (jb : nat -> Z) (m : memory) (seed : loc) (seed_len : nat) (mask : loc) (mask_len : nat) : outcome memory :=
  let '(m, buf) := alloca m jb (seed_len + 4) in
  mgf1_loop_w mask_len m buf seed seed_len mask mask_len 0.

(** ** PSS *)
Variable hlen : nat.
(** rsa.hpp:320-330: the zero bytes up to index i + k, then 0x01 *)
Fixpoint pss_padding_w (k i : nat) (m : memory) (em : loc) : outcome bool :=
  let* b := ld m em i in
  match k with
  | O => Ok (b =? 1)
  | S k => if b =? 0 then pss_padding_w k (S i) m em else Ok false
  end.
(** rsa.hpp:291-343: the vector em holds em_len bytes.  Spans outside of it are [UB].  size_t has 32 bits; the
    length of M' must not exceed them (338). *)
Definition pss_check_w (jb : nat -> Z) (m : memory) (em : loc) (em_len nlen : nat) (salt_len : option Z) (digest : list Z) : outcome (bool * memory) :=
  let H := Z.of_nat hlen in
  let slen := match salt_len with Some s => s | None => H end in
  if Z.of_nat em_len <? size32 (size32 (H + slen) + 2) then Ok (false, m)
  else
    let* last_ := (match em_len with O => UB | S k => ld m em k end) in
    if negb (last_ =? 188) then Ok (false, m)
    else
      let embits := size32 (size32 (Z.of_nat nlen * 8) - 1) in
      let top_bitmask := Z.shiftr 255 (size32 (size32 (Z.of_nat em_len * 8) - embits)) in
      let* e0 := ld m em 0 in
      if negb (Z.land e0 255 =? Z.land e0 top_bitmask) then Ok (false, m)
      else
        let dblen := Z.to_nat (size32 (Z.of_nat em_len - H - 1)) in
        if Nat.ltb em_len (dblen + hlen) then UB
        else
          let h := at_ em dblen in
          let* m := mgf1_w jb m h hlen em dblen in
          if Nat.eqb dblen 0 then UB
          else
            let* d0 := ld m em 0 in
            let* m := st m em 0 (Z.land d0 top_bitmask) in
            let idx := Z.to_nat (size32 (Z.of_nat em_len - H - slen - 2)) in
            let* ok := pss_padding_w idx 0 m em in
            if negb ok then Ok (false, m)
            else if Z.of_nat dblen <? slen then UB
            else if size32 (8 + H + slen) <? 8 + H + slen then UB
            else
              let '(m, mp) := place m (repeat 0 (8 + hlen + Z.to_nat slen)) in
              let '(m, d) := place m digest in
              let* m := memcpy_r m (at_ mp 8) d hlen in
              let* m := memcpy_r m (at_ mp (8 + hlen)) (at_ em (dblen - Z.to_nat slen)) (Z.to_nat slen) in
              let* v := load_n m mp 0 (8 + hlen + Z.to_nat slen) in
              let '(m, h2) := place m (hash v) in
              let* eq_ := memcmp_w m h h2 hlen in
              Ok (eq_, m).
(** rsa.hpp:273-343 [rsassa_pss_mgf1_verify] *)
Definition pss_w (junk : nat -> nat -> Z) (jb : nat -> Z) (m0 : memory) (sig : loc) (sig_len : nat) (exp : loc) (exp_len : nat) (mod_ : loc) (mod_len : nat) (salt_len : option Z) (digest : list Z) : outcome (bool * memory) :=
  if negb (Nat.eqb sig_len mod_len) then Ok (false, m0)
  else
    let* r := rsavp1_w junk m0 sig sig_len exp exp_len mod_ mod_len in
    let '(m, em) := place (snd r) (fst r) in
    let* c := pss_check_w jb m em (length (fst r)) mod_len salt_len digest in
    Ok (fst c, leave m0 (snd c)).
End MGF.

(** rsa.hpp:356-360, 386-390, 416-420, 446-450: the four hash types, each with its prefix (30-52) *)
Definition prefix_of (k : ContractModel.hash_kind) : list Z :=
  match k with ContractModel.SHA1 => sha1_prefix | ContractModel.SHA256 => sha256_prefix | ContractModel.SHA384 => sha384_prefix | ContractModel.SHA512 => sha512_prefix end.
(** rsa.hpp:356-360, 386-390, 416-420, 446-450: [verify_rsa_sha1] to [verify_rsa_sha512] *)
Definition verify_rsa_w (junk : nat -> nat -> Z) (jt : nat -> Z) (k : ContractModel.hash_kind) (m : memory) (sig : loc) (sig_len : nat) (exp : loc) (exp_len : nat) (mod_ : loc) (mod_len : nat) (digest : list Z) : outcome (bool * memory) :=
  pkcs1_w junk jt m sig sig_len exp exp_len mod_ mod_len (prefix_of k) digest.
