(** Model of utils.hpp (hex decoding, memxor), types.hpp (byte-view streams),
    span_ext.hpp and public_key.hpp (equality).
    Bytes are [Z] in [0,256); characters are [Z] (their code). *)
From Coq Require Import List ZArith Bool.
From Verif Require Import Outcome.
Import ListNotations.
Open Scope Z_scope.

(** utils.hpp:95-104 [from_hex(char)]. *)
Definition from_hex_char (c : Z) : outcome Z :=
  if (48 <=? c) && (c <=? 57) then Ok (c - 48)
  else if (97 <=? c) && (c <=? 102) then Ok (c - 97 + 10)
  else if (65 <=? c) && (c <=? 70) then Ok (c - 65 + 10)
  else Abort.

(** utils.hpp:115-118: one trailing NUL is removed ([hex_str_len--]). *)
Definition strip_nul (s : list Z) : list Z :=
  match rev s with
  | 0 :: t => rev t
  | _ => s
  end.

(** utils.hpp:120-122 and 113 (empty string): size query, [(hex_str_len+1)/2]. *)
Definition from_hex_size (s : list Z) : nat :=
  match s with
  | [] => O
  | _ => ((length (strip_nul s) + 1) / 2)%nat
  end.

(** utils.hpp:137-145: the main loop; [room] is [out_end - out_pos].  Returns the bytes written
    by the loop.  [byte_t(from_hex(c) << 4)] is [16*d mod 256]; [|=] with the second nibble. *)
Fixpoint from_hex_loop (s : list Z) (room : nat) {struct s} : outcome (list Z) :=
  match s, room with
  | [], _ => Ok []
  | _ :: _, O => Ok []
  | [c], S _ =>
      let* h := from_hex_char c in Ok [(16 * h) mod 256]
  | c :: d :: t, S room' =>
      let* h := from_hex_char c in
      let* l := from_hex_char d in
      let* r := from_hex_loop t room' in
      Ok (Z.lor ((16 * h) mod 256) l :: r)
  end.

(** utils.hpp:106-147 [from_hex(hex_str,len,out,out_len)] for a non-null [out] of [out_len] bytes,
    [out_len > 0].  Returns the bytes written from the start of [out] (their number is the return
    value of the C++ function). *)
Definition from_hex_into (s : list Z) (out_len : nat) : outcome (list Z) :=
  match s with
  | [] => Ok []
  | _ =>
    let t := strip_nul s in
    let* _ := check (Nat.leb ((length t + 1) / 2) out_len) in
    if Nat.odd (length t) then
      match t with
      | [] => UB (* length 0 is even: unreachable *)
      | c :: t' =>
          let* b := from_hex_char c in
          let* r := from_hex_loop t' (out_len - 1) in
          Ok (b :: r)
      end
    else from_hex_loop t out_len
  end.

(** utils.hpp:157-161 [bytes from_hex(hex_str,len)].  When the size query gives 0 the second call
    has [out_data_len == 0] and again returns the size 0 (line 120), so the result is empty. *)
Definition from_hex (s : list Z) : outcome (list Z) :=
  match from_hex_size s with
  | O => Ok []
  | n =>
    let* r := from_hex_into s n in
    let* _ := check (Nat.eqb (length r) n) in
    Ok r
  end.

(** utils.hpp:171-182 [from_hex<N>(string_view)] : zero-filled array of N bytes, left-aligned.
    For [N = 0] the inner call has [out_data_len == 0] and returns the size (line 120). *)
Definition from_hex_fixed (N : nat) (s : list Z) : outcome (list Z) :=
  match s with
  | [] => Ok (repeat 0 N)
  | _ =>
    let dsize := from_hex_size s in
    let* _ := check (Nat.leb dsize N) in
    match N with
    | O => Ok []
    | _ =>
      let* r := from_hex_into s N in
      let* _ := check (Nat.eqb (length r) dsize) in
      Ok (r ++ repeat 0 (N - length r))
    end
  end.

(** utils.hpp:184-187 [from_hex(const char (&)[M])] : drops the terminating NUL, [dsize = M/2].
    [s] is the M-1 characters before it. *)
Definition from_hex_literal (s : list Z) : outcome (list Z) :=
  from_hex_fixed ((length s + 1) / 2) s.

(** ** memxor *)

(** utils.hpp:193-199 [typecastcpy_bytes]: memcpy of 4 native (little-endian, as on wasm) words. *)
Definition le_word (b0 b1 b2 b3 : Z) : Z := b0 + 256 * b1 + 65536 * b2 + 16777216 * b3.
Definition word_le (w : Z) : list Z :=
  [w mod 256; (w / 256) mod 256; (w / 65536) mod 256; (w / 16777216) mod 256].
Fixpoint load_words (n : nat) (l : list Z) : option (list Z) :=
  match n, l with
  | O, _ => Some []
  | S n', b0 :: b1 :: b2 :: b3 :: t =>
      match load_words n' t with
      | Some ws => Some (le_word b0 b1 b2 b3 :: ws)
      | None => None
      end
  | S _, _ => None
  end.

Fixpoint map2 {A B C} (f : A -> B -> C) (l1 : list A) (l2 : list B) : list C :=
  match l1, l2 with
  | a :: t1, b :: t2 => f a b :: map2 f t1 t2
  | _, _ => []
  end.

(** utils.hpp:216-228: block loop over [nb] blocks of 16 bytes; a load past the end is UB.
    [dst] and [src] are the parts from the current offset on. *)
Fixpoint memxor_blocks (nb : nat) (dst src : list Z) : outcome (list Z) :=
  match nb with
  | O => Ok []
  | S nb' =>
      match load_words 4 dst, load_words 4 src with
      | Some x, Some y =>
          let* r := memxor_blocks nb' (skipn 16 dst) (skipn 16 src) in
          Ok (concat (map word_le (map2 Z.lxor x y)) ++ r)
      | _, _ => UB
      end
  end.

(** utils.hpp:231-233: tail loop, [k] remaining bytes. *)
Fixpoint memxor_tail (k : nat) (dst src : list Z) : outcome (list Z) :=
  match k with
  | O => Ok dst
  | S k' =>
      match dst, src with
      | d :: dst', s :: src' =>
          let* r := memxor_tail k' dst' src' in Ok (Z.lxor d s :: r)
      | _, _ => UB
      end
  end.

(** utils.hpp:207-234 [memxor]; returns the new contents of [dst]. *)
Definition memxor (dst src : list Z) (num : nat) : outcome (list Z) :=
  let num := Nat.min (Nat.min num (length dst)) (length src) in
  let num_blocks := (num - num mod 16)%nat in
  let* b := memxor_blocks (num_blocks / 16) dst src in
  let* t := memxor_tail (num - num_blocks) (skipn num_blocks dst) (skipn num_blocks src) in
  Ok (b ++ t).

(** ** byte-view streams (types.hpp:36-53)
    [eosio::unsigned_int] (external) is the LEB128 varuint32 of the EOSIO serialiser.  *)
Fixpoint varuint_write (fuel : nat) (v : Z) : list Z :=
  match fuel with
  | O => []
  | S f => if v <? 128 then [v] else (v mod 128 + 128) :: varuint_write f (v / 128)
  end.

(** A varuint32 has at most 5 bytes; a longer one, or the end of the stream, aborts
    (external behaviour of [datastream::get]). *)
Fixpoint varuint_read (fuel : nat) (s : list Z) : outcome (Z * list Z) :=
  match fuel, s with
  | O, _ => Abort
  | S _, [] => Abort
  | S f, b :: t =>
      if b <? 128 then Ok (b, t)
      else
        let* vr := varuint_read f t in
        let '(v, r) := vr in
        Ok ((b - 128) + 128 * v, r)
  end.

(** types.hpp:37-42 [operator<<].  [unsigned_int] holds 32 bits: the size is taken mod 2^32. *)
Definition write_view (stream data : list Z) : list Z :=
  stream ++ varuint_write 5 (Z.of_nat (length data) mod 2 ^ 32) ++ data.

(** types.hpp:44-53 [operator>>].  The view is built from the current position and the declared
    length before [ds.skip].  [skip_checked] says whether the external [datastream::skip] checks the
    bound; without the check a view running past the end is handed out: [UB]. *)
Definition read_view (skip_checked : bool) (s : list Z) : outcome (list Z * list Z) :=
  let* vr := varuint_read 5 s in
  let '(n, r) := vr in
  let n := Z.to_nat (n mod 2 ^ 32) in
  if Nat.leb n (length r) then Ok (firstn n r, skipn n r)
  else if skip_checked then Abort else UB.

Fixpoint write_views (stream : list Z) (ds : list (list Z)) : list Z :=
  match ds with
  | [] => stream
  | d :: t => write_views (write_view stream d) t
  end.

Fixpoint read_views (skip_checked : bool) (n : nat) (s : list Z) : outcome (list (list Z) * list Z) :=
  match n with
  | O => Ok ([], s)
  | S n' =>
      let* dr := read_view skip_checked s in
      let '(d, r) := dr in
      let* dsr := read_views skip_checked n' r in
      let '(ds, r') := dsr in
      Ok (d :: ds, r')
  end.

(** types.hpp:55-63 vector [operator+]; types.hpp:65-70 [operator+=]. *)
Definition bytes_plus (a b : list Z) : list Z := fold_left (fun c x => c ++ [x]) b (fold_left (fun c x => c ++ [x]) a []).

(** ** equality *)

(** span_ext.hpp:12-21 [operator==] on spans; a span is (address, contents): two spans with the
    same address view the same memory, so the shorter one is a prefix of the longer. *)
Fixpoint std_equal (l r : list Z) : bool :=
  match l, r with
  | [], [] => true
  | a :: l', b :: r' => (a =? b) && std_equal l' r'
  | _, _ => false
  end.
Record span := { sp_addr : Z; sp_data : list Z }.
Definition span_eqb (l r : span) : bool :=
  if sp_addr l =? sp_addr r then Nat.eqb (length (sp_data l)) (length (sp_data r))
  else std_equal (sp_data l) (sp_data r).

(** public_key.hpp:55-129: key views and their equality. *)
Record rsa_key := { k_mod : span; k_exp : span }.
Record rsa_pss_key := { pk_mod : span; pk_exp : span; pk_salt : option Z }.
Definition rsa_key_eqb (l r : rsa_key) : bool :=
  span_eqb (k_exp l) (k_exp r) && span_eqb (k_mod l) (k_mod r).
Definition opt_eqb (a b : option Z) : bool :=
  match a, b with Some x, Some y => x =? y | None, None => true | _, _ => false end.
Definition rsa_pss_key_eqb (l r : rsa_pss_key) : bool :=
  span_eqb (pk_exp l) (pk_exp r) && span_eqb (pk_mod l) (pk_mod r) && opt_eqb (pk_salt l) (pk_salt r).
