(** Model of rsa_gen_key_prop and powm with their heap: which blocks are requested, that a request may
    fail, and what is freed.  The contents of the blocks are computed by the functions of PowmModel. *)
From Coq Require Import List ZArith Bool.
From Verif Require Import Outcome WordsModel RsaModel PowmModel.
Import ListNotations.
Open Scope Z_scope.

(** a pointer to a block; [None] is NULL *)
Definition ptr := option nat.
(** powm.h:84-92 [struct key_prop] (exp_len is never read) *)
Record prop_s := mkp { s_rr : ptr; s_modulus : ptr; s_exponent : ptr; s_n0inv : Z; s_num_bits : nat }.
(** a block contains the struct or an array (of words or of bytes) *)
Inductive block := Struct (p : prop_s) | Array (l : list Z).
(** [h_next] numbers the requests; the live blocks are known by the number of the request *)
Record heap := mkheap { h_next : nat; h_live : list (nat * block) }.

Section ALLOC.
(** which requests fail, and the contents of a block from malloc *)
Variable fails : nat -> bool.
Variable junk : nat -> nat -> Z.

Definition alloc (h : heap) (b : block) : ptr * heap :=
  if fails (h_next h) then (None, mkheap (S (h_next h)) (h_live h))
  else (Some (h_next h), mkheap (S (h_next h)) ((h_next h, b) :: h_live h)).
(** malloc and calloc of an array of n elements *)
Definition malloc (h : heap) (n : nat) : ptr * heap := alloc h (Array (map (junk (h_next h)) (seq 0 n))).
Definition calloc (h : heap) (n : nat) : ptr * heap := alloc h (Array (repeat 0 n)).

Fixpoint find (k : nat) (l : list (nat * block)) : option block :=
  match l with
  | [] => None
  | (i, b) :: l => if Nat.eqb i k then Some b else find k l
  end.
(** free: nothing for NULL, [UB] for anything but a live block *)
Definition free (h : heap) (p : ptr) : outcome heap :=
  match p with
  | None => Ok h
  | Some k =>
      match find k (h_live h) with
      | Some _ => Ok (mkheap (h_next h) (filter (fun e => negb (Nat.eqb (fst e) k)) (h_live h)))
      | None => UB
      end
  end.
(** access through a pointer: [UB] if it is NULL or the block has been freed *)
Definition get (h : heap) (p : ptr) : outcome block :=
  match p with
  | None => UB
  | Some k => match find k (h_live h) with Some b => Ok b | None => UB end
  end.
Definition get_array (h : heap) (p : ptr) : outcome (list Z) :=
  let* b := get h p in match b with Array l => Ok l | Struct _ => UB end.
Definition get_struct (h : heap) (p : ptr) : outcome prop_s :=
  let* b := get h p in match b with Struct s => Ok s | Array _ => UB end.
Definition set_block (h : heap) (p : ptr) (b : block) : outcome heap :=
  match p with
  | None => UB
  | Some k => Ok (mkheap (h_next h) (map (fun e => if Nat.eqb (fst e) k then (k, b) else e) (h_live h)))
  end.
(** overwriting an array by one of the same length *)
Definition set_array (h : heap) (p : ptr) (l : list Z) : outcome heap :=
  let* old := get_array h p in
  if Nat.eqb (length old) (length l) then set_block h p (Array l) else UB.
Definition set_struct (h : heap) (p : ptr) (s : prop_s) : outcome heap :=
  let* _ := get_struct h p in set_block h p (Struct s).

(** powm.h:745-755 [rsa_free_key_prop] *)
Definition rsa_free_key_prop (h : heap) (prop : ptr) : outcome heap :=
  match prop with
  | None => Ok h
  | Some _ =>
      let* s := get_struct h prop in
      let* h := free h (s_modulus s) in
      let* h := free h (s_exponent s) in
      let* h := free h (s_rr s) in
      free h prop
  end.

(** powm.h:847-855: the label [out]; the result is the return code ([false] is -ENOMEM), the value of *prop, the heap *)
Definition out (h : heap) (n rr rrtmp prop : ptr) (ret : bool) : outcome (bool * ptr * heap) :=
  let* h := free h n in
  let* h := free h rr in
  let* h := free h rrtmp in
  let* h := (if ret then Ok h else rsa_free_key_prop h prop) in
  Ok (ret, prop, h).
(** an array of the BearSSL format: the header word and the words *)
Definition as_i32 (l : list Z) : outcome (Z * list Z) :=
  match l with [] => UB | w :: l => Ok (w, l) end.
(** powm.h:770-855 [rsa_gen_key_prop] *)
Definition rsa_gen_key_prop_h (h : heap) (mod_ exp : list Z) : outcome (bool * ptr * heap) :=
  let '(prop, h) := alloc h (Struct (mkp None None None 0 0)) in
  match prop with
  | None => out h None None None prop false
  | Some _ =>
      let modulus := skipn (leading_zeros mod_) mod_ in
      let num_bits := (length modulus * 8)%nat in
      let '(pm, h) := malloc h (length modulus) in
      let* s := get_struct h prop in
      let* h := set_struct h prop (mkp (s_rr s) pm (s_exponent s) (s_n0inv s) num_bits) in
      match pm with
      | None => out h None None None prop false
      | Some _ =>
          let* h := set_array h pm modulus in
          (* num_bits * 2 overflows an int from 2^27 bytes on *)
          if 2 ^ 27 <=? zlen modulus then UB else
          let '(n, h) := calloc h (1 + num_bits / 32) in
          let '(rr, h) := calloc h (1 + num_bits * 2 / 32) in
          let '(rrtmp, h) := calloc h (2 + num_bits * 2 / 32) in
          match n, rr, rrtmp with
          | Some _, Some _, Some _ =>
              let '(pe, h) := calloc h 8 in
              let* s := get_struct h prop in
              let* h := set_struct h prop (mkp (s_rr s) (s_modulus s) pe (s_n0inv s) (s_num_bits s)) in
              match pe with
              | None => out h n rr rrtmp prop false
              | Some _ =>
                  if Nat.ltb 8 (length exp) then UB
                  else
                    let* old := get_array h pe in
                    let* h := set_array h pe (firstn (8 - length exp) old ++ exp) in
                    (* n0 inverse *)
                    let* nl := get_array h n in
                    let* nx := as_i32 nl in
                    let* nd := br_i32_decode (snd nx) modulus (length modulus) in
                    let* h := set_array h n (fst nd :: snd nd) in
                    let* n1 := at_ (snd nd) 0 in
                    let* s := get_struct h prop in
                    let* h := set_struct h prop (mkp (s_rr s) (s_modulus s) (s_exponent s) (br_i32_ninv32 n1) (s_num_bits s)) in
                    (* R^2 mod n *)
                    let rlen := (num_bits * 2)%nat in
                    let* rl := get_array h rr in
                    if Nat.ltb (length rl) ((rlen + 31) / 32 + 1) then UB
                    else
                      let* tl_ := get_array h rrtmp in
                      let* tx := as_i32 tl_ in
                      let* t := br_i32_decode (snd tx) ([1; 0; 0; 0] ++ repeat 0 (4 * (length rl - 1))) ((rlen + 7) / 8 + 1) in
                      let* h := set_array h rrtmp (fst t :: snd t) in
                      let* r := br_i32_reduce (repeat 0 (length rl - 1)) t nd in
                      let* h := set_array h rr (fst r :: snd r) in
                      let rlen := ((num_bits + 7) / 8)%nat in
                      let '(pr, h) := malloc h rlen in
                      let* s := get_struct h prop in
                      let* h := set_struct h prop (mkp pr (s_modulus s) (s_exponent s) (s_n0inv s) (s_num_bits s)) in
                      match pr with
                      | None => out h n rr rrtmp prop false
                      | Some _ =>
                          let* e := br_i32_encode rlen r in
                          let* h := set_array h pr e in
                          out h n rr rrtmp prop true
                      end
              end
          | _, _, _ => out h n rr rrtmp prop false
          end
      end
  end.

(** powm.h:1087-1143 [rsa_mod_exp_sw]: reads the struct and its three arrays; NULL tests at 1091, 1099 and 1104 *)
Definition rsa_mod_exp_sw_h (h : heap) (sig : list Z) (prop : ptr) : outcome (option (list Z)) :=
  match prop with
  | None => Ok None
  | Some _ =>
      let* s := get_struct h prop in
      let* e := (match s_exponent s with None => Ok (repeat 0 5 ++ [1; 0; 1]) | Some _ => get_array h (s_exponent s) end) in
      if Nat.eqb (s_num_bits s) 0 then Ok None
      else
        match s_modulus s, s_rr s with
        | Some _, Some _ =>
            let* m := get_array h (s_modulus s) in
            let* r := get_array h (s_rr s) in
            rsa_mod_exp_sw sig (mkprop r m e (s_n0inv s) (s_num_bits s))
        | _, _ => Ok None
        end
  end.
(** rsa.hpp:160-168: the software branch of [powm]; a failed check ends the transaction *)
Definition mod_exp_h (h : heap) (base exponent modulus : list Z) : outcome (option (list Z) * heap) :=
  let* r := rsa_gen_key_prop_h h modulus exponent in
  let '(ret, prop, h) := r in
  let* _ := check ret in
  let* res := rsa_mod_exp_sw_h h base prop in
  let* h := rsa_free_key_prop h prop in
  Ok (res, h).
End ALLOC.
