(** Independent specification of the byte utilities. *)
From Coq Require Import List ZArith Bool.
Import ListNotations.
Open Scope Z_scope.

Definition is_byte (b : Z) : Prop := 0 <= b < 256.
Definition all_bytes (l : list Z) : Prop := Forall is_byte l.

(** Hexadecimal digits: [hex_digit c d] says character [c] prints the nibble [d]. *)
Inductive hex_digit : Z -> Z -> Prop :=
| hex_dec d : 0 <= d < 10 -> hex_digit (48 + d) d
| hex_lower d : 10 <= d < 16 -> hex_digit (97 + (d - 10)) d
| hex_upper d : 10 <= d < 16 -> hex_digit (65 + (d - 10)) d.

(** [hex_text s b]: the character string [s] is a hexadecimal printing of bytes [b]
    (any mix of cases, two digits per byte). *)
Inductive hex_text : list Z -> list Z -> Prop :=
| hex_nil : hex_text [] []
| hex_cons c d h l s b :
    hex_digit c h -> hex_digit d l -> hex_text s b ->
    hex_text (c :: d :: s) (16 * h + l :: b).

(** Strings with an odd number of digits: the first digit stands alone. *)
Inductive hex_text_odd : list Z -> list Z -> Prop :=
| hex_odd c h s b : hex_digit c h -> hex_text s b -> hex_text_odd (c :: s) (h :: b).

Definition is_hex_char (c : Z) : Prop := exists d, hex_digit c d.

(** Pointwise description of memxor. *)
Definition memxor_result (dst src : list Z) (num : nat) (out : list Z) : Prop :=
  length out = length dst /\
  forall i, (i < length dst)%nat ->
    nth i out 0 =
      if Nat.ltb i (Nat.min num (length src)) then Z.lxor (nth i dst 0) (nth i src 0)
      else nth i dst 0.
