(** Numbers and points from hexadecimal text, and the text of a number: bigint.hpp:1192-1213, 1292-1299 and
    ec.hpp:1556-1599. *)
From Coq Require Import ZArith List Bool.
From Verif Require Import Outcome UtilsModel WordsModel BigintModel NumModel FpModel EcModel EcCurveModel.
Import ListNotations.
Open Scope Z_scope.

(** bigint.hpp:1198-1201: from a string view *)
Definition of_hex (c : cap) (s : list Z) : outcome bigint := let* d := from_hex s in of_bytes c d.
(** bigint.hpp:1209-1213: from a literal; [s] is the characters before the terminating NUL.  (NamedModel has the same for
    Coq strings.) *)
Definition of_literal (c : cap) (s : list Z) : outcome bigint := let* d := from_hex_literal s in of_bytes c d.
(** ec.hpp:1580-1583: the generator multiplied by a number in hex, for the three classes of points *)
Definition generate_hex (c : cap) (C : curve) (s : list Z) : outcome (option (fe * fe)) := let* x := of_hex c s in generate_point c C x.
Definition generate_hex_proj (c : cap) (C : curve) (s : list Z) : outcome (option (fe * fe * fe)) := let* x := of_hex c s in generate_point_proj c C x.
Definition generate_hex_jac (c : cap) (C : curve) (s : list Z) : outcome (option (fe * fe * fe)) := let* x := of_hex c s in generate_point_jac c C x.
(** ec.hpp:1595-1599: a literal of N characters becomes a view of N characters, so the terminating NUL is part of the text *)
Definition generate_literal (c : cap) (C : curve) (s : list Z) : outcome (option (fe * fe)) := generate_hex c C (s ++ [0]).
Definition generate_literal_proj (c : cap) (C : curve) (s : list Z) : outcome (option (fe * fe * fe)) := generate_hex_proj c C (s ++ [0]).
Definition generate_literal_jac (c : cap) (C : curve) (s : list Z) : outcome (option (fe * fe * fe)) := generate_hex_jac c C (s ++ [0]).
(** bigint.hpp:1292-1299 [print]: the characters written.  [eosio::printhex] writes two lower-case digits per byte. *)
Definition nibble_char (d : Z) : Z := if d <? 10 then 48 + d else 87 + d.
Definition printhex (l : list Z) : list Z := flat_map (fun b => [nibble_char (b / 16); nibble_char (b mod 16)]) l.
Definition print_text (x : bigint) : list Z := (if is_negative x then [45] else []) ++ printhex (to_bytes x).
