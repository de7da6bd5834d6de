(** What decoding a byte string gives (SEC1 2.3.4, with the departures of the code): the coordinates as integers. *)
From Coq Require Import List ZArith.
From Verif Require Import Outcome UtilsSpec WordsModel WordsSpec BigintModel BigintSpec FpModel EcCurveModel EcCurveSpec.
Import ListNotations.
Open Scope Z_scope.

(** the coordinates of a returned point *)
Definition coords (o : outcome (option (fe * fe))) : outcome (option (Z * Z)) :=
  match o with
  | Ok None => Ok None
  | Ok (Some (x, y)) => Ok (Some (value (fv x), value (fv y)))
  | Abort => Abort | UB => UB | NoFuel => NoFuel
  end.

(** n is the number of bytes of the field prime p: the length of a coordinate. *)
Inductive decodes (C : curve) (n : nat) : list Z -> outcome (option (Z * Z)) -> Prop :=
| D_empty : decodes C n [] Abort
| D_identity d : decodes C n (0 :: d) (Ok None)
| D_type t d : t = 1 \/ 4 < t -> decodes C n (t :: d) Abort
| D_compressed_length t d : t = 2 \/ t = 3 -> length d <> n -> decodes C n (t :: d) Abort
| D_compressed t d x y : t = 2 \/ t = 3 -> length d = n -> x = be_value d ->
    satisfies C x y -> 0 < y < value (cu_p C) -> Z.odd y = Z.odd t -> decodes C n (t :: d) (Ok (Some (x, y)))
| D_compressed_none t d : t = 2 \/ t = 3 -> length d = n ->
    (forall y, 0 < y < value (cu_p C) -> ~ satisfies C (be_value d) y) -> decodes C n (t :: d) (Ok None)
| D_uncompressed_length d : length d <> (2 * n)%nat -> decodes C n (4 :: d) Abort
| D_uncompressed dx dy : length dx = n -> length dy = n -> be_value dx < value (cu_p C) -> be_value dy < value (cu_p C) ->
    decodes C n (4 :: dx ++ dy) (Ok (Some (be_value dx, be_value dy)))
| D_uncompressed_range dx dy : length dx = n -> length dy = n -> value (cu_p C) <= be_value dx \/ value (cu_p C) <= be_value dy ->
    decodes C n (4 :: dx ++ dy) Abort.
