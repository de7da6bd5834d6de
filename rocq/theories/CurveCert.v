(** Checking that n G is the point at infinity and that x^3 + a x + b has no root, modulo a number p that is
    not yet known to be prime; soundness: then p is prime and n kills every point of the curve. *)
From Coq Require Import List ZArith Znumtheory Zpow_facts Bool Lia Uint63 Field.
From Verif Require Import Residues Legendre Pocklington Limbs PrimeCert EcGroup EcGroupProofs ZpField EcSpec EcScalar GroupOrder.
Import ListNotations.
Open Scope Z_scope.

Notation num := (list int).
Fixpoint bump_rest (l : num) : num :=
  match l with [] => [] | [x] => [(x - 2)%uint63] | x :: l => (x + 536870910)%uint63 :: bump_rest l end.
(** the same number with limbs large enough to subtract from *)
Definition bump (l : num) : num := match l with [] => [] | x :: l => (x + 536870912)%uint63 :: bump_rest l end.
Definition curve_mod (k : nat) (p : Z) (inv : int) : modulus := mkmod (limbs k p) inv (bump (limbs k (32 * p))).
(** doubling and addition of an affine point in Jacobian coordinates, without any test *)
Definition jdbl (m : modulus) (A X Y Z : num) : option (num * num * num) :=
  YY <-- mulm m Y Y; XX <-- mulm m X X; ZZ <-- mulm m Z Z; Z4 <-- mulm m ZZ ZZ; AZ <-- mulm m A Z4;
  X2 <-- addm XX XX; X3 <-- addm X2 XX; M <-- addm X3 AZ;
  S1 <-- mulm m X YY; S2 <-- addm S1 S1; S4 <-- addm S2 S2; S8 <-- addm S4 S4;
  MM <-- mulm m M M; X' <-- subm m MM S8; S12 <-- addm S8 S4; D <-- subm m S12 MM; MD <-- mulm m M D;
  Y1 <-- mulm m YY YY; Y2 <-- addm Y1 Y1; Y4 <-- addm Y2 Y2; Y8 <-- addm Y4 Y4; Y' <-- subm m MD Y8;
  YZ <-- mulm m Y Z; Z' <-- addm YZ YZ; Some (X', Y', Z').
Definition jadd (m : modulus) (GX GY X Y Z : num) : option (num * num * num) :=
  ZZ <-- mulm m Z Z; U <-- mulm m GX ZZ; H <-- subm m X U; ZZZ <-- mulm m Z ZZ; S1 <-- mulm m GY ZZZ; R <-- subm m Y S1;
  HH <-- mulm m H H; HHH <-- mulm m H HH; W <-- mulm m X HH; R2 <-- mulm m R R; T1 <-- addm R2 HHH; W2 <-- addm W W; W3 <-- addm W2 W;
  X' <-- subm m T1 W2; D <-- subm m W3 T1; E1 <-- mulm m R D; E2 <-- mulm m Y HHH; Y' <-- subm m E1 E2; Z' <-- mulm m Z H; Some (X', Y', Z').
(** digits -1, 0, 1, most significant first, after a leading 1 *)
Definition sgn (d : Z) : Z := if d =? 0 then 0 else if d =? 1 then 1 else -1.
Definition digits_value (l : list Z) : Z := fold_left (fun k d => 2 * k + sgn d) l 1.
Fixpoint ladder (m : modulus) (A GX GY GN : num) (ds : list Z) (P : num * num * num) : option (num * num * num) :=
  match ds with
  | [] => Some P
  | d :: ds =>
      let '(X, Y, Z) := P in
      Q <-- jdbl m A X Y Z;
      let '(X, Y, Z) := Q in
      R <-- (if d =? 0 then Some Q else if d =? 1 then jadd m GX GY X Y Z else jadd m GX GN X Y Z);
      ladder m A GX GY GN ds R
  end.
Definition is_zero (m : modulus) (a : num) : bool := V a mod V (m_p m) =? 0.
(** the last point of the ladder is the opposite of G *)
Definition check_ladder (m : modulus) (a gx gy n : Z) (ds : list Z) (zw : Z) : bool :=
  let GX := inject m gx in let GN := inject m (- gy) in
  (digits_value ds =? n - 1) &&
  match ladder m (inject m a) GX (inject m gy) GN ds (GX, inject m gy, inject m 1) with
  | Some (X, Y, Z) =>
      ((V Z * zw) mod V (m_p m) =? 1) &&
      match (ZZ <-- mulm m Z Z; U <-- mulm m GX ZZ; subm m X U), (ZZ <-- mulm m Z Z; W <-- mulm m Z ZZ; U <-- mulm m GN W; subm m Y U) with
      | Some d, Some e => is_zero m d && is_zero m e
      | _, _ => false
      end
  | None => false
  end.
(** powers of x modulo x^3 + a x + b *)
Definition psqr (m : modulus) (A B c0 c1 c2 : num) : option (num * num * num) :=
  D0 <-- mulm m c0 c0; P01 <-- mulm m c0 c1; D1 <-- addm P01 P01; P02 <-- mulm m c0 c2; Q02 <-- addm P02 P02; P11 <-- mulm m c1 c1; D2 <-- addm Q02 P11;
  P12 <-- mulm m c1 c2; D3 <-- addm P12 P12; D4 <-- mulm m c2 c2;
  B3 <-- mulm m B D3; E0 <-- subm m D0 B3; A3 <-- mulm m A D3; F1 <-- subm m D1 A3; B4 <-- mulm m B D4; E1 <-- subm m F1 B4; A4 <-- mulm m A D4; E2 <-- subm m D2 A4;
  Some (E0, E1, E2).
Definition pmulx (m : modulus) (A B ZERO c0 c1 c2 : num) : option (num * num * num) :=
  B2 <-- mulm m B c2; E0 <-- subm m ZERO B2; A2 <-- mulm m A c2; E1 <-- subm m c0 A2; Some (E0, E1, c1).
Fixpoint ppow (m : modulus) (A B ZERO ONE : num) (e : positive) : option (num * num * num) :=
  match e with
  | xH => Some (ZERO, ONE, ZERO)
  | xO e => P <-- ppow m A B ZERO ONE e; let '(c0, c1, c2) := P in psqr m A B c0 c1 c2
  | xI e => P <-- ppow m A B ZERO ONE e; let '(c0, c1, c2) := P in Q <-- psqr m A B c0 c1 c2; let '(c0, c1, c2) := Q in pmulx m A B ZERO c0 c1 c2
  end.
Definition coefs (m : modulus) (A B ONE U0 U1 V0 V1 V2 H0 H1 H2 : num) : option (num * num * num * num * num) :=
  a0 <-- mulm m U0 B; b0 <-- mulm m V0 H0; s0 <-- addm a0 b0; K0 <-- subm m s0 ONE;
  a1 <-- mulm m U0 A; b1 <-- mulm m U1 B; e1 <-- mulm m V0 H1; d1 <-- mulm m V1 H0; s1 <-- addm a1 b1; t1 <-- addm e1 d1; K1 <-- addm s1 t1;
  a2 <-- mulm m U1 A; b2 <-- mulm m V0 H2; c2 <-- mulm m V1 H1; d2 <-- mulm m V2 H0; s2 <-- addm a2 b2; t2 <-- addm c2 d2; K2 <-- addm s2 t2;
  b3 <-- mulm m V1 H2; c3 <-- mulm m V2 H1; s3 <-- addm U0 b3; K3 <-- addm s3 c3;
  b4 <-- mulm m V2 H2; K4 <-- addm U1 b4; Some (K0, K1, K2, K3, K4).
(** x^3 + a x + b and x^p - x are coprime: u (x^3 + a x + b) + v (x^p - x) = 1 *)
Definition check_root_free (m : modulus) (a b p : Z) (uv : list num) : bool :=
  let A := inject m a in let B := inject m b in let ONE := inject m 1 in
  match uv, ppow m A B (inject m 0) ONE (Z.to_pos p) with
  | [U0; U1; V0; V1; V2], Some (H0, G1, H2) =>
      forallb (fun l => (length l =? length (m_p m))%nat && below 268435456%uint63 l) uv &&
      match (H1 <-- subm m G1 ONE; coefs m A B ONE U0 U1 V0 V1 V2 H0 H1 H2) with
      | Some (K0, K1, K2, K3, K4) => is_zero m K0 && is_zero m K1 && is_zero m K2 && is_zero m K3 && is_zero m K4
      | None => false
      end
  | _, _ => false
  end.
(** the certificate that n kills a point: number of limbs, inverse of the low limb, digits of n - 1, witnesses of the
    invertibility of the last Z and of the discriminant *)
Record cert := mkcert { ct_k : nat; ct_inv : int; ct_digits : list Z; ct_zw : Z; ct_dw : Z }.
Definition check_order (p a b gx gy n : Z) (c : cert) : bool :=
  let m := curve_mod (ct_k c) p (ct_inv c) in
  mod_ok m && (V (m_p m) =? p) && (4 * p <? (n - 1) * (n - 1)) &&
  (((4 * a * a * a + 27 * b * b) * ct_dw c) mod p =? 1) && ((gy * gy - (gx * gx * gx + a * gx + b)) mod p =? 0) &&
  check_ladder m a gx gy n (ct_digits c) (ct_zw c).
(** with the coefficients of u and v *)
Definition check_curve (p a b gx gy n : Z) (c : cert) (uv : list Z) : bool :=
  check_order p a b gx gy n c && (2 * p + 1 <? 3 * n) && check_root_free (curve_mod (ct_k c) p (ct_inv c)) a b p (map (limbs (ct_k c)) uv).
