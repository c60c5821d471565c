(** The inputs on which the addition formulas fail, for curves with points that the formulas are not meant for. *)
From Coq Require Import ZArith Znumtheory Bool List.
From Verif.Spec Require Import Arith Curve Elements WPoints MPoints EPoints.
From Verif.Model Require Import Out BigInt PrimeField Scalar.
From Verif.Model Require WCurve MCurve ECurve.
Open Scope Z_scope.

(** an affine point with the given ordinate; ordinate 0 means order 2 *)
Definition ordinate (A : apoint) (y : Z) : Prop := exists x, A = Affine x y.
(** k has a leading part 2 m + 1 (in binary, after dropping some low digits) with [bad (2 m)]: the additions of
    double-and-add happen at these, when the accumulator holds the 2m-fold sum *)
Definition spoils (bad : Z -> Prop) (k : Z) : Prop :=
  exists i m, 0 <= i /\ 0 <= m /\ k / 2 ^ i = 2 * m + 1 /\ bad (2 * m).

(** any nonsingular Weierstrass curve over an odd prime field *)
Definition weier_any (e : WCurve.Curve) : Prop :=
  let p := modulus (WCurve.c_f e) in
  let a := val (WCurve.c_a e) in let b := val (WCurve.c_b e) in
  prime p /\ 2 < p /\ valid p (WCurve.c_a e) /\ valid p (WCurve.c_b e) /\ ~ (p | 4 * (a * a * a) + 27 * (b * b)).
(** the triple (0, 0, 0), which is no point *)
Definition w_null (e : WCurve.Curve) (P : WCurve.Point) : Prop :=
  let z := mkFpElt 0 (WCurve.c_f e) in P = WCurve.mkPoint e (WCurve.mkProy z z z).
(** some addition on the way to k A meets a difference of order 2 *)
Definition w_spoiled (e : WCurve.Curve) (A : apoint) (k : Z) : Prop :=
  spoils (fun m => exists M D, multiple (wsum e) Infinity A (Z.to_nat m) M
    /\ wsum e M (negative (modulus (WCurve.c_f e)) A) D /\ ordinate D 0) k.

(** any nonsingular Montgomery curve with b = 1, and any constant s *)
Definition mont_any (e : MCurve.Curve) : Prop :=
  let p := modulus (MCurve.c_f e) in
  prime p /\ 2 < p /\ valid p (MCurve.c_a e) /\ valid p (MCurve.c_b e) /\ valid p (MCurve.c_s e) /\ val (MCurve.c_b e) = 1
  /\ ~ (p | val (MCurve.c_a e) * val (MCurve.c_a e) - 4).
(** any nonsingular Montgomery curve, with any b and any constant s *)
Definition mont_b (e : MCurve.Curve) : Prop :=
  let p := modulus (MCurve.c_f e) in
  prime p /\ 2 < p /\ valid p (MCurve.c_a e) /\ valid p (MCurve.c_b e) /\ valid p (MCurve.c_s e) /\ val (MCurve.c_b e) <> 0
  /\ ~ (p | val (MCurve.c_a e) * val (MCurve.c_a e) - 4).
Definition m_null (e : MCurve.Curve) (P : MCurve.Point) : Prop :=
  let z := mkFpElt 0 (MCurve.c_f e) in P = MCurve.mkPoint e (MCurve.mkProy z z z).
(** some addition on the way to k A meets a difference whose ordinate is s *)
Definition m_spoiled (e : MCurve.Curve) (A : apoint) (k : Z) : Prop :=
  spoils (fun m => exists M D, multiple (msum e) Infinity A (Z.to_nat m) M
    /\ msum e M (negative (modulus (MCurve.c_f e)) A) D /\ ordinate D (val (MCurve.c_s e))) k.

(** any Edwards curve over an odd prime field *)
Definition edw_any (e : ECurve.Curve) : Prop :=
  let p := modulus (ECurve.c_f e) in prime p /\ 2 < p /\ valid p (ECurve.c_a e) /\ valid p (ECurve.c_d e).
(** a denominator of the addition law vanishes *)
Definition e_undefined (e : ECurve.Curve) (A B : Z * Z) : Prop :=
  let p := modulus (ECurve.c_f e) in
  let c := val (ECurve.c_d e) * (fst A * fst B * snd A * snd B) in (p | 1 + c) \/ (p | 1 - c).
(** a curve without singular points that need not be complete: a, d and a - d are not 0 *)
Definition edw_smooth (e : ECurve.Curve) : Prop :=
  let p := modulus (ECurve.c_f e) in
  edw_any e /\ ~ (p | val (ECurve.c_a e)) /\ ~ (p | val (ECurve.c_d e)) /\ ~ (p | val (ECurve.c_a e) - val (ECurve.c_d e)).
(** four reduced coordinates X, Y, T, Z of the curve e with X Y = T Z and a X^2 + Y^2 = Z^2 + d T^2: every point, and what is not
    a point but is built by adding points *)
Definition e_tuple (e : ECurve.Curve) (P : ECurve.Point) : Prop :=
  let p := modulus (ECurve.c_f e) in let c := ECurve.pc P in
  let X := val (ECurve.px c) in let Y := val (ECurve.py c) in let T := val (ECurve.ptt c) in let Z := val (ECurve.pz c) in
  ECurve.pe P = e /\ valid p (ECurve.px c) /\ valid p (ECurve.py c) /\ valid p (ECurve.ptt c) /\ valid p (ECurve.pz c)
  /\ (p | X * Y - T * Z) /\ (p | val (ECurve.c_a e) * (X * X) + Y * Y - (Z * Z + val (ECurve.c_d e) * (T * T))).

(** The companion v^2 = u^3 + 2 (a + d) u^2 + (a - d)^2 u of the curve a x^2 + y^2 = 1 + d x^2 y^2. With x = 2 u / v and
    y = (u - (a - d)) / (u + (a - d)) the points of the one are those of the other, except for the points at which a
    denominator vanishes. *)
Definition e_comp (e : ECurve.Curve) : apoint -> Prop :=
  let p := modulus (ECurve.c_f e) in let a := val (ECurve.c_a e) in let d := val (ECurve.c_d e) in
  on_cubic p 1 ((2 * (a + d)) mod p) (((a - d) * (a - d)) mod p) 0.
Definition e_csum (e : ECurve.Curve) : apoint -> apoint -> apoint -> Prop :=
  let p := modulus (ECurve.c_f e) in let a := val (ECurve.c_a e) in let d := val (ECurve.c_d e) in
  chord_tangent p 1 ((2 * (a + d)) mod p) (((a - d) * (a - d)) mod p).
(** no denominator vanishes: the point of the companion is a point of the Edwards curve *)
Definition e_finite (e : ECurve.Curve) (M : apoint) : Prop :=
  match M with
  | Infinity => True
  | Affine u v => (u = 0 /\ v = 0)
      \/ (v <> 0 /\ ~ (modulus (ECurve.c_f e) | u + (val (ECurve.c_a e) - val (ECurve.c_d e))))
  end.
(** X : Y : T : Z is the point M of the companion, whether or not it is a point of the Edwards curve *)
Definition comp_of (p f X Y T Z : Z) (M : apoint) : Prop :=
  exists l, ~ (p | l) /\
    match M with
    | Infinity => X = 0 /\ (p | Y - l) /\ T = 0 /\ (p | Z - l)
    | Affine u v => (u = 0 /\ X = 0 /\ (p | Y + l) /\ T = 0 /\ (p | Z - l))
        \/ (u <> 0 /\ (p | X - l * (2 * u * (u + f))) /\ (p | Y - l * (v * (u - f)))
            /\ (p | T - l * (2 * u * (u - f))) /\ (p | Z - l * (v * (u + f))))
    end.
Definition e_stands (e : ECurve.Curve) (P : ECurve.Point) (M : apoint) : Prop :=
  let p := modulus (ECurve.c_f e) in let c := ECurve.pc P in
  ECurve.pe P = e /\ valid p (ECurve.px c) /\ valid p (ECurve.py c) /\ valid p (ECurve.ptt c) /\ valid p (ECurve.pz c)
  /\ comp_of p (val (ECurve.c_a e) - val (ECurve.c_d e))
       (val (ECurve.px c)) (val (ECurve.py c)) (val (ECurve.ptt c)) (val (ECurve.pz c)) M
  /\ e_comp e M.
(** the tuple (0, 0, 0, 0), which stands for nothing *)
Definition e_null (e : ECurve.Curve) (P : ECurve.Point) : Prop :=
  let z := mkFpElt 0 (ECurve.c_f e) in P = ECurve.mkPoint e (ECurve.mkProy z z z z).
(** some addition on the way to k M meets a difference that is no point of the Edwards curve *)
Definition e_spoiled (e : ECurve.Curve) (M : apoint) (k : Z) : Prop :=
  spoils (fun m => exists N D, multiple (e_csum e) Infinity M (Z.to_nat m) N
    /\ e_csum e N (negative (modulus (ECurve.c_f e)) M) D /\ ~ e_finite e D) k.
