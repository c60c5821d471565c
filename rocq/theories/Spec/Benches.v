(** What the programs shipped beside the library should compute. *)
From Coq Require Import ZArith String List.
From Verif.Spec Require Import Arith Curve Text Instances.
From Verif.Spec Require WPoints MPoints.
From Verif.Model Require Import Out BigInt PrimeField Display CurveExtras Benches.
From Verif.Model Require WCurve MCurve.
Open Scope Z_scope.

(** however often the loops run: x0 is -1 + 15 n, x1 is -(15^n) and x2 is -1 *)
Definition fp_bench_runs (X : out WCurve.Curve) : Prop :=
  exists e, X = Ret e /\ forall n : nat, let p := modulus (w_get_field e) in
    (exists x, bench_fp_add X n = Ret x /\ fld x = w_get_field e /\ residue p (-1 + 15 * Z.of_nat n) (val x))
    /\ (exists x, bench_fp_mul X n = Ret x /\ fld x = w_get_field e /\ residue p (- 15 ^ Z.of_nat n) (val x))
    /\ (exists x, bench_fp_inv X n = Ret x /\ fld x = w_get_field e /\ val x = p - 1).
(** however often the loops run: g0 is 2^n G and never the identity, g1 is G after an even number of rounds and -G after an odd one *)
Definition ec_bench_runs (X : out WCurve.Curve) (s : weierstrass) : Prop :=
  exists e, X = Ret e /\ forall (n : nat) (oc : bool), let G := Affine (w_gx s) (w_gy s) in
    (exists P, bench_ec_add X n = Ret P /\ (forall C, WPoints.wpoint e P C <-> multiple (WPoints.wsum e) Infinity G (2 ^ n) C)
       /\ WCurve.pt_is_zero P = false)
    /\ (exists P, bench_ec_mul oc X n = Ret P /\ forall C, WPoints.wpoint e P C <-> C = if Nat.even n then G else negative (w_p s) G).

(** a point printed as in the crate: three decimal texts, projective coordinates of the point A modulo p *)
Definition point_text (p : Z) (A : apoint) (t : string) : Prop :=
  exists x y z X Y Z, decimal x X /\ decimal y Y /\ decimal z Z /\ 0 <= X < p /\ 0 <= Y < p /\ 0 <= Z < p
    /\ proj_of p X Y Z A /\ t = (NL ++ "x: " ++ x ++ NL ++ "y: " ++ y ++ NL ++ "z: " ++ z)%string.
(** 2 G on the curve y^2 = x^3 + a2 x^2 + a4 x + a6 *)
Definition w_double (s : weierstrass) (A : apoint) : Prop :=
  let G := Affine (w_gx s) (w_gy s) in chord_tangent (w_p s) 1 0 (w_a s mod w_p s) G G A.
Definition m_double (s : montgomery) (A : apoint) : Prop :=
  let G := Affine (m_gx s) (m_gy s) in chord_tangent (m_p s) 1 (m_a s mod m_p s) 1 G G A.
