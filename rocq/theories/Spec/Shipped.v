(** What is claimed of the curves the library ships and of hashing to them. *)
From Coq Require Import ZArith Znumtheory List.
From Verif.Spec Require Import Arith Curve Order Elements.
From Verif.Spec Require WPoints MPoints EPoints.
From Verif.Spec Require Instances.
From Verif.Model Require Import Out BigInt PrimeField Scalar CurveExtras.
From Verif.Model Require WCurve MCurve ECurve.
From Verif.Model Require Instances Maps.
Import Spec.Instances Model.Instances Model.Maps.
Import ListNotations.
Open Scope Z_scope.

(** [X] is the curve described by [s]; its base point generates a group of prime order r *)
Definition w_shipped (X : out WCurve.Curve) (s : weierstrass) : Prop :=
  exists e, X = Ret e
  /\ modulus (WCurve.c_f e) = w_p s /\ val (WCurve.c_a e) = w_a s mod w_p s /\ val (WCurve.c_b e) = w_b s mod w_p s
  /\ WCurve.c_r e = w_r s /\ WCurve.c_h e = w_h s /\ prime (w_p s) /\ prime (w_r s) /\ WPoints.wgroup e
  /\ exists G, WCurve.get_generator e = Ret G /\ WPoints.wpoint e G (Affine (w_gx s) (w_gy s))
  /\ forall n, multiple (WPoints.wsum e) Infinity (Affine (w_gx s) (w_gy s)) n Infinity <-> (w_r s | Z.of_nat n).
Definition m_shipped (X : out MCurve.Curve) (s : montgomery) : Prop :=
  exists e, X = Ret e
  /\ modulus (MCurve.c_f e) = m_p s /\ val (MCurve.c_a e) = m_a s mod m_p s /\ val (MCurve.c_b e) = 1 /\ val (MCurve.c_s e) = m_s s mod m_p s
  /\ MCurve.c_r e = m_r s /\ MCurve.c_h e = m_h s /\ prime (m_p s) /\ prime (m_r s) /\ MPoints.mgroup e
  /\ exists G, MCurve.get_generator e = Ret G /\ MPoints.mpoint e G (Affine (m_gx s) (m_gy s))
  /\ forall n, multiple (MPoints.msum e) Infinity (Affine (m_gx s) (m_gy s)) n Infinity <-> (m_r s | Z.of_nat n).
Definition e_shipped (X : out ECurve.Curve) (s : edwards) : Prop :=
  exists e, X = Ret e
  /\ modulus (ECurve.c_f e) = e_p s /\ val (ECurve.c_a e) = e_a s mod e_p s /\ val (ECurve.c_d e) = e_d s mod e_p s
  /\ ECurve.c_r e = e_r s /\ ECurve.c_h e = e_h s /\ prime (e_p s) /\ prime (e_r s) /\ EPoints.egroup e
  /\ exists G, ECurve.get_generator e = Ret G /\ EPoints.epoint e G (e_gx s, e_gy s)
  /\ forall n, multiple (EPoints.esum e) (0, 1) (e_gx s, e_gy s) n (0, 1) <-> (e_r s | Z.of_nat n).

(** the curve X has n points; h times any of them is a multiple of the base point, and h r times any of them is the identity *)
Definition w_order (X : out WCurve.Curve) (s : weierstrass) (n : Z) : Prop :=
  exists e, X = Ret e /\ counted (WPoints.won e) n
  /\ clears (WPoints.won e) (WPoints.wsum e) Infinity (Affine (w_gx s) (w_gy s)) (w_h s) (w_r s)
  /\ exponent (WPoints.won e) (WPoints.wsum e) Infinity (w_h s * w_r s).
Definition m_order (X : out MCurve.Curve) (s : montgomery) (n : Z) : Prop :=
  exists e, X = Ret e /\ counted (MPoints.mon e) n
  /\ clears (MPoints.mon e) (MPoints.msum e) Infinity (Affine (m_gx s) (m_gy s)) (m_h s) (m_r s)
  /\ exponent (MPoints.mon e) (MPoints.msum e) Infinity (m_h s * m_r s).
Definition e_order (X : out ECurve.Curve) (s : edwards) (n : Z) : Prop :=
  exists e, X = Ret e /\ counted (EPoints.eon e) n
  /\ clears (EPoints.eon e) (EPoints.esum e) (0, 1) (e_gx s, e_gy s) (e_h s) (e_r s)
  /\ exponent (EPoints.eon e) (EPoints.esum e) (0, 1) (e_h s * e_r s).

(** the curve's own order, field, base point and cofactor; multiplying any point by the cofactor gives a
    multiple of the base point: the same point of the curve, which the code's equality confirms *)
Definition w_cleared (X : out WCurve.Curve) (s : weierstrass) : Prop :=
  exists e G k, X = Ret e /\ w_get_order e = w_r s /\ modulus (w_get_field e) = w_p s /\ WCurve.get_generator e = Ret G
  /\ WCurve.new_scalar e (w_get_cofactor e) = Ret k
  /\ forall oc P A, WPoints.wpoint e P A -> exists Q j R, WCurve.pt_mul oc P k = Ret Q
     /\ 0 <= j < w_r s /\ WCurve.pt_mul false G (mkScalar j (w_r s)) = Ret R /\ WCurve.pt_eqb Q R = Ret true
     /\ exists C, WPoints.wpoint e Q C /\ WPoints.wpoint e R C.
Definition m_cleared (X : out MCurve.Curve) (s : montgomery) : Prop :=
  exists e G k, X = Ret e /\ m_get_order e = m_r s /\ modulus (m_get_field e) = m_p s /\ MCurve.get_generator e = Ret G
  /\ MCurve.new_scalar e (m_get_cofactor e) = Ret k
  /\ forall oc P A, MPoints.mpoint e P A -> exists Q j R, MCurve.pt_mul oc P k = Ret Q
     /\ 0 <= j < m_r s /\ MCurve.pt_mul false G (mkScalar j (m_r s)) = Ret R /\ MCurve.pt_eqb Q R = Ret true
     /\ exists C, MPoints.mpoint e Q C /\ MPoints.mpoint e R C.
Definition e_cleared (X : out ECurve.Curve) (s : edwards) : Prop :=
  exists e G k, X = Ret e /\ e_get_order e = e_r s /\ modulus (e_get_field e) = e_p s /\ ECurve.get_generator e = Ret G
  /\ ECurve.new_scalar e (e_get_cofactor e) = Ret k
  /\ forall oc P A, EPoints.epoint e P A -> exists Q j R, ECurve.pt_mul oc P k = Ret Q
     /\ 0 <= j < e_r s /\ ECurve.pt_mul false G (mkScalar j (e_r s)) = Ret R /\ ECurve.pt_eqb Q R = Ret true
     /\ exists C, EPoints.epoint e Q C /\ EPoints.epoint e R C.

(** on the curves of cofactor 1 the scalars act on every point *)
Definition prime_curves : list (out WCurve.Curve * weierstrass) :=
  [(P256, std_P256); (P384, std_P384); (P521, std_P521); (SECP256K1, std_SECP256K1); (SECP256K1_3ISO, std_SECP256K1_3ISO)].

(** M returns a point of the curve, and multiplying it by the cofactor of the curve (a scalar the curve makes itself)
    gives, in both build profiles, the same point as a multiple of the base point *)
Definition w_lands (e : WCurve.Curve) (M : out WCurve.Point) : Prop :=
  exists P G k, M = Ret P /\ (exists A, WPoints.wpoint e P A) /\ WCurve.get_generator e = Ret G /\ WCurve.new_scalar e (w_get_cofactor e) = Ret k
  /\ forall oc, exists Q j R, WCurve.pt_mul oc P k = Ret Q /\ 0 <= j < w_get_order e
     /\ WCurve.pt_mul false G (mkScalar j (w_get_order e)) = Ret R /\ WCurve.pt_eqb Q R = Ret true
     /\ exists C, WPoints.wpoint e Q C /\ WPoints.wpoint e R C.
Definition m_lands (e : MCurve.Curve) (M : out MCurve.Point) : Prop :=
  exists P G k, M = Ret P /\ (exists A, MPoints.mpoint e P A) /\ MCurve.get_generator e = Ret G /\ MCurve.new_scalar e (m_get_cofactor e) = Ret k
  /\ forall oc, exists Q j R, MCurve.pt_mul oc P k = Ret Q /\ 0 <= j < m_get_order e
     /\ MCurve.pt_mul false G (mkScalar j (m_get_order e)) = Ret R /\ MCurve.pt_eqb Q R = Ret true
     /\ exists C, MPoints.mpoint e Q C /\ MPoints.mpoint e R C.
Definition e_lands (e : ECurve.Curve) (M : out ECurve.Point) : Prop :=
  exists P G k, M = Ret P /\ (exists A, EPoints.epoint e P A) /\ ECurve.get_generator e = Ret G /\ ECurve.new_scalar e (e_get_cofactor e) = Ret k
  /\ forall oc, exists Q j R, ECurve.pt_mul oc P k = Ret Q /\ 0 <= j < e_get_order e
     /\ ECurve.pt_mul false G (mkScalar j (e_get_order e)) = Ret R /\ ECurve.pt_eqb Q R = Ret true
     /\ exists C, EPoints.epoint e Q C /\ EPoints.epoint e R C.
(** on this curve, every SSWU or SVDW map that can be built lands for every u *)
Definition w_hashes (X : out WCurve.Curve) : Prop :=
  exists e, X = Ret e /\ forall z u, let p := modulus (w_get_field e) in valid p z -> valid p u ->
    (forall m, sswu_new e z = Ret m -> w_lands e (sswu_map m u))
    /\ (forall m, svdw_new e z = Ret m -> w_lands e (svdw_map m u)).
(** the parameter z is accepted, and the map lands for every u *)
Definition sswu_ok (X : out WCurve.Curve) (z : Z) : Prop :=
  exists e zz m, X = Ret e /\ from_int (w_get_field e) z = Ret zz /\ sswu_new e zz = Ret m
  /\ forall u, valid (modulus (w_get_field e)) u -> w_lands e (sswu_map m u).
Definition svdw_ok (X : out WCurve.Curve) (z : Z) : Prop :=
  exists e zz m, X = Ret e /\ from_int (w_get_field e) z = Ret zz /\ svdw_new e zz = Ret m
  /\ forall u, valid (modulus (w_get_field e)) u -> w_lands e (svdw_map m u).
(** Elligator 2 on the Montgomery curves *)
Definition m_hashes (X : out MCurve.Curve) : Prop :=
  exists e, X = Ret e /\ forall z u, let p := modulus (m_get_field e) in valid p z -> valid p u -> ~ square_mod p (val z) ->
    exists m, ell2_new e z = Ret m /\ m_lands e (ell2_map m u).

Definition collides (X : out WCurve.Curve) : Prop := exists e I Q y, X = Ret e /\ WCurve.identity e = Ret I /\ WPoints.wpoint e Q (Affine 0 y)
  /\ WCurve.encode I true = WCurve.encode Q true /\ WCurve.pt_eqb I Q = Ret false.
