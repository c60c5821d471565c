(** Is a point a multiple of the base point? Tests a caller can write with the API. *)
From Coq Require Import ZArith String List.
From Verif.Spec Require Import Arith Curve Order Elements.
From Verif.Spec Require WPoints MPoints EPoints.
From Verif.Spec Require Instances Shipped.
From Verif.Model Require Import Out BigInt PrimeField Scalar CurveExtras.
From Verif.Model Require WCurve MCurve ECurve.
From Verif.Model Require Instances.
Import Spec.Instances Model.Instances.
Import ListNotations.
Open Scope Z_scope.

(** the shipped curves *)
Definition w_curves : list (out WCurve.Curve * weierstrass) :=
  (Shipped.prime_curves ++ [(BLS12381G1, std_BLS12381G1); (BLS12381G1_11ISO, std_BLS12381G1_11ISO)])%list.
Definition m_curves : list (out MCurve.Curve * montgomery) := [(CURVE25519, std_CURVE25519); (CURVE448, std_CURVE448)].
Definition e_curves : list (out ECurve.Curve * edwards) := [(EDWARDS25519, std_EDWARDS25519); (EDWARDS448, std_EDWARDS448)].

(** 'P times (order - 1) == -P' answers whether P is one of 0, G, .., (r - 1) G, in both build profiles *)
Definition w_member_test (X : out WCurve.Curve) (s : weierstrass) : Prop :=
  exists e k, X = Ret e /\ WCurve.new_scalar e (w_get_order e - 1) = Ret k
  /\ forall oc P A, WPoints.wpoint e P A -> exists S T b, WCurve.pt_mul oc P k = Ret S /\ WCurve.pt_neg P = Ret T /\ WCurve.pt_eqb S T = Ret b
     /\ (b = true <-> generated (WPoints.wsum e) Infinity (Affine (w_gx s) (w_gy s)) (w_r s) A).
Definition m_member_test (X : out MCurve.Curve) (s : montgomery) : Prop :=
  exists e k, X = Ret e /\ MCurve.new_scalar e (m_get_order e - 1) = Ret k
  /\ forall oc P A, MPoints.mpoint e P A -> exists S T b, MCurve.pt_mul oc P k = Ret S /\ MCurve.pt_neg P = Ret T /\ MCurve.pt_eqb S T = Ret b
     /\ (b = true <-> generated (MPoints.msum e) Infinity (Affine (m_gx s) (m_gy s)) (m_r s) A).
Definition e_member_test (X : out ECurve.Curve) (s : edwards) : Prop :=
  exists e k, X = Ret e /\ ECurve.new_scalar e (e_get_order e - 1) = Ret k
  /\ forall oc P A, EPoints.epoint e P A -> exists S T b, ECurve.pt_mul oc P k = Ret S /\ ECurve.pt_neg P = Ret T /\ ECurve.pt_eqb S T = Ret b
     /\ (b = true <-> generated (EPoints.esum e) (0, 1) (e_gx s, e_gy s) (e_r s) A).

(** the scalar made from the order itself sends every point to the identity, or panics where overflow is checked *)
Definition w_order_scalar (X : out WCurve.Curve) : Prop :=
  exists e k, X = Ret e /\ WCurve.new_scalar e (w_get_order e) = Ret k
  /\ forall P A, WPoints.wpoint e P A -> (exists Z, WCurve.pt_mul false P k = Ret Z /\ WPoints.wpoint e Z Infinity /\ WCurve.pt_is_zero Z = true)
     /\ WCurve.pt_mul true P k = Panic "attempt to subtract with overflow".
Definition m_order_scalar (X : out MCurve.Curve) : Prop :=
  exists e k, X = Ret e /\ MCurve.new_scalar e (m_get_order e) = Ret k
  /\ forall P A, MPoints.mpoint e P A -> (exists Z, MCurve.pt_mul false P k = Ret Z /\ MPoints.mpoint e Z Infinity /\ MCurve.pt_is_zero Z = true)
     /\ MCurve.pt_mul true P k = Panic "attempt to subtract with overflow".
Definition e_order_scalar (X : out ECurve.Curve) : Prop :=
  exists e k, X = Ret e /\ ECurve.new_scalar e (e_get_order e) = Ret k
  /\ forall P A, EPoints.epoint e P A -> (exists Z, ECurve.pt_mul false P k = Ret Z /\ EPoints.epoint e Z (0, 1) /\ ECurve.pt_is_zero Z = true)
     /\ ECurve.pt_mul true P k = Panic "attempt to subtract with overflow".

(** 'P times order is the identity' is true of a point that is not a multiple of the base point *)
Definition w_order_fooled (X : out WCurve.Curve) (s : weierstrass) (A : apoint) : Prop :=
  exists e k P Z, X = Ret e /\ WCurve.new_scalar e (w_get_order e) = Ret k /\ WPoints.wpoint e P A
  /\ WCurve.pt_mul false P k = Ret Z /\ WCurve.pt_is_zero Z = true
  /\ ~ generated (WPoints.wsum e) Infinity (Affine (w_gx s) (w_gy s)) (w_r s) A.
Definition m_order_fooled (X : out MCurve.Curve) (s : montgomery) (A : apoint) : Prop :=
  exists e k P Z, X = Ret e /\ MCurve.new_scalar e (m_get_order e) = Ret k /\ MPoints.mpoint e P A
  /\ MCurve.pt_mul false P k = Ret Z /\ MCurve.pt_is_zero Z = true
  /\ ~ generated (MPoints.msum e) Infinity (Affine (m_gx s) (m_gy s)) (m_r s) A.
Definition e_order_fooled (X : out ECurve.Curve) (s : edwards) (A : Z * Z) : Prop :=
  exists e k P Z, X = Ret e /\ ECurve.new_scalar e (e_get_order e) = Ret k /\ EPoints.epoint e P A
  /\ ECurve.pt_mul false P k = Ret Z /\ ECurve.pt_is_zero Z = true
  /\ ~ generated (EPoints.esum e) (0, 1) (e_gx s, e_gy s) (e_r s) A.
