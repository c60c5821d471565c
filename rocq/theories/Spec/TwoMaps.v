(** Hashing from two field elements: the images of both are added and the sum is multiplied by the cofactor
    (RFC 9380, section 3, hash_to_curve). *)
From Coq Require Import ZArith.
From Verif.Spec Require Import Arith Elements Shipped.
From Verif.Spec Require WPoints MPoints EPoints.
From Verif.Model Require Import Out BigInt PrimeField Scalar CurveExtras.
From Verif.Model Require WCurve MCurve ECurve.
From Verif.Model Require Maps.
Import Model.Maps.
Open Scope Z_scope.
Open Scope out_scope.

(** the sum of the two points lands in the sense of C58, in either order; clearing the sum is adding the cleared points *)
Definition w_both_land (e : WCurve.Curve) (M N : out WCurve.Point) : Prop :=
  w_lands e (P <- M ;; Q <- N ;; WCurve.pt_add P Q)
  /\ WPoints.same (P <- M ;; Q <- N ;; WCurve.pt_add P Q) (P <- N ;; Q <- M ;; WCurve.pt_add P Q)
  /\ forall oc, WPoints.same
       (P <- M ;; Q <- N ;; S <- WCurve.pt_add P Q ;; k <- WCurve.new_scalar e (w_get_cofactor e) ;; WCurve.pt_mul oc S k)
       (P <- M ;; Q <- N ;; k <- WCurve.new_scalar e (w_get_cofactor e) ;; S <- WCurve.pt_mul oc P k ;; T <- WCurve.pt_mul oc Q k ;; WCurve.pt_add S T).
Definition m_both_land (e : MCurve.Curve) (M N : out MCurve.Point) : Prop :=
  m_lands e (P <- M ;; Q <- N ;; MCurve.pt_add P Q)
  /\ MPoints.same (P <- M ;; Q <- N ;; MCurve.pt_add P Q) (P <- N ;; Q <- M ;; MCurve.pt_add P Q)
  /\ forall oc, MPoints.same
       (P <- M ;; Q <- N ;; S <- MCurve.pt_add P Q ;; k <- MCurve.new_scalar e (m_get_cofactor e) ;; MCurve.pt_mul oc S k)
       (P <- M ;; Q <- N ;; k <- MCurve.new_scalar e (m_get_cofactor e) ;; S <- MCurve.pt_mul oc P k ;; T <- MCurve.pt_mul oc Q k ;; MCurve.pt_add S T).
Definition e_both_land (e : ECurve.Curve) (M N : out ECurve.Point) : Prop :=
  e_lands e (P <- M ;; Q <- N ;; ECurve.pt_add P Q)
  /\ EPoints.same (P <- M ;; Q <- N ;; ECurve.pt_add P Q) (P <- N ;; Q <- M ;; ECurve.pt_add P Q)
  /\ forall oc, EPoints.same
       (P <- M ;; Q <- N ;; S <- ECurve.pt_add P Q ;; k <- ECurve.new_scalar e (e_get_cofactor e) ;; ECurve.pt_mul oc S k)
       (P <- M ;; Q <- N ;; k <- ECurve.new_scalar e (e_get_cofactor e) ;; S <- ECurve.pt_mul oc P k ;; T <- ECurve.pt_mul oc Q k ;; ECurve.pt_add S T).

(** on this curve, with every SSWU or SVDW map that can be built, all pairs of field elements *)
Definition w_hashes_pairs (X : out WCurve.Curve) : Prop :=
  exists e, X = Ret e /\ forall z u v, let p := modulus (w_get_field e) in valid p z -> valid p u -> valid p v ->
    (forall m, sswu_new e z = Ret m -> w_both_land e (sswu_map m u) (sswu_map m v))
    /\ (forall m, svdw_new e z = Ret m -> w_both_land e (svdw_map m u) (svdw_map m v)).
(** Elligator 2 on the Montgomery curves *)
Definition m_hashes_pairs (X : out MCurve.Curve) : Prop :=
  exists e, X = Ret e /\ forall z u v, let p := modulus (m_get_field e) in valid p z -> valid p u -> valid p v -> ~ square_mod p (val z) ->
    exists m, ell2_new e z = Ret m /\ m_both_land e (ell2_map m u) (ell2_map m v).
