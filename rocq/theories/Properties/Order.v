(** C55: the number of points of each shipped curve, and what multiplying by its cofactor does. *)

From Coq Require Import ZArith Znumtheory Lia String Ascii Bool List.
From Verif.Math Require Import Fld Zp FinGroup Prime_rbls.
From Verif.Spec Require Import Arith Curve Order Isogeny.
From Verif.Spec Require Instances.
From Verif.Model Require Import Out BigInt PrimeField Scalar RationalMaps CurveExtras.
From Verif.Model Require Instances.
From Verif.Model Require WCurve MCurve ECurve.
From Verif.Proofs Require Import FieldP FieldProps ScalarProps CurveP InstP InstShip OrderP OrderTo OrderShip OrderBls OrderRun Cert_Order.
From Verif.Proofs Require WeierP MontP EdwP WeierProps MontProps EdwProps InstProps IsogP IsogProps IsoHomProps Cert_Isog.
From Verif.Math Require Import ECGroup.
From Verif.Spec Require Export Shipped.
Import Spec.Instances Model.Instances.
Import ListNotations.
Open Scope Z_scope.
Open Scope out_scope.
From Verif.Proofs Require Import OrderProps.

(** curves of prime order *)
Theorem C55_P256 : w_order P256 std_P256 (w_r std_P256) /\ w_cleared P256 std_P256.
Proof. exact c55_P256. Qed.
Print Assumptions C55_P256.

Theorem C55_P384 : w_order P384 std_P384 (w_r std_P384) /\ w_cleared P384 std_P384.
Proof. exact c55_P384. Qed.
Print Assumptions C55_P384.

Theorem C55_P521 : w_order P521 std_P521 (w_r std_P521) /\ w_cleared P521 std_P521.
Proof. exact c55_P521. Qed.
Print Assumptions C55_P521.

Theorem C55_SECP256K1 : w_order SECP256K1 std_SECP256K1 (w_r std_SECP256K1) /\ w_cleared SECP256K1 std_SECP256K1.
Proof. exact c55_SECP256K1. Qed.
Print Assumptions C55_SECP256K1.

Theorem C55_SECP256K1_3ISO : w_order SECP256K1_3ISO std_SECP256K1_3ISO (w_r std_SECP256K1_3ISO) /\ w_cleared SECP256K1_3ISO std_SECP256K1_3ISO.
Proof. exact c55_SECP256K1_3ISO. Qed.
Print Assumptions C55_SECP256K1_3ISO.

Theorem C55_CURVE25519 : m_order CURVE25519 std_CURVE25519 (m_r std_CURVE25519 * m_h std_CURVE25519) /\ m_cleared CURVE25519 std_CURVE25519.
Proof. exact c55_CURVE25519. Qed.
Print Assumptions C55_CURVE25519.

Theorem C55_CURVE448 : m_order CURVE448 std_CURVE448 (m_r std_CURVE448 * m_h std_CURVE448) /\ m_cleared CURVE448 std_CURVE448.
Proof. exact c55_CURVE448. Qed.
Print Assumptions C55_CURVE448.

Theorem C55_EDWARDS25519 : e_order EDWARDS25519 std_EDWARDS25519 (e_r std_EDWARDS25519 * e_h std_EDWARDS25519) /\ e_cleared EDWARDS25519 std_EDWARDS25519.
Proof. exact c55_EDWARDS25519. Qed.
Print Assumptions C55_EDWARDS25519.

Theorem C55_EDWARDS448 : e_order EDWARDS448 std_EDWARDS448 (e_r std_EDWARDS448 * e_h std_EDWARDS448) /\ e_cleared EDWARDS448 std_EDWARDS448.
Proof. exact c55_EDWARDS448. Qed.
Print Assumptions C55_EDWARDS448.

Theorem C55_BLS12381G1 : w_order BLS12381G1 std_BLS12381G1 (w_r std_BLS12381G1 * 0x396C8C005555E1568C00AAAB0000AAAB) /\ w_cleared BLS12381G1 std_BLS12381G1.
Proof. exact c55_BLS12381G1. Qed.
Print Assumptions C55_BLS12381G1.

(** it has as many points as BLS12-381 G1, and eleven times the shipped cofactor clears it *)
Theorem C55_BLS12381G1_11ISO : exists e, BLS12381G1_11ISO = Ret e
  /\ counted (WPoints.won e) (w_r std_BLS12381G1_11ISO * 0x396C8C005555E1568C00AAAB0000AAAB)
  /\ clears (WPoints.won e) (WPoints.wsum e) Infinity (Affine (w_gx std_BLS12381G1_11ISO) (w_gy std_BLS12381G1_11ISO)) (11 * w_h std_BLS12381G1_11ISO) (w_r std_BLS12381G1_11ISO)
  /\ exponent (WPoints.won e) (WPoints.wsum e) Infinity (11 * w_h std_BLS12381G1_11ISO * w_r std_BLS12381G1_11ISO).
Proof. exact c55_BLS12381G1_11ISO. Qed.
Print Assumptions C55_BLS12381G1_11ISO.

(** the shipped cofactor itself does not: a point of order 121 *)
Theorem C55_BLS12381G1_11ISO_cofactor_refuted : exists e G k P A, BLS12381G1_11ISO = Ret e /\ WCurve.get_generator e = Ret G
  /\ WCurve.new_scalar e (w_get_cofactor e) = Ret k /\ WPoints.wpoint e P A
  /\ (forall n, multiple (WPoints.wsum e) Infinity A n Infinity <-> (121 | Z.of_nat n))
  /\ exists Q, WCurve.pt_mul false P k = Ret Q
  /\ forall j R, valid_scalar (WCurve.c_r e) j -> WCurve.pt_mul false G j = Ret R -> WCurve.pt_eqb Q R = Ret false.
Proof. exact c55_BLS12381G1_11ISO_cofactor_refuted. Qed.
Print Assumptions C55_BLS12381G1_11ISO_cofactor_refuted.

Theorem C55_scalar_action : forall X s e P A k l, In (X, s) prime_curves -> X = Ret e -> WPoints.wpoint e P A ->
  valid_scalar (WCurve.c_r e) k -> valid_scalar (WCurve.c_r e) l ->
  WPoints.same (bind (WCurve.pt_mul false P k) (fun Y => bind (WCurve.pt_mul false P l) (fun Z => WCurve.pt_add Y Z)))
       (bind (sc_add k l) (fun m => WCurve.pt_mul false P m))
  /\ WPoints.same (bind (WCurve.pt_mul false P k) (fun Y => WCurve.pt_mul false Y l))
       (bind (sc_mul k l) (fun m => WCurve.pt_mul false P m)).
Proof. exact c55_scalar_action. Qed.
Print Assumptions C55_scalar_action.

(** every point is one of 0, G, .., (r - 1) G, and each of these only once *)
Theorem C55_generator : forall X s, In (X, s) prime_curves -> exists e, X = Ret e
  /\ forall A, WPoints.won e A -> exists j, (0 <= j < w_r s /\ multiple (WPoints.wsum e) Infinity (Affine (w_gx s) (w_gy s)) (Z.to_nat j) A)
     /\ forall j', 0 <= j' < w_r s -> multiple (WPoints.wsum e) Infinity (Affine (w_gx s) (w_gy s)) (Z.to_nat j') A -> j' = j.
Proof. exact c55_generator. Qed.
Print Assumptions C55_generator.

(** on the Montgomery curves they do not: the point (0,0) of order 2 *)
Theorem C55_scalar_action_refuted : forall X s, In (X, s) [(CURVE25519, std_CURVE25519); (CURVE448, std_CURVE448)] ->
  exists e P k l, X = Ret e /\ MPoints.mpoint e P (Affine 0 0)
  /\ valid_scalar (MCurve.c_r e) k /\ valid_scalar (MCurve.c_r e) l
  /\ bind (bind (MCurve.pt_mul false P k) (fun Y => bind (MCurve.pt_mul false P l) (fun Z => MCurve.pt_add Y Z)))
       (fun L => bind (bind (sc_add k l) (fun m => MCurve.pt_mul false P m)) (fun M => MCurve.pt_eqb L M)) = Ret false.
Proof. exact c55_scalar_action_refuted. Qed.
Print Assumptions C55_scalar_action_refuted.

(** (0,2) is a point of BLS12-381 G1 of order 3, a divisor of the cofactor *)
Example C55_cofactor_ex : (e <- BLS12381G1 ;; P <- WCurve.new_point e (mkFpElt 0 (w_get_field e)) (mkFpElt 2 (w_get_field e)) ;;
  k <- WCurve.new_scalar e 3 ;; Q <- WCurve.pt_mul false P k ;;
  Ret (WCurve.pt_is_zero P, WCurve.pt_is_zero Q, w_get_cofactor e mod 3)) = Ret (false, true, 0).
Proof. exact c55_cofactor_ex. Qed.

(** G + 1 G = 2 G on P-256 *)
Example C55_scalar_action_ex : (e <- P256 ;; G <- WCurve.get_generator e ;; k <- WCurve.new_scalar e 2 ;;
  A <- WCurve.pt_add G G ;; B <- WCurve.pt_mul false G k ;; t <- WCurve.pt_eqb A B ;; u <- WCurve.pt_eqb A G ;; Ret (t, u)) = Ret (true, false).
Proof. exact c55_scalar_action_ex. Qed.

(** on CURVE25519 the cofactor sends (0,0) to the identity *)
Example C55_mont_ex : (e <- CURVE25519 ;; k <- MCurve.new_scalar e (m_get_cofactor e) ;;
  P <- MCurve.new_point e (mkFpElt 0 (m_get_field e)) (mkFpElt 0 (m_get_field e)) ;; Q <- MCurve.pt_mul false P k ;; Ret (MCurve.pt_is_zero P, MCurve.pt_is_zero Q)) = Ret (false, true).
Proof. exact c55_mont_ex. Qed.

(** on EDWARDS25519 the cofactor sends a point of order 8 to (0,1) *)
Example C55_edw_ex : (e <- EDWARDS25519 ;; k <- ECurve.new_scalar e (e_get_cofactor e) ;; l <- ECurve.new_scalar e 4 ;;
  P <- ECurve.new_point e (mkFpElt x_EDWARDS25519 (e_get_field e)) (mkFpElt y_EDWARDS25519 (e_get_field e)) ;;
  Q <- ECurve.pt_mul false P k ;; R <- ECurve.pt_mul false P l ;; I <- ECurve.identity e ;; t <- ECurve.pt_eqb Q I ;; u <- ECurve.pt_eqb R I ;; Ret (t, u)) = Ret (true, false).
Proof. exact c55_edw_ex. Qed.
