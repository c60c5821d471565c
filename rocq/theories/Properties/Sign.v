(** C61: signatures and proofs of knowledge of a key, built from the operations of a curve. *)

From Coq Require Import ZArith Znumtheory Lia String Ascii Bool List.
From Verif.Math Require Import FinGroup.
From Verif.Spec Require Import Arith Curve Order.
From Verif.Spec Require Instances.
From Verif.Model Require Import Out BigInt PrimeField Scalar CurveExtras.
From Verif.Model Require Instances.
From Verif.Model Require WCurve MCurve ECurve.
From Verif.Proofs Require Import FieldProps ScalarProps ScLaw ScLawProps OrderRun Subgroup SubgroupRun SubgroupProps Protocols ProtocolRun.
From Verif.Proofs Require WeierProps MontProps EdwProps InstProps.
From Verif.Spec Require Export Shipped Membership Protocols.
Import Spec.Instances Model.Instances.
Import ListNotations.
Open Scope Z_scope.
Local Open Scope out_scope.
From Verif.Proofs Require Import SignProps.

Theorem C61_any_curve : forall e MG G, WPoints.weier e -> Z.log2 (WCurve.c_r e) < 2 ^ 63 -> prime (WCurve.c_r e) -> WPoints.wpoint e MG G ->
  (forall n, multiple (WPoints.wsum e) Infinity G n Infinity <-> (WCurve.c_r e | Z.of_nat n)) ->
  schnorr_exact (WCurve.c_r e) WCurve.pt_mul WCurve.pt_add WCurve.pt_eqb MG
  /\ schnorr_extracts (WPoints.wpoint e) (WPoints.wsum e) Infinity (WCurve.c_r e) WCurve.pt_mul WCurve.pt_add WCurve.pt_eqb MG G
  /\ ecdsa_exact (WCurve.c_r e) WCurve.pt_mul WCurve.pt_add WCurve.pt_eqb MG.
Proof. exact c61_any_curve. Qed.
Print Assumptions C61_any_curve.

Theorem C61_mont_any_curve : forall e MG G, MPoints.mont e -> Z.log2 (MCurve.c_r e) < 2 ^ 63 -> prime (MCurve.c_r e) -> MPoints.mpoint e MG G ->
  (forall n, multiple (MPoints.msum e) Infinity G n Infinity <-> (MCurve.c_r e | Z.of_nat n)) ->
  schnorr_exact (MCurve.c_r e) MCurve.pt_mul MCurve.pt_add MCurve.pt_eqb MG
  /\ schnorr_extracts (MPoints.mpoint e) (MPoints.msum e) Infinity (MCurve.c_r e) MCurve.pt_mul MCurve.pt_add MCurve.pt_eqb MG G
  /\ ecdsa_exact (MCurve.c_r e) MCurve.pt_mul MCurve.pt_add MCurve.pt_eqb MG.
Proof. exact c61_mont_any_curve. Qed.
Print Assumptions C61_mont_any_curve.

Theorem C61_edw_any_curve : forall e MG G, EPoints.edw e -> Z.log2 (ECurve.c_r e) < 2 ^ 63 -> prime (ECurve.c_r e) -> EPoints.epoint e MG G ->
  (forall n, multiple (EPoints.esum e) (0, 1) G n (0, 1) <-> (ECurve.c_r e | Z.of_nat n)) ->
  schnorr_exact (ECurve.c_r e) ECurve.pt_mul ECurve.pt_add ECurve.pt_eqb MG
  /\ schnorr_extracts (EPoints.epoint e) (EPoints.esum e) (0, 1) (ECurve.c_r e) ECurve.pt_mul ECurve.pt_add ECurve.pt_eqb MG G
  /\ ecdsa_exact (ECurve.c_r e) ECurve.pt_mul ECurve.pt_add ECurve.pt_eqb MG.
Proof. exact c61_edw_any_curve. Qed.
Print Assumptions C61_edw_any_curve.

Theorem C61_shipped : forall X s, In (X, s) w_curves -> exists e G, X = Ret e /\ WCurve.get_generator e = Ret G
  /\ schnorr_exact (w_get_order e) WCurve.pt_mul WCurve.pt_add WCurve.pt_eqb G
  /\ schnorr_extracts (WPoints.wpoint e) (WPoints.wsum e) Infinity (w_get_order e) WCurve.pt_mul WCurve.pt_add WCurve.pt_eqb G (Affine (w_gx s) (w_gy s))
  /\ ecdsa_exact (w_get_order e) WCurve.pt_mul WCurve.pt_add WCurve.pt_eqb G.
Proof. exact c61_shipped. Qed.
Print Assumptions C61_shipped.

Theorem C61_mont_shipped : forall X s, In (X, s) m_curves -> exists e G, X = Ret e /\ MCurve.get_generator e = Ret G
  /\ schnorr_exact (m_get_order e) MCurve.pt_mul MCurve.pt_add MCurve.pt_eqb G
  /\ schnorr_extracts (MPoints.mpoint e) (MPoints.msum e) Infinity (m_get_order e) MCurve.pt_mul MCurve.pt_add MCurve.pt_eqb G (Affine (m_gx s) (m_gy s))
  /\ ecdsa_exact (m_get_order e) MCurve.pt_mul MCurve.pt_add MCurve.pt_eqb G.
Proof. exact c61_mont_shipped. Qed.
Print Assumptions C61_mont_shipped.

Theorem C61_edw_shipped : forall X s, In (X, s) e_curves -> exists e G, X = Ret e /\ ECurve.get_generator e = Ret G
  /\ schnorr_exact (e_get_order e) ECurve.pt_mul ECurve.pt_add ECurve.pt_eqb G
  /\ schnorr_extracts (EPoints.epoint e) (EPoints.esum e) (0, 1) (e_get_order e) ECurve.pt_mul ECurve.pt_add ECurve.pt_eqb G (e_gx s, e_gy s)
  /\ ecdsa_exact (e_get_order e) ECurve.pt_mul ECurve.pt_add ECurve.pt_eqb G.
Proof. exact c61_edw_shipped. Qed.
Print Assumptions C61_edw_shipped.

Theorem C61_extraction_refuted : exists e G P, BLS12381G1 = Ret e /\ WCurve.get_generator e = Ret G /\ WPoints.wpoint e P (Affine 0 2)
  /\ schnorr_fooled (w_get_order e) WCurve.pt_mul WCurve.pt_add WCurve.pt_eqb G P.
Proof. exact c61_extraction_refuted. Qed.
Print Assumptions C61_extraction_refuted.

Theorem C61_mont_extraction_refuted : forall X s, In (X, s) m_curves -> exists e G P, X = Ret e /\ MCurve.get_generator e = Ret G /\ MPoints.mpoint e P (Affine 0 0)
  /\ schnorr_fooled (m_get_order e) MCurve.pt_mul MCurve.pt_add MCurve.pt_eqb G P.
Proof. exact c61_mont_extraction_refuted. Qed.
Print Assumptions C61_mont_extraction_refuted.

Theorem C61_edw_extraction_refuted : forall X s, In (X, s) e_curves -> exists e G P, X = Ret e /\ ECurve.get_generator e = Ret G /\ EPoints.epoint e P (0, e_p s - 1)
  /\ schnorr_fooled (e_get_order e) ECurve.pt_mul ECurve.pt_add ECurve.pt_eqb G P.
Proof. exact c61_edw_extraction_refuted. Qed.
Print Assumptions C61_edw_extraction_refuted.

(** y^2 = x^3 + x + 6 over F_7, 11 points, base point (1, 1): key 3, nonce 5, challenge 4; the response is 6 and only 6 passes;
    the answers 6 and 10 to the challenges 4 and 9 reveal the key; (message 2, rho 7) is signed by 9 *)
Example C61_ex :
  let G := WeierProps.pt7 1 1 1 in let sc x := mkScalar x 11 in
  schnorr_respond (sc 3) (sc 5) (sc 4) = Ret (sc 6)
  /\ map (fun t => A <- WCurve.pt_mul true G (sc 3) ;; R <- WCurve.pt_mul true G (sc 5) ;; schnorr_check (WCurve.pt_mul true) WCurve.pt_add WCurve.pt_eqb G A R (sc 4) (sc t)) [1; 2; 3; 4; 5; 6; 7; 8; 9; 10]
     = map Ret [false; false; false; false; false; true; false; false; false; false]
  /\ schnorr_respond (sc 3) (sc 5) (sc 9) = Ret (sc 10) /\ schnorr_extract (sc 4) (sc 6) (sc 9) (sc 10) = Ret (sc 3)
  /\ ecdsa_sign (sc 2) (sc 7) (sc 3) (sc 5) = Ret (sc 9)
  /\ map (fun t => Q <- WCurve.pt_mul true G (sc 3) ;; R <- WCurve.pt_mul true G (sc 5) ;; W <- ecdsa_point (WCurve.pt_mul true) WCurve.pt_add G Q (sc 2) (sc 7) (sc t) ;; WCurve.pt_eqb W R) [1; 2; 3; 4; 5; 6; 7; 8; 9; 10]
     = map Ret [false; false; false; false; false; false; false; false; true; false].
Proof. exact c61_ex. Qed.
