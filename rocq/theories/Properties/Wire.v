(** C75: key agreement over bytes. *)

From Coq Require Import ZArith Znumtheory Lia String Ascii Bool List.
From Verif.Math Require Import FinGroup.
From Verif.Spec Require Import Arith Curve Order Elements.
From Verif.Spec Require Instances.
From Verif.Model Require Import Out BigInt PrimeField Scalar CurveExtras.
From Verif.Model Require Instances.
From Verif.Model Require WCurve MCurve ECurve.
From Verif.Proofs Require Import FieldProps BytesP ScalarProps ScLaw ScLawProps OrderRun Subgroup SubgroupRun SubgroupProps Protocols ProtocolRun WireP.
From Verif.Proofs Require WeierProps MontProps EdwProps InstProps EncProps OrderProps.
From Verif.Spec Require Export Shipped Membership Wire.
Import Spec.Instances Model.Instances.
Import ListNotations.
Open Scope Z_scope.
Local Open Scope out_scope.
From Verif.Proofs Require Import WireProps.

Theorem C75_any_curve : forall e MG G, WPoints.wgroup e -> prime (WCurve.c_r e) -> WPoints.wpoint e MG G ->
  (forall n, multiple (WPoints.wsum e) Infinity G n Infinity <-> (WCurve.c_r e | Z.of_nat n)) ->
  agrees (WPoints.wpoint e) (WPoints.wsum e) Infinity (WCurve.c_r e) WCurve.pt_mul WCurve.encode (WCurve.decode e) MG G
  /\ key_exact (WCurve.c_r e) WCurve.pt_mul WCurve.encode (WCurve.decode e) MG.
Proof. exact c75_any_curve. Qed.
Print Assumptions C75_any_curve.

Theorem C75_mont_any_curve : forall e MG G, MPoints.mgroup e -> prime (MCurve.c_r e) -> MPoints.mpoint e MG G ->
  (forall n, multiple (MPoints.msum e) Infinity G n Infinity <-> (MCurve.c_r e | Z.of_nat n)) ->
  agrees (MPoints.mpoint e) (MPoints.msum e) Infinity (MCurve.c_r e) MCurve.pt_mul MCurve.encode (MCurve.decode e) MG G
  /\ key_exact (MCurve.c_r e) MCurve.pt_mul MCurve.encode (MCurve.decode e) MG.
Proof. exact c75_mont_any_curve. Qed.
Print Assumptions C75_mont_any_curve.

Theorem C75_edw_any_curve : forall e MG G, EPoints.egroup e -> prime (ECurve.c_r e) -> EPoints.epoint e MG G ->
  (forall n, multiple (EPoints.esum e) (0, 1) G n (0, 1) <-> (ECurve.c_r e | Z.of_nat n)) ->
  agrees (EPoints.epoint e) (EPoints.esum e) (0, 1) (ECurve.c_r e) ECurve.pt_mul ECurve.encode (ECurve.decode e) MG G
  /\ key_exact (ECurve.c_r e) ECurve.pt_mul ECurve.encode (ECurve.decode e) MG.
Proof. exact c75_edw_any_curve. Qed.
Print Assumptions C75_edw_any_curve.

Theorem C75_shipped : forall X s, In (X, s) w_curves -> exists e MG, X = Ret e /\ WCurve.get_generator e = Ret MG
  /\ agrees (WPoints.wpoint e) (WPoints.wsum e) Infinity (w_get_order e) WCurve.pt_mul WCurve.encode (WCurve.decode e) MG (Affine (w_gx s) (w_gy s))
  /\ key_exact (w_get_order e) WCurve.pt_mul WCurve.encode (WCurve.decode e) MG.
Proof. exact c75_shipped. Qed.
Print Assumptions C75_shipped.

Theorem C75_mont_shipped : forall X s, In (X, s) m_curves -> exists e MG, X = Ret e /\ MCurve.get_generator e = Ret MG
  /\ agrees (MPoints.mpoint e) (MPoints.msum e) Infinity (m_get_order e) MCurve.pt_mul MCurve.encode (MCurve.decode e) MG (Affine (m_gx s) (m_gy s))
  /\ key_exact (m_get_order e) MCurve.pt_mul MCurve.encode (MCurve.decode e) MG.
Proof. exact c75_mont_shipped. Qed.
Print Assumptions C75_mont_shipped.

Theorem C75_edw_shipped : forall X s, In (X, s) e_curves -> exists e MG, X = Ret e /\ ECurve.get_generator e = Ret MG
  /\ agrees (EPoints.epoint e) (EPoints.esum e) (0, 1) (e_get_order e) ECurve.pt_mul ECurve.encode (ECurve.decode e) MG (e_gx s, e_gy s)
  /\ key_exact (e_get_order e) ECurve.pt_mul ECurve.encode (ECurve.decode e) MG.
Proof. exact c75_edw_shipped. Qed.
Print Assumptions C75_edw_shipped.

Theorem C75_contributory : forall X s, In (X, s) prime_curves -> exists e, X = Ret e
  /\ contributory (w_get_order e) WCurve.pt_mul WCurve.encode (WCurve.decode e) WCurve.pt_is_zero.
Proof. exact c75_contributory. Qed.
Print Assumptions C75_contributory.

Theorem C75_contributory_refuted : exists e, BLS12381G1 = Ret e
  /\ not_contributory (WPoints.wpoint e) Infinity (w_get_order e) WCurve.pt_mul (WCurve.decode e) 3.
Proof. exact c75_contributory_refuted. Qed.
Print Assumptions C75_contributory_refuted.

Theorem C75_mont_contributory_refuted : forall X s, In (X, s) m_curves -> exists e, X = Ret e
  /\ not_contributory (MPoints.mpoint e) Infinity (m_get_order e) MCurve.pt_mul (MCurve.decode e) 2.
Proof. exact c75_mont_contributory_refuted. Qed.
Print Assumptions C75_mont_contributory_refuted.

Theorem C75_edw_contributory_refuted : forall X s, In (X, s) e_curves -> exists e, X = Ret e
  /\ not_contributory (EPoints.epoint e) (0, 1) (e_get_order e) ECurve.pt_mul (ECurve.decode e) 2.
Proof. exact c75_edw_contributory_refuted. Qed.
Print Assumptions C75_edw_contributory_refuted.

(** y^2 = x^3 + x + 6 over F_7, base point (1, 1) of prime order 11: the keys 3 and 5 give 15 G = 4 G = (4, 5), whatever the forms sent;
    with the bytes of (1, 1) the ten keys give ten different results; an x that is too large is refused, one byte makes decode panic.
    y^2 = x^3 + 6 x^2 + x over F_19: the bytes 2, 0 are accepted as (0, 0), which the key 2 sends to the identity *)
Example C75_ex :
  let sc x := mkScalar x 11 in let e := WeierProps.E7 in let done b k := finish WCurve.pt_mul WCurve.encode (WCurve.decode e) true b (sc k) true in
  map (fun c => exchange WCurve.pt_mul WCurve.encode (WCurve.decode e) true false (fst c) (snd c) false (WeierProps.pt7 1 1 1) (sc 3) (sc 5)) (list_prod [true; false] [true; false])
    = repeat (Ret (Some [4; 4; 5], Some [4; 4; 5])) 4
  /\ (P <- WCurve.pt_mul true (WeierProps.pt7 1 1 1) (sc 4) ;; WCurve.encode P false) = Ret [4; 4; 5]
  /\ map (done [3; 1]) [1; 2; 3; 4; 5; 6; 7; 8; 9; 10]
    = map (fun s => Ret (Some s)) [[3; 1]; [2; 2]; [3; 6]; [3; 4]; [3; 3]; [2; 3]; [2; 4]; [2; 6]; [3; 2]; [2; 1]]
  /\ done [2; 9] 3 = Ret None /\ done [0] 3 = Panic "range end index out of range for slice"
  /\ (Q <- MCurve.decode MontProps.E19 [2; 0] ;; match Q with Ok Q => P <- MCurve.pt_mul true Q (mkScalar 2 5) ;; Ret (MCurve.pt_is_zero Q, MCurve.pt_is_zero P) | Err m => Panic m end) = Ret (false, true).
Proof. exact c75_ex. Qed.
