(** C78: blinded evaluation over bytes. *)

From Coq Require Import ZArith Znumtheory Lia String Ascii Bool List.
From Verif.Math Require Import FinGroup.
From Verif.Spec Require Import Arith Curve Order Elements.
From Verif.Spec Require Instances.
From Verif.Model Require Import Out BigInt PrimeField Scalar CurveExtras.
From Verif.Model Require Instances.
From Verif.Model Require WCurve MCurve ECurve.
From Verif.Proofs Require Import FieldProps BytesP ScalarProps ScLaw ScLawProps OrderRun Subgroup SubgroupRun SubgroupProps Protocols ProtocolRun WireP WireProps WireBlindP.
From Verif.Proofs Require WeierProps MontProps EdwProps InstProps EncProps OrderProps.
From Verif.Spec Require Export Shipped Membership Wire WireBlind.
Import Spec.Instances Model.Instances.
Import ListNotations.
Open Scope Z_scope.
Local Open Scope out_scope.
From Verif.Proofs Require Import WireBlindProps.

Theorem C78_any_curve : forall e MG G, WPoints.wgroup e -> prime (WCurve.c_r e) -> WPoints.wpoint e MG G ->
  (forall n, multiple (WPoints.wsum e) Infinity G n Infinity <-> (WCurve.c_r e | Z.of_nat n)) ->
  evaluates (WPoints.wpoint e) (WPoints.wsum e) Infinity (WCurve.c_r e) WCurve.pt_mul WCurve.encode (WCurve.decode e) G
  /\ separates (WPoints.wpoint e) (WPoints.wsum e) Infinity (WCurve.c_r e) WCurve.pt_mul WCurve.pt_eqb WCurve.encode (WCurve.decode e) G.
Proof. exact c78_any_curve. Qed.
Print Assumptions C78_any_curve.

Theorem C78_mont_any_curve : forall e MG G, MPoints.mgroup e -> prime (MCurve.c_r e) -> MPoints.mpoint e MG G ->
  (forall n, multiple (MPoints.msum e) Infinity G n Infinity <-> (MCurve.c_r e | Z.of_nat n)) ->
  evaluates (MPoints.mpoint e) (MPoints.msum e) Infinity (MCurve.c_r e) MCurve.pt_mul MCurve.encode (MCurve.decode e) G
  /\ separates (MPoints.mpoint e) (MPoints.msum e) Infinity (MCurve.c_r e) MCurve.pt_mul MCurve.pt_eqb MCurve.encode (MCurve.decode e) G.
Proof. exact c78_mont_any_curve. Qed.
Print Assumptions C78_mont_any_curve.

Theorem C78_edw_any_curve : forall e MG G, EPoints.egroup e -> prime (ECurve.c_r e) -> EPoints.epoint e MG G ->
  (forall n, multiple (EPoints.esum e) (0, 1) G n (0, 1) <-> (ECurve.c_r e | Z.of_nat n)) ->
  evaluates (EPoints.epoint e) (EPoints.esum e) (0, 1) (ECurve.c_r e) ECurve.pt_mul ECurve.encode (ECurve.decode e) G
  /\ separates (EPoints.epoint e) (EPoints.esum e) (0, 1) (ECurve.c_r e) ECurve.pt_mul ECurve.pt_eqb ECurve.encode (ECurve.decode e) G.
Proof. exact c78_edw_any_curve. Qed.
Print Assumptions C78_edw_any_curve.

Theorem C78_shipped : forall X s, In (X, s) w_curves -> exists e, X = Ret e
  /\ evaluates (WPoints.wpoint e) (WPoints.wsum e) Infinity (w_get_order e) WCurve.pt_mul WCurve.encode (WCurve.decode e) (Affine (w_gx s) (w_gy s))
  /\ separates (WPoints.wpoint e) (WPoints.wsum e) Infinity (w_get_order e) WCurve.pt_mul WCurve.pt_eqb WCurve.encode (WCurve.decode e) (Affine (w_gx s) (w_gy s)).
Proof. exact c78_shipped. Qed.
Print Assumptions C78_shipped.

Theorem C78_mont_shipped : forall X s, In (X, s) m_curves -> exists e, X = Ret e
  /\ evaluates (MPoints.mpoint e) (MPoints.msum e) Infinity (m_get_order e) MCurve.pt_mul MCurve.encode (MCurve.decode e) (Affine (m_gx s) (m_gy s))
  /\ separates (MPoints.mpoint e) (MPoints.msum e) Infinity (m_get_order e) MCurve.pt_mul MCurve.pt_eqb MCurve.encode (MCurve.decode e) (Affine (m_gx s) (m_gy s)).
Proof. exact c78_mont_shipped. Qed.
Print Assumptions C78_mont_shipped.

Theorem C78_edw_shipped : forall X s, In (X, s) e_curves -> exists e, X = Ret e
  /\ evaluates (EPoints.epoint e) (EPoints.esum e) (0, 1) (e_get_order e) ECurve.pt_mul ECurve.encode (ECurve.decode e) (e_gx s, e_gy s)
  /\ separates (EPoints.epoint e) (EPoints.esum e) (0, 1) (e_get_order e) ECurve.pt_mul ECurve.pt_eqb ECurve.encode (ECurve.decode e) (e_gx s, e_gy s).
Proof. exact c78_edw_shipped. Qed.
Print Assumptions C78_edw_shipped.

Theorem C78_hashed : forall X s e M, In (X, s) w_curves -> X = Ret e -> w_lands e M ->
  exists P h, M = Ret P /\ WCurve.new_scalar e (w_get_cofactor e) = Ret h
  /\ forall oc, exists Q, WCurve.pt_mul oc P h = Ret Q
  /\ (~ WPoints.wpoint e Q Infinity -> forall oc' c c' d b k, valid_scalar (w_get_order e) b -> sk b <> 0 -> valid_scalar (w_get_order e) k -> sk k <> 0 ->
      exists F out, WCurve.pt_mul oc Q k = Ret F /\ WCurve.encode F d = Ret out /\ evaluate WCurve.pt_mul WCurve.encode (WCurve.decode e) oc oc' c c' d Q b k = Ret (Some out)).
Proof. exact c78_hashed. Qed.
Print Assumptions C78_hashed.

Theorem C78_mont_hashed : forall X s e M, In (X, s) m_curves -> X = Ret e -> m_lands e M ->
  exists P h, M = Ret P /\ MCurve.new_scalar e (m_get_cofactor e) = Ret h
  /\ forall oc, exists Q, MCurve.pt_mul oc P h = Ret Q
  /\ (~ MPoints.mpoint e Q Infinity -> forall oc' c c' d b k, valid_scalar (m_get_order e) b -> sk b <> 0 -> valid_scalar (m_get_order e) k -> sk k <> 0 ->
      exists F out, MCurve.pt_mul oc Q k = Ret F /\ MCurve.encode F d = Ret out /\ evaluate MCurve.pt_mul MCurve.encode (MCurve.decode e) oc oc' c c' d Q b k = Ret (Some out)).
Proof. exact c78_mont_hashed. Qed.
Print Assumptions C78_mont_hashed.

Theorem C78_edw_hashed : forall X s e M, In (X, s) e_curves -> X = Ret e -> e_lands e M ->
  exists P h, M = Ret P /\ ECurve.new_scalar e (e_get_cofactor e) = Ret h
  /\ forall oc, exists Q, ECurve.pt_mul oc P h = Ret Q
  /\ (~ EPoints.epoint e Q (0, 1) -> forall oc' c c' d b k, valid_scalar (e_get_order e) b -> sk b <> 0 -> valid_scalar (e_get_order e) k -> sk k <> 0 ->
      exists F out, ECurve.pt_mul oc Q k = Ret F /\ ECurve.encode F d = Ret out /\ evaluate ECurve.pt_mul ECurve.encode (ECurve.decode e) oc oc' c c' d Q b k = Ret (Some out)).
Proof. exact c78_edw_hashed. Qed.
Print Assumptions C78_edw_hashed.

(** y^2 = x^3 + x + 6 modulo 7, of 11 points: on 3 G and key 4, all blinding scalars, profiles and forms give the bytes of 12 G = G;
    keys 1, .., 10 give ten different byte strings *)
Example C78_ex :
  let sc x := mkScalar x 11 in let e := WeierProps.E7 in let run := evaluate WCurve.pt_mul WCurve.encode (WCurve.decode e) in
  let G3 := WCurve.pt_mul true (WeierProps.pt7 1 1 1) (sc 3) in
  map (fun b => Q <- G3 ;; run true false true false true Q (sc b) (sc 4)) [1; 2; 3; 4; 5; 6; 7; 8; 9; 10] = repeat (Ret (Some [3; 1])) 10
  /\ map (fun c => Q <- G3 ;; run (fst c) true (snd c) (fst c) false Q (sc 7) (sc 4)) (list_prod [true; false] [true; false]) = repeat (Ret (Some [4; 1; 1])) 4
  /\ WCurve.encode (WeierProps.pt7 1 1 1) true = Ret [3; 1]
  /\ map (fun k => Q <- G3 ;; run true true true true true Q (sc 5) (sc k)) [1; 2; 3; 4; 5; 6; 7; 8; 9; 10]
     = map (fun s => Ret (Some s)) [[3; 6]; [2; 3]; [3; 2]; [3; 1]; [3; 4]; [2; 4]; [2; 1]; [2; 2]; [3; 3]; [2; 6]].
Proof. exact c78_ex. Qed.
