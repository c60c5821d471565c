(** C77: multiplying by the cofactor sends the same number of points to every multiple of the base point. *)

From Coq Require Import ZArith Znumtheory Lia String Bool List.
From Verif.Spec Require Import Arith Curve Order Elements.
From Verif.Spec Require WPoints MPoints EPoints.
From Verif.Spec Require Instances.
From Verif.Model Require Import Out BigInt PrimeField Scalar CurveExtras.
From Verif.Model Require WCurve MCurve ECurve.
From Verif.Model Require Instances.
From Verif.Proofs Require Import FieldProps ScalarProps ScLaw ScLawProps OrderRun Subgroup SubgroupRun Protocols ProtocolRun CountP ClearP.
From Verif.Proofs Require WeierProps MontProps EdwProps InstProps OrderProps SubgroupProps.
From Verif.Spec Require Export Shipped Membership Clearing.
Import Spec.Instances Model.Instances.
Import ListNotations.
Open Scope Z_scope.
From Verif.Proofs Require Import ClearProps.

Theorem C77_any_curve : forall e h n MG G, WPoints.weier e -> Z.log2 (WCurve.c_r e) < 2 ^ 63 -> prime (WCurve.c_r e) -> 0 < h < WCurve.c_r e ->
  WPoints.wpoint e MG G -> (forall m, multiple (WPoints.wsum e) Infinity G m Infinity <-> (WCurve.c_r e | Z.of_nat m)) ->
  clears (WPoints.won e) (WPoints.wsum e) Infinity G h (WCurve.c_r e) -> counted (WPoints.won e) n ->
  exists k f, WCurve.new_scalar e h = Ret k /\ n = WCurve.c_r e * f
  /\ (forall C, generated (WPoints.wsum e) Infinity G (WCurve.c_r e) C -> counted (sent_to (WPoints.wpoint e) WCurve.pt_mul k C) f)
  /\ (forall C A, sent_to (WPoints.wpoint e) WCurve.pt_mul k C A -> generated (WPoints.wsum e) Infinity G (WCurve.c_r e) C)
  /\ (forall A, WPoints.won e A -> exists C, sent_to (WPoints.wpoint e) WCurve.pt_mul k C A).
Proof. exact c77_any_curve. Qed.
Print Assumptions C77_any_curve.

Theorem C77_mont_any_curve : forall e h n MG G, MPoints.mont e -> Z.log2 (MCurve.c_r e) < 2 ^ 63 -> prime (MCurve.c_r e) -> 0 < h < MCurve.c_r e ->
  MPoints.mpoint e MG G -> (forall m, multiple (MPoints.msum e) Infinity G m Infinity <-> (MCurve.c_r e | Z.of_nat m)) ->
  clears (MPoints.mon e) (MPoints.msum e) Infinity G h (MCurve.c_r e) -> counted (MPoints.mon e) n ->
  exists k f, MCurve.new_scalar e h = Ret k /\ n = MCurve.c_r e * f
  /\ (forall C, generated (MPoints.msum e) Infinity G (MCurve.c_r e) C -> counted (sent_to (MPoints.mpoint e) MCurve.pt_mul k C) f)
  /\ (forall C A, sent_to (MPoints.mpoint e) MCurve.pt_mul k C A -> generated (MPoints.msum e) Infinity G (MCurve.c_r e) C)
  /\ (forall A, MPoints.mon e A -> exists C, sent_to (MPoints.mpoint e) MCurve.pt_mul k C A).
Proof. exact c77_mont_any_curve. Qed.
Print Assumptions C77_mont_any_curve.

Theorem C77_edw_any_curve : forall e h n MG G, EPoints.edw e -> Z.log2 (ECurve.c_r e) < 2 ^ 63 -> prime (ECurve.c_r e) -> 0 < h < ECurve.c_r e ->
  EPoints.epoint e MG G -> (forall m, multiple (EPoints.esum e) (0, 1) G m (0, 1) <-> (ECurve.c_r e | Z.of_nat m)) ->
  clears (EPoints.eon e) (EPoints.esum e) (0, 1) G h (ECurve.c_r e) -> counted (EPoints.eon e) n ->
  exists k f, ECurve.new_scalar e h = Ret k /\ n = ECurve.c_r e * f
  /\ (forall C, generated (EPoints.esum e) (0, 1) G (ECurve.c_r e) C -> counted (sent_to (EPoints.epoint e) ECurve.pt_mul k C) f)
  /\ (forall C A, sent_to (EPoints.epoint e) ECurve.pt_mul k C A -> generated (EPoints.esum e) (0, 1) G (ECurve.c_r e) C)
  /\ (forall A, EPoints.eon e A -> exists C, sent_to (EPoints.epoint e) ECurve.pt_mul k C A).
Proof. exact c77_edw_any_curve. Qed.
Print Assumptions C77_edw_any_curve.

Theorem C77_shipped : forall X s, In (X, s) prime_curves -> exists e k, X = Ret e /\ WCurve.new_scalar e (w_get_cofactor e) = Ret k
  /\ (forall C, generated (WPoints.wsum e) Infinity (Affine (w_gx s) (w_gy s)) (w_r s) C -> counted (sent_to (WPoints.wpoint e) WCurve.pt_mul k C) 1)
  /\ (forall A, WPoints.won e A -> exists C, generated (WPoints.wsum e) Infinity (Affine (w_gx s) (w_gy s)) (w_r s) C /\ sent_to (WPoints.wpoint e) WCurve.pt_mul k C A).
Proof. exact c77_shipped. Qed.
Print Assumptions C77_shipped.

Theorem C77_bls : exists e k, BLS12381G1 = Ret e /\ WCurve.new_scalar e (w_get_cofactor e) = Ret k
  /\ (forall C, generated (WPoints.wsum e) Infinity (Affine (w_gx std_BLS12381G1) (w_gy std_BLS12381G1)) (w_r std_BLS12381G1) C ->
     counted (sent_to (WPoints.wpoint e) WCurve.pt_mul k C) 0x396C8C005555E1568C00AAAB0000AAAB)
  /\ (forall A, WPoints.won e A -> exists C, generated (WPoints.wsum e) Infinity (Affine (w_gx std_BLS12381G1) (w_gy std_BLS12381G1)) (w_r std_BLS12381G1) C /\ sent_to (WPoints.wpoint e) WCurve.pt_mul k C A).
Proof. exact c77_bls. Qed.
Print Assumptions C77_bls.

(** the isogenous curve: eleven times its cofactor *)
Theorem C77_bls_iso : exists e k, BLS12381G1_11ISO = Ret e /\ WCurve.new_scalar e (11 * w_get_cofactor e) = Ret k
  /\ (forall C, generated (WPoints.wsum e) Infinity (Affine (w_gx std_BLS12381G1_11ISO) (w_gy std_BLS12381G1_11ISO)) (w_r std_BLS12381G1_11ISO) C ->
     counted (sent_to (WPoints.wpoint e) WCurve.pt_mul k C) 0x396C8C005555E1568C00AAAB0000AAAB)
  /\ (forall A, WPoints.won e A -> exists C, generated (WPoints.wsum e) Infinity (Affine (w_gx std_BLS12381G1_11ISO) (w_gy std_BLS12381G1_11ISO)) (w_r std_BLS12381G1_11ISO) C /\ sent_to (WPoints.wpoint e) WCurve.pt_mul k C A).
Proof. exact c77_bls_iso. Qed.
Print Assumptions C77_bls_iso.

Theorem C77_mont_shipped : forall X s, In (X, s) m_curves -> exists e k, X = Ret e /\ MCurve.new_scalar e (m_get_cofactor e) = Ret k
  /\ (forall C, generated (MPoints.msum e) Infinity (Affine (m_gx s) (m_gy s)) (m_r s) C -> counted (sent_to (MPoints.mpoint e) MCurve.pt_mul k C) (m_h s))
  /\ (forall A, MPoints.mon e A -> exists C, generated (MPoints.msum e) Infinity (Affine (m_gx s) (m_gy s)) (m_r s) C /\ sent_to (MPoints.mpoint e) MCurve.pt_mul k C A).
Proof. exact c77_mont_shipped. Qed.
Print Assumptions C77_mont_shipped.

Theorem C77_edw_shipped : forall X s, In (X, s) e_curves -> exists e k, X = Ret e /\ ECurve.new_scalar e (e_get_cofactor e) = Ret k
  /\ (forall C, generated (EPoints.esum e) (0, 1) (e_gx s, e_gy s) (e_r s) C -> counted (sent_to (EPoints.epoint e) ECurve.pt_mul k C) (e_h s))
  /\ (forall A, EPoints.eon e A -> exists C, generated (EPoints.esum e) (0, 1) (e_gx s, e_gy s) (e_r s) C /\ sent_to (EPoints.epoint e) ECurve.pt_mul k C A).
Proof. exact c77_edw_shipped. Qed.
Print Assumptions C77_edw_shipped.

(** y^2 = x^3 + 6 x^2 + x modulo 19 has 20 points, the base point (7,6) has order 5 and the cofactor is 4: of the 19 affine
    points, 4 are sent to each of G, 2 G, 3 G, 4 G and 3 (with the point at infinity 4) to the identity *)
Example C77_ex : MPoints.mgroup MontProps.E19
  /\ (let l := map Z.of_nat (seq 0 19) in
      let pts := flat_map (fun x => flat_map (fun y => match MCurve.new_point MontProps.E19 (MontProps.n19 x) (MontProps.n19 y) with Ret P => [P] | _ => [] end) l) l in
      bind (MCurve.get_generator MontProps.E19) (fun G => bind (MCurve.new_scalar MontProps.E19 (m_get_cofactor MontProps.E19)) (fun k =>
      Ret (List.length pts, map (fun j => List.length (filter (fun P =>
        match bind (MCurve.pt_mul false P k) (fun Q => bind (MCurve.pt_mul false G (mkScalar j 5)) (fun C => MCurve.pt_eqb Q C)) with Ret true => true | _ => false end) pts)) [0; 1; 2; 3; 4])))
      = Ret (19%nat, [3%nat; 4%nat; 4%nat; 4%nat; 4%nat])).
Proof. exact c77_ex. Qed.
