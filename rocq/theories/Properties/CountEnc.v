(** C76: how many byte strings decode accepts, for each point and in all. *)

From Coq Require Import ZArith Znumtheory Lia String Bool List.
From Verif.Spec Require Import Arith Curve Order Elements.
From Verif.Spec Require WPoints MPoints EPoints.
From Verif.Spec Require Instances.
From Verif.Model Require Import Out BigInt PrimeField Scalar.
From Verif.Model Require WCurve MCurve ECurve.
From Verif.Model Require Instances.
From Verif.Proofs Require Import SmallP FieldProps BytesP CountP.
From Verif.Proofs Require WeierProps MontProps EdwP EdwProps EncProps WireProps InstProps OrderProps EdEllProps Cert_Order.
From Verif.Spec Require Export Shipped Membership Accepted.
Import Spec.Instances Model.Instances.
Import ListNotations.
Open Scope Z_scope.
From Verif.Proofs Require Import CountEncProps.

Theorem C76_point : forall e x y, WPoints.weier e -> sqrt_modulus (modulus (WCurve.c_f e)) -> WPoints.won e (Affine x y) ->
  counted (reads (WCurve.decode e) (WPoints.wpoint e) (Affine x y)) 2.
Proof. exact c76_point. Qed.
Print Assumptions C76_point.

Theorem C76_all : forall e n, WPoints.weier e -> sqrt_modulus (modulus (WCurve.c_f e)) -> counted (WPoints.won e) n ->
  counted (taken (WCurve.decode e)) (2 * (n - 1)).
Proof. exact c76_all. Qed.
Print Assumptions C76_all.

Theorem C76_mont_point : forall e x y, MPoints.mont e -> sqrt_modulus (modulus (MCurve.c_f e)) -> MPoints.mon e (Affine x y) ->
  counted (reads (MCurve.decode e) (MPoints.mpoint e) (Affine x y)) (if y =? 0 then 3 else 2).
Proof. exact c76_mont_point. Qed.
Print Assumptions C76_mont_point.

Theorem C76_mont_all : forall e n t, MPoints.mont e -> sqrt_modulus (modulus (MCurve.c_f e)) -> counted (MPoints.mon e) n ->
  counted (fun x => MPoints.mon e (Affine x 0)) t -> counted (taken (MCurve.decode e)) (2 * (n - 1) + t).
Proof. exact c76_mont_all. Qed.
Print Assumptions C76_mont_all.

Theorem C76_edw_point : forall e A, EPoints.edw e -> sqrt_modulus (modulus (ECurve.c_f e)) -> EPoints.eon e A ->
  counted (reads (ECurve.decode e) (EPoints.epoint e) A) 1.
Proof. exact c76_edw_point. Qed.
Print Assumptions C76_edw_point.

Theorem C76_edw_all : forall e n, EPoints.edw e -> sqrt_modulus (modulus (ECurve.c_f e)) -> counted (EPoints.eon e) n -> counted (taken (ECurve.decode e)) n.
Proof. exact c76_edw_all. Qed.
Print Assumptions C76_edw_all.

Theorem C76_shipped : forall X s, In (X, s) prime_curves -> exists e, X = Ret e /\ counted (taken (WCurve.decode e)) (2 * (w_r s - 1)).
Proof. exact c76_shipped. Qed.
Print Assumptions C76_shipped.

Theorem C76_bls : forall X s, In (X, s) [(BLS12381G1, std_BLS12381G1); (BLS12381G1_11ISO, std_BLS12381G1_11ISO)] ->
  exists e, X = Ret e /\ counted (taken (WCurve.decode e)) (2 * (w_r s * 0x396C8C005555E1568C00AAAB0000AAAB - 1)).
Proof. exact c76_bls. Qed.
Print Assumptions C76_bls.

Theorem C76_mont_shipped : forall X s, In (X, s) m_curves -> exists e, X = Ret e /\ counted (taken (MCurve.decode e)) (2 * (m_r s * m_h s) - 1).
Proof. exact c76_mont_shipped. Qed.
Print Assumptions C76_mont_shipped.

Theorem C76_edw_shipped : forall X s, In (X, s) e_curves -> exists e, X = Ret e /\ counted (taken (ECurve.decode e)) (e_r s * e_h s).
Proof. exact c76_edw_shipped. Qed.
Print Assumptions C76_edw_shipped.

(** y^2 = x^3 + x + 6 modulo 7 has 11 points: 20 strings are accepted, here counted among those of up to three
    bytes below 8; the point (0,0) of y^2 = x^3 + 6 x^2 + x modulo 19 is read from three strings *)
Example C76_ex : WPoints.wgroup WeierProps.E7 /\ MPoints.mgroup MontProps.E19
  /\ (let b := [0; 1; 2; 3; 4; 5; 6; 7] in
      let l2 := flat_map (fun t => map (fun x => [t; x]) b) b in
      List.length (filter (fun s => match WCurve.decode WeierProps.E7 s with Ret (Ok _) => true | _ => false end)
        (map (fun t => [t]) b ++ l2 ++ flat_map (fun s => map (fun y => s ++ [y]) b) l2)%list) = 20%nat)
  /\ map (MCurve.decode MontProps.E19) [[2; 0]; [3; 0]; [4; 0; 0]] = repeat (Ret (Ok (MontProps.pt19 0 0 1))) 3
  /\ MPoints.mpoint MontProps.E19 (MontProps.pt19 0 0 1) (Affine 0 0).
Proof. exact c76_ex. Qed.
