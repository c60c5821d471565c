(** C57: which points share their bytes. *)

From Coq Require Import ZArith Znumtheory Lia String Bool List.
From Verif.Math Require Import Fld Zp.
From Verif.Spec Require Import Arith Curve Instances.
From Verif.Model Require Import Out BigInt PrimeField Scalar Instances.
From Verif.Proofs Require Import SmallP FieldProps BytesP ScalarProps CurveP InstP InstShip.
From Verif.Model Require WCurve MCurve ECurve.
From Verif.Proofs Require WeierP MontP EdwP WeierProps MontProps EdwProps InstProps ScLawProps.
From Verif.Math Require Import ECGroup.
From Verif.Spec Require Export Shipped.
Import ListNotations.
Open Scope Z_scope.
From Verif.Proofs Require Import EncProps.

(** P and Q have the same bytes exactly when they are equal, except that in compressed form the identity has the bytes
    of the point (0, y) with y even, if there is one *)
Theorem C57_same_bytes : forall e P Q A B c, WPoints.weier e -> WPoints.wpoint e P A -> WPoints.wpoint e Q B ->
  (exists buf, WCurve.encode P c = Ret buf)
  /\ (WCurve.encode P c = WCurve.encode Q c <->
      WCurve.pt_eqb P Q = Ret true
      \/ (c = true /\ exists y, Z.even y = true /\ ((A = Infinity /\ B = Affine 0 y) \/ (A = Affine 0 y /\ B = Infinity)))).
Proof. exact c57_same_bytes. Qed.
Print Assumptions C57_same_bytes.

(** both ends of a key agreement get the same bytes *)
Theorem C57_shared_bytes : forall e oc oc' P A k l c, WPoints.weier e -> Z.log2 (WCurve.c_r e) < 2 ^ 63 -> WPoints.wpoint e P A ->
  valid_scalar (WCurve.c_r e) k -> valid_scalar (WCurve.c_r e) l -> (oc = true \/ oc' = true -> sk k <> 0 /\ sk l <> 0) ->
  exists buf, bind (bind (WCurve.pt_mul oc P k) (fun X => WCurve.pt_mul oc' X l)) (fun X => WCurve.encode X c) = Ret buf
    /\ bind (bind (WCurve.pt_mul oc' P l) (fun X => WCurve.pt_mul oc X k)) (fun X => WCurve.encode X c) = Ret buf.
Proof. exact c57_shared_bytes. Qed.
Print Assumptions C57_shared_bytes.

(** the bytes do not separate the identity from the point (0, 0) of order 2; they separate everything else *)
Theorem C57_mont_same_bytes : forall e P Q A B c, MPoints.mont e -> MPoints.mpoint e P A -> MPoints.mpoint e Q B ->
  (exists buf, MCurve.encode P c = Ret buf)
  /\ (MCurve.encode P c = MCurve.encode Q c <->
      MCurve.pt_eqb P Q = Ret true \/ (A = Infinity /\ B = Affine 0 0) \/ (A = Affine 0 0 /\ B = Infinity)).
Proof. exact c57_mont_same_bytes. Qed.
Print Assumptions C57_mont_same_bytes.

Theorem C57_mont_shared_bytes : forall e oc oc' P A k l c, MPoints.mont e -> Z.log2 (MCurve.c_r e) < 2 ^ 63 -> MPoints.mpoint e P A ->
  valid_scalar (MCurve.c_r e) k -> valid_scalar (MCurve.c_r e) l -> (oc = true \/ oc' = true -> sk k <> 0 /\ sk l <> 0) ->
  exists buf, bind (bind (MCurve.pt_mul oc P k) (fun X => MCurve.pt_mul oc' X l)) (fun X => MCurve.encode X c) = Ret buf
    /\ bind (bind (MCurve.pt_mul oc' P l) (fun X => MCurve.pt_mul oc X k)) (fun X => MCurve.encode X c) = Ret buf.
Proof. exact c57_mont_shared_bytes. Qed.
Print Assumptions C57_mont_shared_bytes.

(** the bytes separate all points, in every combination of the (ignored) flags *)
Theorem C57_edw_same_bytes : forall e P Q A B c c', EPoints.edw e -> EPoints.epoint e P A -> EPoints.epoint e Q B ->
  (exists buf, ECurve.encode P c = Ret buf) /\ (ECurve.encode P c = ECurve.encode Q c' <-> ECurve.pt_eqb P Q = Ret true).
Proof. exact c57_edw_same_bytes. Qed.
Print Assumptions C57_edw_same_bytes.

Theorem C57_edw_shared_bytes : forall e oc oc' P A k l c c', EPoints.edw e -> Z.log2 (ECurve.c_r e) < 2 ^ 63 -> EPoints.epoint e P A ->
  valid_scalar (ECurve.c_r e) k -> valid_scalar (ECurve.c_r e) l -> (oc = true \/ oc' = true -> sk k <> 0 /\ sk l <> 0) ->
  exists buf, bind (bind (ECurve.pt_mul oc P k) (fun X => ECurve.pt_mul oc' X l)) (fun X => ECurve.encode X c) = Ret buf
    /\ bind (bind (ECurve.pt_mul oc' P l) (fun X => ECurve.pt_mul oc X k)) (fun X => ECurve.encode X c') = Ret buf.
Proof. exact c57_edw_shared_bytes. Qed.
Print Assumptions C57_edw_shared_bytes.

Theorem C57_identity_has_its_own_bytes_refuted : collides P256 /\ collides P384 /\ collides P521 /\ collides BLS12381G1.
Proof. exact c57_identity_has_its_own_bytes_refuted. Qed.
Print Assumptions C57_identity_has_its_own_bytes_refuted.

Example C57_ex : WPoints.weier WeierProps.E7 /\ WPoints.wpoint WeierProps.E7 (WeierProps.pt7 1 1 1) (Affine 1 1)
  /\ WCurve.encode (WeierProps.pt7 1 1 1) true = Ret [3; 1] /\ WCurve.encode (WeierProps.pt7 5 5 5) true = Ret [3; 1] /\ WCurve.encode (WeierProps.pt7 1 6 1) true = Ret [2; 1]
  /\ bind (bind (WCurve.pt_mul true (WeierProps.pt7 1 1 1) (mkScalar 7 11)) (fun X => WCurve.pt_mul true X (mkScalar 4 11))) (fun X => WCurve.encode X true) = Ret [2; 3]
  /\ bind (bind (WCurve.pt_mul true (WeierProps.pt7 1 1 1) (mkScalar 4 11)) (fun X => WCurve.pt_mul true X (mkScalar 7 11))) (fun X => WCurve.encode X true) = Ret [2; 3].
Proof. exact c57_ex. Qed.

Example C57_mont_ex : MPoints.mont MontProps.E19 /\ MPoints.mpoint MontProps.E19 (MontProps.pt19 0 3 0) Infinity /\ MPoints.mpoint MontProps.E19 (MontProps.pt19 0 0 3) (Affine 0 0)
  /\ MCurve.encode (MontProps.pt19 0 3 0) true = Ret [2; 0] /\ MCurve.encode (MontProps.pt19 0 0 3) true = Ret [2; 0]
  /\ MCurve.encode (MontProps.pt19 12 2 2) false = Ret [4; 6; 1] /\ MCurve.encode (MontProps.pt19 6 1 1) false = Ret [4; 6; 1].
Proof. exact c57_mont_ex. Qed.

Example C57_edw_ex : EPoints.edw EdwProps.E29 /\ EPoints.epoint EdwProps.E29 (EdwProps.pt29 6 10 1 2) (3, 5) /\ sqrt_modulus 29
  /\ ECurve.encode (EdwProps.pt29 6 10 1 2) true = Ret [133] /\ ECurve.encode (EdwProps.pt29 3 5 15 1) false = Ret [133] /\ ECurve.encode (EdwProps.pt29 23 10 28 2) false = Ret [5].
Proof. exact c57_edw_ex. Qed.
