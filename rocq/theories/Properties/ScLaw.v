(** C56: laws of scalar multiplication, on all three kinds of curves. *)

From Coq Require Import ZArith Znumtheory Lia String Bool List.
From Verif.Math Require Import Fld Zp RCB FinGroup Edwards MontAdd.
From Verif.Spec Require Import Arith Curve.
From Verif.Model Require Import Out BigInt PrimeField Scalar.
From Verif.Proofs Require Import SmallP FieldProps ScalarProps CurveP OrderP ScLaw.
From Verif.Model Require WCurve MCurve ECurve.
From Verif.Proofs Require WeierP MontP EdwP WeierProps MontProps EdwProps.
From Verif.Math Require Import ECGroup.
Import ListNotations.
Open Scope Z_scope.
From Verif.Proofs Require Import ScLawProps.

(** both ends of a key agreement compute the same point: l (k P) == k (l P), for every point and either overflow behaviour *)
Theorem C56_agreement : forall e oc oc' P A k l, WPoints.weier e -> Z.log2 (WCurve.c_r e) < 2 ^ 63 -> WPoints.wpoint e P A -> valid_scalar (WCurve.c_r e) k -> valid_scalar (WCurve.c_r e) l ->
  (oc = true \/ oc' = true -> sk k <> 0 /\ sk l <> 0) ->
  WPoints.same (bind (WCurve.pt_mul oc P k) (fun X => WCurve.pt_mul oc' X l)) (bind (WCurve.pt_mul oc' P l) (fun X => WCurve.pt_mul oc X k)).
Proof. exact c56_agreement. Qed.
Print Assumptions C56_agreement.

(** k (P + Q) == k P + k Q, k (P - Q) == k P - k Q, k (-P) == -(k P) *)
Theorem C56_distributes : forall e oc oc' P Q A B k, WPoints.weier e -> Z.log2 (WCurve.c_r e) < 2 ^ 63 -> WPoints.wpoint e P A -> WPoints.wpoint e Q B -> valid_scalar (WCurve.c_r e) k -> (oc = true \/ oc' = true -> sk k <> 0) ->
  WPoints.same (bind (WCurve.pt_add P Q) (fun X => WCurve.pt_mul oc X k)) (bind (WCurve.pt_mul oc' P k) (fun X => bind (WCurve.pt_mul oc' Q k) (fun Y => WCurve.pt_add X Y)))
  /\ WPoints.same (bind (WCurve.pt_sub P Q) (fun X => WCurve.pt_mul oc X k)) (bind (WCurve.pt_mul oc' P k) (fun X => bind (WCurve.pt_mul oc' Q k) (fun Y => WCurve.pt_sub X Y)))
  /\ WPoints.same (bind (WCurve.pt_neg P) (fun X => WCurve.pt_mul oc X k)) (bind (WCurve.pt_mul oc' P k) WCurve.pt_neg).
Proof. exact c56_distributes. Qed.
Print Assumptions C56_distributes.

(** points equal for == have multiples equal for == *)
Theorem C56_congruence : forall e oc oc' P Q A B k, WPoints.weier e -> Z.log2 (WCurve.c_r e) < 2 ^ 63 -> WPoints.wpoint e P A -> WPoints.wpoint e Q B -> valid_scalar (WCurve.c_r e) k -> (oc = true \/ oc' = true -> sk k <> 0) ->
  WCurve.pt_eqb P Q = Ret true -> WPoints.same (WCurve.pt_mul oc P k) (WCurve.pt_mul oc' Q k).
Proof. exact c56_congruence. Qed.
Print Assumptions C56_congruence.

(** scalars whose sum or product stays below r act on every point, inside the subgroup of the base point or not *)
Theorem C56_small_scalars : forall e oc P A k l, WPoints.weier e -> Z.log2 (WCurve.c_r e) < 2 ^ 63 -> WPoints.wpoint e P A -> valid_scalar (WCurve.c_r e) k -> valid_scalar (WCurve.c_r e) l -> (oc = true -> sk k <> 0 /\ sk l <> 0) ->
  (sk k + sk l < WCurve.c_r e -> WPoints.same (bind (WCurve.pt_mul oc P k) (fun X => bind (WCurve.pt_mul oc P l) (fun Y => WCurve.pt_add X Y))) (bind (sc_add k l) (fun m => WCurve.pt_mul oc P m)))
  /\ (sk k * sk l < WCurve.c_r e -> WPoints.same (bind (WCurve.pt_mul oc P k) (fun X => WCurve.pt_mul oc X l)) (bind (sc_mul k l) (fun m => WCurve.pt_mul oc P m))).
Proof. exact c56_small_scalars. Qed.
Print Assumptions C56_small_scalars.

(** on points killed by r: differences and opposites of scalars; for prime r, (1/k)(k P) == P and (l/k)(k P) == l P *)
Theorem C56_killed : forall e P A k l, WPoints.weier e -> Z.log2 (WCurve.c_r e) < 2 ^ 63 -> WPoints.wpoint e P A -> multiple (WPoints.wsum e) Infinity A (Z.to_nat (WCurve.c_r e)) Infinity -> valid_scalar (WCurve.c_r e) k -> valid_scalar (WCurve.c_r e) l ->
  WPoints.same (bind (WCurve.pt_mul false P k) (fun X => bind (WCurve.pt_mul false P l) (fun Y => WCurve.pt_sub X Y))) (bind (sc_sub k l) (fun m => WCurve.pt_mul false P m))
  /\ WPoints.same (bind (WCurve.pt_mul false P k) WCurve.pt_neg) (bind (sc_neg k) (fun m => WCurve.pt_mul false P m))
  /\ (prime (WCurve.c_r e) -> sk k <> 0 ->
      WPoints.same (bind (sc_u32_div 1 k) (fun i => bind (WCurve.pt_mul false P k) (fun X => WCurve.pt_mul false X i))) (Ret P)
      /\ WPoints.same (bind (sc_div l k) (fun q => bind (WCurve.pt_mul false P k) (fun X => WCurve.pt_mul false X q))) (WCurve.pt_mul false P l)).
Proof. exact c56_killed. Qed.
Print Assumptions C56_killed.

(** both ends of a key agreement compute the same point: l (k P) == k (l P), for every point and either overflow behaviour *)
Theorem C56_mont_agreement : forall e oc oc' P A k l, MPoints.mont e -> Z.log2 (MCurve.c_r e) < 2 ^ 63 -> MPoints.mpoint e P A -> valid_scalar (MCurve.c_r e) k -> valid_scalar (MCurve.c_r e) l ->
  (oc = true \/ oc' = true -> sk k <> 0 /\ sk l <> 0) ->
  MPoints.same (bind (MCurve.pt_mul oc P k) (fun X => MCurve.pt_mul oc' X l)) (bind (MCurve.pt_mul oc' P l) (fun X => MCurve.pt_mul oc X k)).
Proof. exact c56_mont_agreement. Qed.
Print Assumptions C56_mont_agreement.

(** k (P + Q) == k P + k Q, k (P - Q) == k P - k Q, k (-P) == -(k P) *)
Theorem C56_mont_distributes : forall e oc oc' P Q A B k, MPoints.mont e -> Z.log2 (MCurve.c_r e) < 2 ^ 63 -> MPoints.mpoint e P A -> MPoints.mpoint e Q B -> valid_scalar (MCurve.c_r e) k -> (oc = true \/ oc' = true -> sk k <> 0) ->
  MPoints.same (bind (MCurve.pt_add P Q) (fun X => MCurve.pt_mul oc X k)) (bind (MCurve.pt_mul oc' P k) (fun X => bind (MCurve.pt_mul oc' Q k) (fun Y => MCurve.pt_add X Y)))
  /\ MPoints.same (bind (MCurve.pt_sub P Q) (fun X => MCurve.pt_mul oc X k)) (bind (MCurve.pt_mul oc' P k) (fun X => bind (MCurve.pt_mul oc' Q k) (fun Y => MCurve.pt_sub X Y)))
  /\ MPoints.same (bind (MCurve.pt_neg P) (fun X => MCurve.pt_mul oc X k)) (bind (MCurve.pt_mul oc' P k) MCurve.pt_neg).
Proof. exact c56_mont_distributes. Qed.
Print Assumptions C56_mont_distributes.

(** points equal for == have multiples equal for == *)
Theorem C56_mont_congruence : forall e oc oc' P Q A B k, MPoints.mont e -> Z.log2 (MCurve.c_r e) < 2 ^ 63 -> MPoints.mpoint e P A -> MPoints.mpoint e Q B -> valid_scalar (MCurve.c_r e) k -> (oc = true \/ oc' = true -> sk k <> 0) ->
  MCurve.pt_eqb P Q = Ret true -> MPoints.same (MCurve.pt_mul oc P k) (MCurve.pt_mul oc' Q k).
Proof. exact c56_mont_congruence. Qed.
Print Assumptions C56_mont_congruence.

(** scalars whose sum or product stays below r act on every point, inside the subgroup of the base point or not *)
Theorem C56_mont_small_scalars : forall e oc P A k l, MPoints.mont e -> Z.log2 (MCurve.c_r e) < 2 ^ 63 -> MPoints.mpoint e P A -> valid_scalar (MCurve.c_r e) k -> valid_scalar (MCurve.c_r e) l -> (oc = true -> sk k <> 0 /\ sk l <> 0) ->
  (sk k + sk l < MCurve.c_r e -> MPoints.same (bind (MCurve.pt_mul oc P k) (fun X => bind (MCurve.pt_mul oc P l) (fun Y => MCurve.pt_add X Y))) (bind (sc_add k l) (fun m => MCurve.pt_mul oc P m)))
  /\ (sk k * sk l < MCurve.c_r e -> MPoints.same (bind (MCurve.pt_mul oc P k) (fun X => MCurve.pt_mul oc X l)) (bind (sc_mul k l) (fun m => MCurve.pt_mul oc P m))).
Proof. exact c56_mont_small_scalars. Qed.
Print Assumptions C56_mont_small_scalars.

(** on points killed by r: differences and opposites of scalars; for prime r, (1/k)(k P) == P and (l/k)(k P) == l P *)
Theorem C56_mont_killed : forall e P A k l, MPoints.mont e -> Z.log2 (MCurve.c_r e) < 2 ^ 63 -> MPoints.mpoint e P A -> multiple (MPoints.msum e) Infinity A (Z.to_nat (MCurve.c_r e)) Infinity -> valid_scalar (MCurve.c_r e) k -> valid_scalar (MCurve.c_r e) l ->
  MPoints.same (bind (MCurve.pt_mul false P k) (fun X => bind (MCurve.pt_mul false P l) (fun Y => MCurve.pt_sub X Y))) (bind (sc_sub k l) (fun m => MCurve.pt_mul false P m))
  /\ MPoints.same (bind (MCurve.pt_mul false P k) MCurve.pt_neg) (bind (sc_neg k) (fun m => MCurve.pt_mul false P m))
  /\ (prime (MCurve.c_r e) -> sk k <> 0 ->
      MPoints.same (bind (sc_u32_div 1 k) (fun i => bind (MCurve.pt_mul false P k) (fun X => MCurve.pt_mul false X i))) (Ret P)
      /\ MPoints.same (bind (sc_div l k) (fun q => bind (MCurve.pt_mul false P k) (fun X => MCurve.pt_mul false X q))) (MCurve.pt_mul false P l)).
Proof. exact c56_mont_killed. Qed.
Print Assumptions C56_mont_killed.

(** both ends of a key agreement compute the same point: l (k P) == k (l P), for every point and either overflow behaviour *)
Theorem C56_edw_agreement : forall e oc oc' P A k l, EPoints.edw e -> Z.log2 (ECurve.c_r e) < 2 ^ 63 -> EPoints.epoint e P A -> valid_scalar (ECurve.c_r e) k -> valid_scalar (ECurve.c_r e) l ->
  (oc = true \/ oc' = true -> sk k <> 0 /\ sk l <> 0) ->
  EPoints.same (bind (ECurve.pt_mul oc P k) (fun X => ECurve.pt_mul oc' X l)) (bind (ECurve.pt_mul oc' P l) (fun X => ECurve.pt_mul oc X k)).
Proof. exact c56_edw_agreement. Qed.
Print Assumptions C56_edw_agreement.

(** k (P + Q) == k P + k Q, k (P - Q) == k P - k Q, k (-P) == -(k P) *)
Theorem C56_edw_distributes : forall e oc oc' P Q A B k, EPoints.edw e -> Z.log2 (ECurve.c_r e) < 2 ^ 63 -> EPoints.epoint e P A -> EPoints.epoint e Q B -> valid_scalar (ECurve.c_r e) k -> (oc = true \/ oc' = true -> sk k <> 0) ->
  EPoints.same (bind (ECurve.pt_add P Q) (fun X => ECurve.pt_mul oc X k)) (bind (ECurve.pt_mul oc' P k) (fun X => bind (ECurve.pt_mul oc' Q k) (fun Y => ECurve.pt_add X Y)))
  /\ EPoints.same (bind (ECurve.pt_sub P Q) (fun X => ECurve.pt_mul oc X k)) (bind (ECurve.pt_mul oc' P k) (fun X => bind (ECurve.pt_mul oc' Q k) (fun Y => ECurve.pt_sub X Y)))
  /\ EPoints.same (bind (ECurve.pt_neg P) (fun X => ECurve.pt_mul oc X k)) (bind (ECurve.pt_mul oc' P k) ECurve.pt_neg).
Proof. exact c56_edw_distributes. Qed.
Print Assumptions C56_edw_distributes.

(** points equal for == have multiples equal for == *)
Theorem C56_edw_congruence : forall e oc oc' P Q A B k, EPoints.edw e -> Z.log2 (ECurve.c_r e) < 2 ^ 63 -> EPoints.epoint e P A -> EPoints.epoint e Q B -> valid_scalar (ECurve.c_r e) k -> (oc = true \/ oc' = true -> sk k <> 0) ->
  ECurve.pt_eqb P Q = Ret true -> EPoints.same (ECurve.pt_mul oc P k) (ECurve.pt_mul oc' Q k).
Proof. exact c56_edw_congruence. Qed.
Print Assumptions C56_edw_congruence.

(** scalars whose sum or product stays below r act on every point, inside the subgroup of the base point or not *)
Theorem C56_edw_small_scalars : forall e oc P A k l, EPoints.edw e -> Z.log2 (ECurve.c_r e) < 2 ^ 63 -> EPoints.epoint e P A -> valid_scalar (ECurve.c_r e) k -> valid_scalar (ECurve.c_r e) l -> (oc = true -> sk k <> 0 /\ sk l <> 0) ->
  (sk k + sk l < ECurve.c_r e -> EPoints.same (bind (ECurve.pt_mul oc P k) (fun X => bind (ECurve.pt_mul oc P l) (fun Y => ECurve.pt_add X Y))) (bind (sc_add k l) (fun m => ECurve.pt_mul oc P m)))
  /\ (sk k * sk l < ECurve.c_r e -> EPoints.same (bind (ECurve.pt_mul oc P k) (fun X => ECurve.pt_mul oc X l)) (bind (sc_mul k l) (fun m => ECurve.pt_mul oc P m))).
Proof. exact c56_edw_small_scalars. Qed.
Print Assumptions C56_edw_small_scalars.

(** on points killed by r: differences and opposites of scalars; for prime r, (1/k)(k P) == P and (l/k)(k P) == l P *)
Theorem C56_edw_killed : forall e P A k l, EPoints.edw e -> Z.log2 (ECurve.c_r e) < 2 ^ 63 -> EPoints.epoint e P A -> multiple (EPoints.esum e) (0, 1) A (Z.to_nat (ECurve.c_r e)) (0, 1) -> valid_scalar (ECurve.c_r e) k -> valid_scalar (ECurve.c_r e) l ->
  EPoints.same (bind (ECurve.pt_mul false P k) (fun X => bind (ECurve.pt_mul false P l) (fun Y => ECurve.pt_sub X Y))) (bind (sc_sub k l) (fun m => ECurve.pt_mul false P m))
  /\ EPoints.same (bind (ECurve.pt_mul false P k) ECurve.pt_neg) (bind (sc_neg k) (fun m => ECurve.pt_mul false P m))
  /\ (prime (ECurve.c_r e) -> sk k <> 0 ->
      EPoints.same (bind (sc_u32_div 1 k) (fun i => bind (ECurve.pt_mul false P k) (fun X => ECurve.pt_mul false X i))) (Ret P)
      /\ EPoints.same (bind (sc_div l k) (fun q => bind (ECurve.pt_mul false P k) (fun X => ECurve.pt_mul false X q))) (ECurve.pt_mul false P l)).
Proof. exact c56_edw_killed. Qed.
Print Assumptions C56_edw_killed.

Example C56_ex : WPoints.weier WeierProps.E7 /\ WPoints.wpoint WeierProps.E7 (WeierProps.pt7 1 1 1) (Affine 1 1) /\ prime (WCurve.c_r WeierProps.E7)
  /\ valid_scalar (WCurve.c_r WeierProps.E7) (mkScalar 7 11) /\ valid_scalar (WCurve.c_r WeierProps.E7) (mkScalar 4 11)
  /\ bind (WCurve.pt_mul true (WeierProps.pt7 1 1 1) (mkScalar 7 11)) (fun X => WCurve.pt_mul true X (mkScalar 4 11)) = Ret (WeierProps.pt7 1 2 5)
  /\ bind (WCurve.pt_mul true (WeierProps.pt7 1 1 1) (mkScalar 4 11)) (fun X => WCurve.pt_mul true X (mkScalar 7 11)) = Ret (WeierProps.pt7 2 4 3)
  /\ WCurve.pt_eqb (WeierProps.pt7 1 2 5) (WeierProps.pt7 2 4 3) = Ret true
  /\ sc_u32_div 1 (mkScalar 7 11) = Ret (mkScalar 8 11)
  /\ multiple (WPoints.wsum WeierProps.E7) Infinity (Affine 1 1) (Z.to_nat (WCurve.c_r WeierProps.E7)) Infinity.
Proof. exact c56_ex. Qed.

Example C56_mont_ex : MPoints.mont MontProps.E19 /\ MPoints.mpoint MontProps.E19 (MontProps.pt19 12 2 2) (Affine 6 1)
  /\ bind (MCurve.pt_mul true (MontProps.pt19 12 2 2) (mkScalar 3 5)) (fun X => MCurve.pt_mul true X (mkScalar 4 5)) = Ret (MontProps.pt19 8 4 12)
  /\ bind (MCurve.pt_mul true (MontProps.pt19 12 2 2) (mkScalar 4 5)) (fun X => MCurve.pt_mul true X (mkScalar 3 5)) = Ret (MontProps.pt19 14 7 2).
Proof. exact c56_mont_ex. Qed.

(** scalars that wrap around do not act on every point: on E19, 3P + 4P differs from (3 + 4 mod 5) P *)
Theorem C56_mont_wrapping_scalars_refuted : exists e P A k l L M, MPoints.mont e /\ MPoints.mpoint e P A /\ valid_scalar (MCurve.c_r e) k /\ valid_scalar (MCurve.c_r e) l
  /\ bind (MCurve.pt_mul true P k) (fun X => bind (MCurve.pt_mul true P l) (fun Y => MCurve.pt_add X Y)) = Ret L
  /\ bind (sc_add k l) (fun m => MCurve.pt_mul true P m) = Ret M /\ MCurve.pt_eqb L M = Ret false.
Proof. exact c56_mont_wrapping_scalars_refuted. Qed.
Print Assumptions C56_mont_wrapping_scalars_refuted.

Example C56_edw_ex : EPoints.edw EdwProps.E29 /\ EPoints.epoint EdwProps.E29 (EdwProps.pt29 6 10 1 2) (3, 5)
  /\ bind (ECurve.pt_mul true (EdwProps.pt29 6 10 1 2) (mkScalar 3 7)) (fun X => ECurve.pt_mul true X (mkScalar 4 7)) = Ret (EdwProps.pt29 12 23 25 18)
  /\ bind (ECurve.pt_mul true (EdwProps.pt29 6 10 1 2) (mkScalar 4 7)) (fun X => ECurve.pt_mul true X (mkScalar 3 7)) = Ret (EdwProps.pt29 8 25 7 12).
Proof. exact c56_edw_ex. Qed.
