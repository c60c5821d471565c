(** Properties C24, C26, C33, C34, C37: the laws the code is compared with are operations: on points of the curve the sum and the
    multiples exist, are unique and lie on the curve. *)

From Coq Require Import ZArith Znumtheory Lia List.
From Verif.Math Require Import Fld Zp.
From Verif.Spec Require Import Arith Curve Elements.
From Verif.Spec Require WPoints MPoints EPoints.
From Verif.Model Require Import Out PrimeField.
From Verif.Model Require WCurve MCurve ECurve.
From Verif.Proofs Require Import FieldP CurveP.
From Verif.Proofs Require WeierProps MontProps EdwProps EdwP.
From Verif.Math Require Import ECGroup.
Import ListNotations.
Open Scope Z_scope.
From Verif.Proofs Require Import LawProps.

(** any two points of the curve have exactly one sum, which is a point of the curve *)
Theorem C24_law_is_total : forall e A B, WPoints.weier e -> WPoints.won e A -> WPoints.won e B ->
  exists C, WPoints.won e C /\ forall C', WPoints.wsum e A B C' <-> C' = C.
Proof. exact c24_law_is_total. Qed.
Print Assumptions C24_law_is_total.

(** and exactly one n-fold sum *)
Theorem C26_multiples_exist : forall e A n, WPoints.weier e -> WPoints.won e A ->
  exists C, WPoints.won e C /\ forall C', multiple (WPoints.wsum e) Infinity A n C' <-> C' = C.
Proof. exact c26_multiples_exist. Qed.
Print Assumptions C26_multiples_exist.

Theorem C33_law_is_total : forall e A B, MPoints.mont e -> MPoints.mon e A -> MPoints.mon e B ->
  exists C, MPoints.mon e C /\ forall C', MPoints.msum e A B C' <-> C' = C.
Proof. exact c33_law_is_total. Qed.
Print Assumptions C33_law_is_total.

Theorem C34_multiples_exist : forall e A n, MPoints.mont e -> MPoints.mon e A ->
  exists C, MPoints.mon e C /\ forall C', multiple (MPoints.msum e) Infinity A n C' <-> C' = C.
Proof. exact c34_multiples_exist. Qed.
Print Assumptions C34_multiples_exist.

Theorem C37_multiples_exist : forall e A n, EPoints.edw e -> EPoints.eon e A ->
  exists C, EPoints.eon e C /\ forall C', multiple (EPoints.esum e) (0, 1) A n C' <-> C' = C.
Proof. exact c37_multiples_exist. Qed.
Print Assumptions C37_multiples_exist.

(** y^2 = x^3 + x + 6 modulo 7: (1,1) + (1,1) = (2,4) is all that sum can be, and (1,1) + (2,4) = (6,5) *)
Example C24_law_ex : let e := WeierProps.E7 in (forall C, WPoints.wsum e (Affine 1 1) (Affine 1 1) C <-> C = Affine 2 4)
  /\ (forall C, WPoints.wsum e (Affine 1 1) (Affine 2 4) C <-> C = Affine 6 5)
  /\ forall C, multiple (WPoints.wsum e) Infinity (Affine 1 1) 3 C <-> C = Affine 6 5.
Proof. exact c24_law_ex. Qed.
