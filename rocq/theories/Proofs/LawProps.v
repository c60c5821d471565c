(** Properties C24, C26, C33, C34, C37: the laws the code is compared with are operations: on points of the curve the sum and the
    multiples exist, are unique and lie on the curve. *)
From Coq Require Import ZArith Znumtheory Lia List.
From Verif.Math Require Import Fld Zp.
From Verif.Spec Require Import Arith Curve Elements.
From Verif.Spec Require WPoints MPoints EPoints.
From Verif.Model Require Import Out PrimeField.
From Verif.Model Require WCurve MCurve ECurve.
From Verif.Proofs Require Import FieldP CurveP.
From Verif.Proofs Require WeierProps MontProps EdwProps EdwP.
From Verif.Math Require Import ECGroup.
Import ListNotations.
Open Scope Z_scope.

(** any two points of the curve have exactly one sum, which is a point of the curve *)
Lemma c24_law_is_total : forall e A B, WPoints.weier e -> WPoints.won e A -> WPoints.won e B ->
  exists C, WPoints.won e C /\ forall C', WPoints.wsum e A B C' <-> C' = C.
Proof.
  intros e A B W OA OB. WeierProps.open_curve W. unfold WPoints.won in OA, OB. rewrite ef, ea, eb in OA, OB.
  destruct (on_cubic_unap p Hp Hp2 F0 _ _ _ OA) as (A' & -> & HA), (on_cubic_unap p Hp Hp2 F0 _ _ _ OB) as (B' & -> & HB).
  exists (ap p Hp (padd _ F0 a A' B')). split; [|intro C'; apply WS; assumption].
  apply WO. apply on_padd; [exact (two_K p Hp Hp2)|assumption..].
Qed.
(** and exactly one n-fold sum *)
Lemma c26_multiples_exist : forall e A n, WPoints.weier e -> WPoints.won e A ->
  exists C, WPoints.won e C /\ forall C', multiple (WPoints.wsum e) Infinity A n C' <-> C' = C.
Proof.
  intros e A n W OA. WeierProps.open_curve W. unfold WPoints.won in OA. rewrite ef, ea, eb in OA.
  destruct (on_cubic_unap p Hp Hp2 F0 _ _ _ OA) as (A' & -> & HA).
  eexists. split; [|intro C'; apply WM; assumption]. apply WO. apply on_nmul; assumption.
Qed.
Lemma c33_law_is_total : forall e A B, MPoints.mont e -> MPoints.mon e A -> MPoints.mon e B ->
  exists C, MPoints.mon e C /\ forall C', MPoints.msum e A B C' <-> C' = C.
Proof.
  intros e A B W OA OB. MontProps.open_curve W. destruct (WU A OA) as (A' & -> & HA), (WU B OB) as (B' & -> & HB).
  exists (ap p Hp (padd _ a F1 A' B')). split; [|intro C'; apply WS; assumption].
  apply WO. apply on_padd; [exact (two_K p Hp Hp2)|assumption..].
Qed.
Lemma c34_multiples_exist : forall e A n, MPoints.mont e -> MPoints.mon e A ->
  exists C, MPoints.mon e C /\ forall C', multiple (MPoints.msum e) Infinity A n C' <-> C' = C.
Proof.
  intros e A n W OA. MontProps.open_curve W. destruct (WU A OA) as (A' & -> & HA).
  eexists. split; [|intro C'; apply WM; assumption]. apply WO. apply on_nmul; assumption.
Qed.
Lemma c37_multiples_exist : forall e A n, EPoints.edw e -> EPoints.eon e A ->
  exists C, EPoints.eon e C /\ forall C', multiple (EPoints.esum e) (0, 1) A n C' <-> C' = C.
Proof.
  intros e A n W OA. EdwProps.open_curve W. destruct (WU A OA) as (A' & -> & HA).
  eexists. split; [|intro C'; apply WM; assumption]. apply WO. apply EdwP.on_enmul; assumption.
Qed.
(** y^2 = x^3 + x + 6 modulo 7: (1,1) + (1,1) = (2,4) is all that sum can be, and (1,1) + (2,4) = (6,5) *)
Example c24_law_ex : let e := WeierProps.E7 in (forall C, WPoints.wsum e (Affine 1 1) (Affine 1 1) C <-> C = Affine 2 4)
  /\ (forall C, WPoints.wsum e (Affine 1 1) (Affine 2 4) C <-> C = Affine 6 5)
  /\ forall C, multiple (WPoints.wsum e) Infinity (Affine 1 1) 3 C <-> C = Affine 6 5.
Proof.
  intro e. pose proof WeierProps.weier7 as W. fold e in W.
  assert (O1 : WPoints.won e (Affine 1 1)) by (repeat split; cbn; try lia; exists (-1); reflexivity).
  assert (O2 : WPoints.won e (Affine 2 4)) by (repeat split; cbn; try lia; exists 0; reflexivity).
  assert (S1 : WPoints.wsum e (Affine 1 1) (Affine 1 1) (Affine 2 4)).
  { apply (ct_tangent 7 1 0 1 1 1 2); [intros [k D]; lia|exists 0; reflexivity|].
    repeat split; cbn; try lia; [exists 0; reflexivity|exists 1; reflexivity]. }
  assert (S2 : WPoints.wsum e (Affine 1 1) (Affine 2 4) (Affine 6 5)).
  { apply (ct_chord 7 1 0 1 1 1 2 4 3); [lia|exists 0; reflexivity|].
    repeat split; cbn; try lia; [exists 0; reflexivity|exists 3; reflexivity]. }
  split; [|split].
  - intro C. destruct (c24_law_is_total e _ _ W O1 O1) as (D & _ & H). rewrite H. apply H in S1. subst D. reflexivity.
  - intro C. destruct (c24_law_is_total e _ _ W O1 O2) as (D & _ & H). rewrite H. apply H in S2. subst D. reflexivity.
  - intro C. destruct (c26_multiples_exist e _ 3%nat W O1) as (D & _ & H). rewrite H.
    assert (M : multiple (WPoints.wsum e) Infinity (Affine 1 1) 3 (Affine 6 5)).
    { apply (mult_S _ _ _ 2 (Affine 2 4)).
      - apply (mult_S _ _ _ 1 (Affine 1 1)); [apply (mult_S _ _ _ 0 Infinity); [apply mult_O|apply ct_left]|exact S1].
      - apply (ct_chord 7 1 0 1 2 4 1 1 3); [lia|exists 0; reflexivity|].
        repeat split; cbn; try lia; [exists 0; reflexivity|exists 3; reflexivity]. }
    apply H in M. subst D. reflexivity.
Qed.
