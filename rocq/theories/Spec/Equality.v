(** Tuples of coordinates in one field, with no curve equation required of them. *)
From Coq Require Import ZArith.
From Verif.Spec Require Import Elements.
From Verif.Model Require Import PrimeField WCurve MCurve ECurve.
Open Scope Z_scope.

(** every coordinate is an element of the field with modulus p *)
Definition wtuple (p : Z) (P : WCurve.Point) : Prop :=
  valid p (WCurve.px (WCurve.pc P)) /\ valid p (WCurve.py (WCurve.pc P)) /\ valid p (WCurve.pz (WCurve.pc P)).
Definition mtuple (p : Z) (P : MCurve.Point) : Prop :=
  valid p (MCurve.px (MCurve.pc P)) /\ valid p (MCurve.py (MCurve.pc P)) /\ valid p (MCurve.pz (MCurve.pc P)).
Definition etuple (p : Z) (P : ECurve.Point) : Prop :=
  valid p (ECurve.px (ECurve.pc P)) /\ valid p (ECurve.py (ECurve.pc P)) /\ valid p (ECurve.ptt (ECurve.pc P))
  /\ valid p (ECurve.pz (ECurve.pc P)).

(** the tuple of zeros *)
Definition wnull (P : WCurve.Point) : Prop :=
  val (WCurve.px (WCurve.pc P)) = 0 /\ val (WCurve.py (WCurve.pc P)) = 0 /\ val (WCurve.pz (WCurve.pc P)) = 0.
Definition mnull (P : MCurve.Point) : Prop :=
  val (MCurve.px (MCurve.pc P)) = 0 /\ val (MCurve.py (MCurve.pc P)) = 0 /\ val (MCurve.pz (MCurve.pc P)) = 0.
Definition enull (P : ECurve.Point) : Prop :=
  val (ECurve.px (ECurve.pc P)) = 0 /\ val (ECurve.py (ECurve.pc P)) = 0 /\ val (ECurve.ptt (ECurve.pc P)) = 0
  /\ val (ECurve.pz (ECurve.pc P)) = 0.

(** x1 : z1 = x2 : z2 modulo p, by cross multiplication *)
Definition cross (p x1 z1 x2 z2 : Z) : Prop := (p | x1 * z2 - z1 * x2).
