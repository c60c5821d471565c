(** Specification: the number of points of a curve, and subgroups reached by multiplying with a cofactor. *)
From Coq Require Import ZArith List.
From Verif.Spec Require Import Arith Curve.
Import ListNotations.
Open Scope Z_scope.

(** exactly n things satisfy [on] *)
Definition counted {P : Type} (on : P -> Prop) (n : Z) : Prop :=
  exists L, NoDup L /\ (forall A, In A L <-> on A) /\ Z.of_nat (length L) = n.
(** C is one of 0, G, 2 G, .., (r - 1) G *)
Definition generated {P : Type} (sum : P -> P -> P -> Prop) (zero G : P) (r : Z) (C : P) : Prop :=
  exists j, 0 <= j < r /\ multiple sum zero G (Z.to_nat j) C.
(** the h-fold sum of every point is generated by G *)
Definition clears {P : Type} (on : P -> Prop) (sum : P -> P -> P -> Prop) (zero G : P) (h r : Z) : Prop :=
  forall A, on A -> exists C, multiple sum zero A (Z.to_nat h) C /\ generated sum zero G r C.
(** the n-fold sum of every point is zero *)
Definition exponent {P : Type} (on : P -> Prop) (sum : P -> P -> P -> Prop) (zero : P) (n : Z) : Prop :=
  forall A, on A -> multiple sum zero A (Z.to_nat n) zero.
