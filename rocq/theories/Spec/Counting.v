(** How many things satisfy a predicate, without assuming that they can be listed; the field elements a map
    sends to a point. *)
From Coq Require Import ZArith List.
From Verif.Spec Require Import Arith Curve Elements.
From Verif.Model Require Import Out PrimeField.

(** any list of distinct solutions has at most n entries *)
Definition at_most {T : Type} (n : nat) (P : T -> Prop) : Prop :=
  forall l, NoDup l -> (forall x, In x l -> P x) -> (List.length l <= n)%nat.
(** some list of distinct solutions has at least n entries *)
Definition at_least {T : Type} (n : nat) (P : T -> Prop) : Prop :=
  exists l, NoDup l /\ (forall x, In x l -> P x) /\ (n <= List.length l)%nat.
Definition exactly {T : Type} (n : nat) (P : T -> Prop) : Prop := at_least n P /\ at_most n P.

(** the map sends the element u of the field of p elements to the point A, through any representation of A *)
Definition sent {Point Aff : Type} (p : Z) (map : FpElt -> out Point) (is : Point -> Aff -> Prop) (A : Aff) (u : FpElt) : Prop :=
  valid p u /\ exists P, map u = Ret P /\ is P A.

(** the elements at which the formulas of simplified SWU and of Elligator 2 would divide by zero, and 0 *)
Definition degenerate (p z u : Z) : Prop := (p | z * (u * u) * (z * (u * u) + 1))%Z.
