(** The points that multiplication by one scalar sends to a given point. *)
From Coq Require Import ZArith.
From Verif.Spec Require Import Arith Curve Elements.
From Verif.Model Require Import Out PrimeField Scalar.

(** A is a point, and multiplying it by k, through any of its representations and in both build profiles, gives C *)
Definition sent_to {MP S : Type} (point : MP -> S -> Prop) (mul : bool -> MP -> Scalar -> out MP) (k : Scalar) (C A : S) : Prop :=
  (exists P, point P A) /\ forall oc P, point P A -> exists Q, mul oc P k = Ret Q /\ point Q C.
(** the map followed by multiplication by k sends the field element u to C, in both build profiles *)
Definition hashes_to {MP S : Type} (p : Z) (map : FpElt -> out MP) (mul : bool -> MP -> Scalar -> out MP) (point : MP -> S -> Prop) (k : Scalar) (C : S) (u : FpElt) : Prop :=
  valid p u /\ exists P, map u = Ret P /\ forall oc, exists Q, mul oc P k = Ret Q /\ point Q C.
