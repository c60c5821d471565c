(** The byte strings that decode accepts. *)
From Coq Require Import ZArith List.
From Verif.Spec Require Import Arith Curve Elements.
From Verif.Model Require Import Out.

(** decode makes of these bytes a point that is A *)
Definition reads {MP S : Type} (decode : list Z -> out (io_result MP)) (point : MP -> S -> Prop) (A : S) (buf : list Z) : Prop :=
  Forall is_byte buf /\ exists Q, decode buf = Ret (Ok Q) /\ point Q A.
(** decode accepts these bytes *)
Definition taken {MP : Type} (decode : list Z -> out (io_result MP)) (buf : list Z) : Prop :=
  Forall is_byte buf /\ exists Q, decode buf = Ret (Ok Q).
