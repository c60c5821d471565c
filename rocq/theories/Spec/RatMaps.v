(** Specification of the maps between models of the same curve, over plain integers. *)
From Coq Require Import ZArith List.
From Verif.Spec Require Import Arith Curve.
Import ListNotations.
Open Scope Z_scope.

(** *** Bernstein-Birkner-Joye-Lange-Peters, section 3 (and RFC 7748, section 4.1 for edwards25519):
    u = (1 + y)/(1 - y), v = c u/x, with the two points x = 0 sent to infinity and to (0, 0) *)
Definition birational (p c : Z) (E : Z * Z) (M : apoint) : Prop :=
  E = (0, 1) /\ M = Infinity
  \/ E = (0, p - 1) /\ M = Affine 0 0
  \/ exists u v, M = Affine u v /\ coord p u /\ coord p v /\ ~ (p | fst E)
     /\ (p | u * (1 - snd E) - (1 + snd E)) /\ (p | v * fst E - c * u).
(** the map is defined between a x^2 + y^2 = 1 + d x^2 y^2 and v^2 = u^3 + A u^2 + u when a c^2 = A + 2 and
    d c^2 = A - 2 *)
Definition birat_params (p a d A c : Z) : Prop := (p | a * (c * c) - (A + 2)) /\ (p | d * (c * c) - (A - 2)).

(** *** RFC 7748, section 4.2: the 4-isogeny between x^2 + y^2 = 1 + d x^2 y^2 and v^2 = u^3 + A u^2 + u, A = 2 - 4 d *)
(** (u, v) = (y^2/x^2, (2 - x^2 - y^2) y/x^3), with the points x = 0 sent to infinity *)
Definition isogeny4 (p : Z) (E : Z * Z) (M : apoint) : Prop :=
  let (x, y) := E in
  (p | x) /\ M = Infinity
  \/ exists u v, M = Affine u v /\ coord p u /\ coord p v /\ ~ (p | x)
     /\ (p | u * x ^ 2 - y ^ 2) /\ (p | v * x ^ 3 - (2 - x ^ 2 - y ^ 2) * y).
(** (x, y) = (4 v (u^2 - 1)/(u^4 - 2 u^2 + 4 v^2 + 1),
              - (u^5 - 2 u^3 - 4 u v^2 + u)/(u^5 - 2 u^2 v^2 - 2 u^3 - 2 v^2 + u)),
    with infinity and the points u = 0 sent to (0, 1) *)
Definition isogeny4_dual (p : Z) (M : apoint) (E : Z * Z) : Prop :=
  (M = Infinity \/ exists v, M = Affine 0 v) /\ E = (0, 1)
  \/ exists u v, M = Affine u v /\ ~ (p | u) /\ coord p (fst E) /\ coord p (snd E)
     /\ (p | fst E * (u ^ 4 - 2 * u ^ 2 + 4 * v ^ 2 + 1) - 4 * v * (u ^ 2 - 1))
     /\ (p | snd E * (u ^ 5 - 2 * u ^ 2 * v ^ 2 - 2 * u ^ 3 - 2 * v ^ 2 + u) + (u ^ 5 - 2 * u ^ 3 - 4 * u * v ^ 2 + u)).
Definition isogeny4_params (p a d A : Z) : Prop :=
  a = 1 /\ (p | A - (2 - 4 * d)) /\ forall s, ~ (p | s ^ 2 - (A ^ 2 - 4)).
