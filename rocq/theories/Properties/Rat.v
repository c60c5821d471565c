(** Rational maps and isogenies: C43-C47. *)

From Coq Require Import ZArith Znumtheory Lia String Ascii Bool List.
From Verif.Math Require Import Fld Zp Residue ECGroup RCB Edwards Birat.
From Verif.Spec Require Import Arith Curve Instances RatMaps.
From Verif.Model Require Import Out BigInt PrimeField Instances RationalMaps.
From Verif.Model Require WCurve MCurve ECurve.
From Verif.Proofs Require Import FieldP FieldProps CurveP RatP.
From Verif.Proofs Require WeierP MontP EdwP WeierProps MontProps EdwProps InstShip InstProps.
From Verif.Spec Require Export Morphisms.
Import EPoints(edw, epoint, esum, eon).
Import MPoints(mont, mpoint, msum, mon).
Import ListNotations.
Open Scope Z_scope.
From Verif.Proofs Require Import RatProps.

(** the map of points is a bijection between the two curves *)
Theorem C43_bijection : forall m, birat m ->
  (forall E, eon (ed_e0 m) E -> exists M, mon (ed_e1 m) M /\ forall M', bmap m E M' <-> M' = M)
  /\ (forall M, mon (ed_e1 m) M -> exists E, eon (ed_e0 m) E /\ forall E', eon (ed_e0 m) E' -> (bmap m E' M <-> E' = E)).
Proof. exact c43_bijection. Qed.
Print Assumptions C43_bijection.

(** and a homomorphism *)
Theorem C43_homomorphism : forall m E1 E2 E3 M1 M2 M3, birat m -> eon (ed_e0 m) E1 -> eon (ed_e0 m) E2 ->
  bmap m E1 M1 -> bmap m E2 M2 -> esum (ed_e0 m) E1 E2 E3 -> (bmap m E3 M3 <-> msum (ed_e1 m) M1 M2 M3).
Proof. exact c43_homomorphism. Qed.
Print Assumptions C43_homomorphism.

(** push computes the map at every point but (0, -1) *)
Theorem C43_push : forall m P E, birat m -> epoint (ed_e0 m) P E -> E <> (0, modulus (ECurve.c_f (ed_e0 m)) - 1) ->
  exists Q, ed25519_push m P = Ret Q /\ forall M, mpoint (ed_e1 m) Q M <-> bmap m E M.
Proof. exact c43_push. Qed.
Print Assumptions C43_push.

(** every representative of (0, -1), whose image is (0, 0), is sent to the identity *)
Theorem C43_push_two_refuted : forall m P, birat m -> epoint (ed_e0 m) P (0, modulus (ECurve.c_f (ed_e0 m)) - 1) ->
  bmap m (0, modulus (ECurve.c_f (ed_e0 m)) - 1) (Affine 0 0)
  /\ exists Q, ed25519_push m P = Ret Q /\ forall M, mpoint (ed_e1 m) Q M <-> M = Infinity.
Proof. exact c43_push_two_refuted. Qed.
Print Assumptions C43_push_two_refuted.

(** pull computes the inverse map at every point but (0, 0) *)
Theorem C43_pull : forall m Q M, birat m -> mpoint (ed_e1 m) Q M -> M <> Affine 0 0 ->
  exists P, ed25519_pull m Q = Ret P /\ forall E, epoint (ed_e0 m) P E <-> eon (ed_e0 m) E /\ bmap m E M.
Proof. exact c43_pull. Qed.
Print Assumptions C43_pull.

(** (0, 0) is sent to (0, -1) when it is represented with z = 1 *)
Theorem C43_pull_two_normalised : forall m Q, birat m -> mpoint (ed_e1 m) Q (Affine 0 0) -> val (MCurve.pz (MCurve.pc Q)) = 1 ->
  exists P, ed25519_pull m Q = Ret P /\ forall E, epoint (ed_e0 m) P E <-> E = (0, modulus (ECurve.c_f (ed_e0 m)) - 1).
Proof. exact c43_pull_two_normalised. Qed.
Print Assumptions C43_pull_two_normalised.

(** and otherwise to the tuple (0, 0, 0, 0), which represents no point *)
Theorem C43_pull_two_refuted : forall m Q, birat m -> mpoint (ed_e1 m) Q (Affine 0 0) -> val (MCurve.pz (MCurve.pc Q)) <> 1 ->
  exists P, ed25519_pull m Q = Ret P /\ val (ECurve.px (ECurve.pc P)) = 0 /\ val (ECurve.py (ECurve.pc P)) = 0
  /\ val (ECurve.ptt (ECurve.pc P)) = 0 /\ val (ECurve.pz (ECurve.pc P)) = 0 /\ forall E, ~ epoint (ed_e0 m) P E.
Proof. exact c43_pull_two_refuted. Qed.
Print Assumptions C43_pull_two_refuted.

(** pull after push is the identity except at (0, -1), and push after pull except at (0, 0) *)
Theorem C43_pull_push : forall m P E, birat m -> epoint (ed_e0 m) P E -> E <> (0, modulus (ECurve.c_f (ed_e0 m)) - 1) ->
  exists Q P', ed25519_push m P = Ret Q /\ ed25519_pull m Q = Ret P' /\ forall C, epoint (ed_e0 m) P' C <-> C = E.
Proof. exact c43_pull_push. Qed.
Print Assumptions C43_pull_push.

Theorem C43_push_pull : forall m Q M, birat m -> mpoint (ed_e1 m) Q M -> M <> Affine 0 0 ->
  exists P Q', ed25519_pull m Q = Ret P /\ ed25519_push m P = Ret Q' /\ forall C, mpoint (ed_e1 m) Q' C <-> C = M.
Proof. exact c43_push_pull. Qed.
Print Assumptions C43_push_pull.

(** push commutes with the additions of the two curves as long as (0, -1) is not involved *)
Theorem C43_push_add : forall m P1 P2 E1 E2 E3, birat m -> epoint (ed_e0 m) P1 E1 -> epoint (ed_e0 m) P2 E2 ->
  esum (ed_e0 m) E1 E2 E3 -> let T := (0, modulus (ECurve.c_f (ed_e0 m)) - 1) in E1 <> T -> E2 <> T -> E3 <> T ->
  exists P3 Q1 Q2 Q3 Q3', ECurve.pt_add P1 P2 = Ret P3 /\ ed25519_push m P3 = Ret Q3
  /\ ed25519_push m P1 = Ret Q1 /\ ed25519_push m P2 = Ret Q2 /\ MCurve.pt_add Q1 Q2 = Ret Q3'
  /\ (exists M, mpoint (ed_e1 m) Q3 M) /\ forall M, mpoint (ed_e1 m) Q3 M <-> mpoint (ed_e1 m) Q3' M.
Proof. exact c43_push_add. Qed.
Print Assumptions C43_push_add.

(** the shipped map is of this kind *)
Theorem C43_shipped : exists m, edwards25519_to_curve25519 = Ret m /\ EDWARDS25519 = Ret (ed_e0 m) /\ CURVE25519 = Ret (ed_e1 m) /\ birat m.
Proof. exact c43_shipped. Qed.
Print Assumptions C43_shipped.

(** push is not a homomorphism: if 2 P = (0, -1) then push(P + P) is the identity and push(P) + push(P) is (0, 0) *)
Theorem C43_push_double_refuted : forall m P E, let T := (0, modulus (ECurve.c_f (ed_e0 m)) - 1) in
  birat m -> epoint (ed_e0 m) P E -> E <> T -> esum (ed_e0 m) E E T ->
  exists P2 Q2 Q QQ, ECurve.pt_add P P = Ret P2 /\ ed25519_push m P2 = Ret Q2
  /\ ed25519_push m P = Ret Q /\ MCurve.pt_add Q Q = Ret QQ
  /\ (forall M, mpoint (ed_e1 m) Q2 M <-> M = Infinity) /\ (forall M, mpoint (ed_e1 m) QQ M <-> M = Affine 0 0).
Proof. exact c43_push_double_refuted. Qed.
Print Assumptions C43_push_double_refuted.

(** (i, 0) with i^2 = -1 is such a point of edwards25519 *)
Example C43_order_four : exists m P E, edwards25519_to_curve25519 = Ret m /\ epoint (ed_e0 m) P E
  /\ E <> (0, modulus (ECurve.c_f (ed_e0 m)) - 1) /\ esum (ed_e0 m) E E (0, modulus (ECurve.c_f (ed_e0 m)) - 1).
Proof. exact c43_order_four. Qed.
