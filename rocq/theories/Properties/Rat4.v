(** The 4-isogeny between edwards448 and curve448: C44. *)

From Coq Require Import ZArith Znumtheory Lia String Ascii Bool List.
From Verif.Math Require Import Fld Zp Residue ECGroup RCB Edwards Iso4 Iso4Dual.
From Verif.Spec Require Import Arith Curve Instances RatMaps.
From Verif.Model Require Import Out BigInt PrimeField Instances RationalMaps.
From Verif.Model Require WCurve MCurve ECurve.
From Verif.Proofs Require Import FieldP FieldProps CurveP Iso4P.
From Verif.Proofs Require WeierP MontP EdwP WeierProps MontProps EdwProps InstP InstShip InstProps RatP Cert_Iso4.
From Verif.Math Require Prime_p448 MontAdd.
From Verif.Spec Require Export Morphisms.
Import EPoints(edw, epoint, esum, eon).
Import MPoints(mont, mpoint, msum, mon).
Import ListNotations.
Open Scope Z_scope.
From Verif.Proofs Require Import Rat4Props.

(** the first map is a homomorphism from the Edwards curve to the Montgomery curve *)
Theorem C44_map : forall m E, iso4 m -> eon (e4_e0 m) E -> exists M, mon (e4_e1 m) M /\ forall M', imap m E M' <-> M' = M.
Proof. exact c44_map. Qed.
Print Assumptions C44_map.

Theorem C44_homomorphism : forall m E1 E2 E3 M1 M2 M3, iso4 m -> eon (e4_e0 m) E1 -> eon (e4_e0 m) E2 ->
  imap m E1 M1 -> imap m E2 M2 -> esum (e4_e0 m) E1 E2 E3 -> (imap m E3 M3 <-> msum (e4_e1 m) M1 M2 M3).
Proof. exact c44_homomorphism. Qed.
Print Assumptions C44_homomorphism.

(** its kernel is (0, 1) and (0, -1) *)
Theorem C44_kernel : forall m E, iso4 m -> eon (e4_e0 m) E ->
  (imap m E Infinity <-> E = (0, 1) \/ E = (0, modulus (ECurve.c_f (e4_e0 m)) - 1)).
Proof. exact c44_kernel. Qed.
Print Assumptions C44_kernel.

(** push computes the map on every representative of every point *)
Theorem C44_push : forall m P E, iso4 m -> epoint (e4_e0 m) P E ->
  exists Q, ed448_push m P = Ret Q /\ forall M, mpoint (e4_e1 m) Q M <-> imap m E M.
Proof. exact c44_push. Qed.
Print Assumptions C44_push.

(** push commutes with the additions of the two curves *)
Theorem C44_push_add : forall m P1 P2 E1 E2, iso4 m -> epoint (e4_e0 m) P1 E1 -> epoint (e4_e0 m) P2 E2 ->
  exists P3 Q1 Q2 Q3 Q3', ECurve.pt_add P1 P2 = Ret P3 /\ ed448_push m P3 = Ret Q3
  /\ ed448_push m P1 = Ret Q1 /\ ed448_push m P2 = Ret Q2 /\ MCurve.pt_add Q1 Q2 = Ret Q3'
  /\ (exists M, mpoint (e4_e1 m) Q3 M) /\ forall M, mpoint (e4_e1 m) Q3 M <-> mpoint (e4_e1 m) Q3' M.
Proof. exact c44_push_add. Qed.
Print Assumptions C44_push_add.

(** the second map goes from the Montgomery curve to the Edwards curve *)
Theorem C44_dual : forall m M, iso4 m -> mon (e4_e1 m) M -> exists E, eon (e4_e0 m) E /\ forall E', dmap m M E' <-> E' = E.
Proof. exact c44_dual. Qed.
Print Assumptions C44_dual.

(** and after the first map it multiplies by four *)
Theorem C44_dual_map : forall m E M E', iso4 m -> eon (e4_e0 m) E -> imap m E M ->
  (dmap m M E' <-> multiple (esum (e4_e0 m)) (0, 1) E 4 E').
Proof. exact c44_dual_map. Qed.
Print Assumptions C44_dual_map.

(** the second map is a homomorphism too *)
Theorem C44_dual_homomorphism : forall m M1 M2 M3 E1 E2 E3, iso4 m -> mon (e4_e1 m) M1 -> mon (e4_e1 m) M2 ->
  dmap m M1 E1 -> dmap m M2 E2 -> msum (e4_e1 m) M1 M2 M3 -> (dmap m M3 E3 <-> esum (e4_e0 m) E1 E2 E3).
Proof. exact c44_dual_homomorphism. Qed.
Print Assumptions C44_dual_homomorphism.

(** its kernel is the identity, (0, 0) and the points with u = -1 *)
Theorem C44_dual_kernel : forall m M, iso4 m -> mon (e4_e1 m) M ->
  (dmap m M (0, 1) <-> M = Infinity \/ M = Affine 0 0 \/ exists v, M = Affine (modulus (ECurve.c_f (e4_e0 m)) - 1) v).
Proof. exact c44_dual_kernel. Qed.
Print Assumptions C44_dual_kernel.

(** and before the first map it multiplies by four *)
Theorem C44_map_dual : forall m M E M', iso4 m -> mon (e4_e1 m) M -> dmap m M E ->
  (imap m E M' <-> multiple (msum (e4_e1 m)) Infinity M 4 M').
Proof. exact c44_map_dual. Qed.
Print Assumptions C44_map_dual.

(** pull computes the second map at every point but (0, 0) *)
Theorem C44_pull : forall m Q M, iso4 m -> mpoint (e4_e1 m) Q M -> M <> Affine 0 0 ->
  exists P, ed448_pull m Q = Ret P /\ forall E, epoint (e4_e0 m) P E <-> dmap m M E.
Proof. exact c44_pull. Qed.
Print Assumptions C44_pull.

(** (0, 0), whose image is (0, 1), is sent to the tuple (0, 0, 0, 0), which represents no point and compares equal to every point *)
Theorem C44_pull_refuted : forall m Q, iso4 m -> mpoint (e4_e1 m) Q (Affine 0 0) ->
  (forall E, dmap m (Affine 0 0) E <-> E = (0, 1))
  /\ exists P, ed448_pull m Q = Ret P /\ val (ECurve.px (ECurve.pc P)) = 0 /\ val (ECurve.py (ECurve.pc P)) = 0
  /\ val (ECurve.ptt (ECurve.pc P)) = 0 /\ val (ECurve.pz (ECurve.pc P)) = 0 /\ (forall E, ~ epoint (e4_e0 m) P E)
  /\ forall P' E', epoint (e4_e0 m) P' E' -> ECurve.pt_eqb P P' = Ret true.
Proof. exact c44_pull_refuted. Qed.
Print Assumptions C44_pull_refuted.

(** pull after push multiplies by four, except at the points (1, 0) and (-1, 0) sent to (0, 0) *)
Theorem C44_pull_push : forall m P E, iso4 m -> epoint (e4_e0 m) P E -> snd E <> 0 ->
  exists Q P', ed448_push m P = Ret Q /\ ed448_pull m Q = Ret P'
  /\ forall C, epoint (e4_e0 m) P' C <-> multiple (esum (e4_e0 m)) (0, 1) E 4 C.
Proof. exact c44_pull_push. Qed.
Print Assumptions C44_pull_push.

(** pull commutes with the additions of the two curves, as long as neither argument nor the sum is (0, 0) *)
Theorem C44_pull_add : forall m Q1 Q2 M1 M2 M3, iso4 m -> mpoint (e4_e1 m) Q1 M1 -> mpoint (e4_e1 m) Q2 M2 ->
  msum (e4_e1 m) M1 M2 M3 -> M1 <> Affine 0 0 -> M2 <> Affine 0 0 -> M3 <> Affine 0 0 ->
  exists Q3 P1 P2 P3 P3', MCurve.pt_add Q1 Q2 = Ret Q3 /\ ed448_pull m Q3 = Ret P3
  /\ ed448_pull m Q1 = Ret P1 /\ ed448_pull m Q2 = Ret P2 /\ ECurve.pt_add P1 P2 = Ret P3'
  /\ (exists E, epoint (e4_e0 m) P3 E) /\ forall E, epoint (e4_e0 m) P3 E <-> epoint (e4_e0 m) P3' E.
Proof. exact c44_pull_add. Qed.
Print Assumptions C44_pull_add.

(** push after pull multiplies by four, except at (0, 0) *)
Theorem C44_push_pull : forall m Q M, iso4 m -> mpoint (e4_e1 m) Q M -> M <> Affine 0 0 ->
  exists P Q', ed448_pull m Q = Ret P /\ ed448_push m P = Ret Q'
  /\ forall C, mpoint (e4_e1 m) Q' C <-> multiple (msum (e4_e1 m)) Infinity M 4 C.
Proof. exact c44_push_pull. Qed.
Print Assumptions C44_push_pull.

(** the shipped map is of this kind *)
Theorem C44_shipped : exists m, edwards448_to_curve448 = Ret m /\ EDWARDS448 = Ret (e4_e0 m) /\ CURVE448 = Ret (e4_e1 m) /\ iso4 m.
Proof. exact c44_shipped. Qed.
Print Assumptions C44_shipped.

(** (1, 0) is a point of edwards448 and push sends it to (0, 0), so the exceptional case of pull occurs *)
Example C44_order_four : exists m P Q, edwards448_to_curve448 = Ret m /\ epoint (e4_e0 m) P (1, 0)
  /\ ed448_push m P = Ret Q /\ mpoint (e4_e1 m) Q (Affine 0 0).
Proof. exact c44_order_four. Qed.

(** curve448 has points with u = -1, so the kernel of the second map has points other than the identity and (0, 0) *)
Example C44_dual_kernel_ex : exists m v, edwards448_to_curve448 = Ret m
  /\ mon (e4_e1 m) (Affine (2 ^ 448 - 2 ^ 224 - 2) v) /\ dmap m (Affine (2 ^ 448 - 2 ^ 224 - 2) v) (0, 1).
Proof. exact c44_dual_kernel_ex. Qed.
