(** What callers can find out about the representation of points: C64. *)

From Coq Require Import ZArith Znumtheory Lia String Bool List.
From Verif.Math Require Import Fld Zp.
From Verif.Spec Require Import Arith Curve Programs.
From Verif.Spec Require WPoints MPoints EPoints.
From Verif.Model Require Import Out BigInt PrimeField Scalar.
From Verif.Model Require WCurve MCurve ECurve Display.
From Verif.Proofs Require Import FieldP ScalarProps CurveP ScLaw ProgramP.
From Verif.Proofs Require WeierP MontP EdwP WeierProps MontProps EdwProps ScLawProps.
Import ListNotations.
Open Scope Z_scope.
From Verif.Proofs Require Import ProgramProps.

(** programs that branch on every answer cannot tell apart two representations of the same points ... *)
Theorem C64_opaque : forall oc e, WPoints.wgroup e -> opaque (w_api oc e) (WPoints.wpoint e).
Proof. exact c64_opaque. Qed.
Print Assumptions C64_opaque.

Theorem C64_mont_opaque : forall oc e, MPoints.mgroup e -> opaque (m_api oc e) (MPoints.mpoint e).
Proof. exact c64_mont_opaque. Qed.
Print Assumptions C64_mont_opaque.

Theorem C64_edw_opaque : forall oc e, EPoints.egroup e -> opaque (e_api oc e) (EPoints.epoint e).
Proof. exact c64_edw_opaque. Qed.
Print Assumptions C64_edw_opaque.

(** ... and different points are told apart by some program *)
Theorem C64_separating : forall oc e, WPoints.wgroup e -> separating (w_api oc e) (WPoints.wpoint e).
Proof. exact c64_separating. Qed.
Print Assumptions C64_separating.

Theorem C64_mont_separating : forall oc e, MPoints.mgroup e -> separating (m_api oc e) (MPoints.mpoint e).
Proof. exact c64_mont_separating. Qed.
Print Assumptions C64_mont_separating.

Theorem C64_edw_separating : forall oc e, EPoints.egroup e -> separating (e_api oc e) (EPoints.epoint e).
Proof. exact c64_edw_separating. Qed.
Print Assumptions C64_edw_separating.

(** outside these programs the representation shows: in the text of a point that was not normalised, in its coordinates, and in is_two_torsion *)
Theorem C64_raw_text_refuted : exists e P Q A, WPoints.wgroup e /\ WPoints.wpoint e P A /\ WPoints.wpoint e Q A
  /\ Display.wpoint_show P <> Display.wpoint_show Q.
Proof. exact c64_raw_text_refuted. Qed.
Print Assumptions C64_raw_text_refuted.

Theorem C64_two_torsion_refuted : exists e P Q A, MPoints.mgroup e /\ MPoints.mpoint e P A /\ MPoints.mpoint e Q A
  /\ MCurve.is_two_torsion P = true /\ MCurve.is_two_torsion Q = false.
Proof. exact c64_two_torsion_refuted. Qed.
Print Assumptions C64_two_torsion_refuted.

Example C64_ex :
  WPoints.wgroup WeierProps.E7 /\ WPoints.wpoint WeierProps.E7 (WeierProps.pt7 4 6 2) (Affine 2 3) /\ WPoints.wpoint WeierProps.E7 (WeierProps.pt7 2 3 1) (Affine 2 3)
  /\ prog_bytes (looks 5)
  /\ run (w_api true WeierProps.E7) (looks 5) [WeierProps.pt7 4 6 2] = run (w_api true WeierProps.E7) (looks 5) [WeierProps.pt7 2 3 1]
  /\ run (w_api true WeierProps.E7) (looks 5) [WeierProps.pt7 2 3 1]
    = Seen Made (Seen (Answer false) (Seen Made (Seen Made (Seen (Bytes [2; 2]) (Seen (Answer true) (Seen (Text "
x: 2
y: 3
z: 1") (Seen Made (Seen Made (Seen (Bytes [4; 4; 5]) End)))))))))
  /\ run (w_api true WeierProps.E7) (looks 5) [WeierProps.pt7 0 3 0] = Seen Made (Seen (Answer true) (Seen (Text "
x: 0
y: 0
z: 1") End)).
Proof. exact c64_ex. Qed.

Example C64_mont_ex :
  MPoints.mgroup MontProps.E19 /\ MPoints.mpoint MontProps.E19 (MontProps.pt19 12 2 2) (Affine 6 1)
  /\ run (m_api true MontProps.E19) (looks 3) [MontProps.pt19 12 2 2] = run (m_api true MontProps.E19) (looks 3) [MontProps.pt19 6 1 1]
  /\ run (m_api true MontProps.E19) (looks 3) [MontProps.pt19 12 2 2] <> run (m_api true MontProps.E19) (looks 3) [MontProps.pt19 7 6 1].
Proof. exact c64_mont_ex. Qed.

Example C64_edw_ex :
  EPoints.egroup EdwProps.E29 /\ EPoints.epoint EdwProps.E29 (EdwProps.pt29 6 10 1 2) (3, 5)
  /\ run (e_api true EdwProps.E29) (looks 5) [EdwProps.pt29 6 10 1 2] = run (e_api true EdwProps.E29) (looks 5) [EdwProps.pt29 3 5 15 1]
  /\ run (e_api true EdwProps.E29) (looks 5) [EdwProps.pt29 6 10 1 2] <> run (e_api true EdwProps.E29) (looks 5) [EdwProps.pt29 2 22 15 1].
Proof. exact c64_edw_ex. Qed.
