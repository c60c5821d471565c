(** C70: what == decides for each type of the library, and where it is an equivalence. *)

From Coq Require Import ZArith Znumtheory Lia String Bool List.
From Verif.Spec Require Import Arith Elements Equality.
From Verif.Model Require Import Out BigInt PrimeField QuadField Scalar WCurve MCurve ECurve.
From Verif.Proofs Require Import FieldP FieldProps SmallP.
From Verif.Proofs Require WeierProps MontProps EdwProps.
Import ListNotations.
Open Scope Z_scope.
From Verif.Proofs Require Import EqualityProps.

(** fields, elements, quadratic elements, scalars and curves: == holds exactly for identical values *)
Theorem C70_values : (forall f g, fp_eqb f g = true <-> f = g) /\ (forall x y, fpelt_eqb x y = true <-> x = y)
  /\ (forall f g, fp2_eqb f g = true <-> f = g) /\ (forall x y, fp2elt_eqb x y = true <-> x = y)
  /\ (forall a b, scalar_eqb a b = true <-> a = b)
  /\ (forall c d, WCurve.curve_eqb c d = true <-> c = d)
  /\ (forall c d, MCurve.curve_eqb c d = true <-> c = d)
  /\ (forall c d, ECurve.curve_eqb c d = true <-> c = d).
Proof. exact c70_values. Qed.
Print Assumptions C70_values.

(** Weierstrass.  On tuples over one field == never panics, is reflexive and symmetric, and compares
    the curves and the cross products.  It is transitive through Q exactly when Q is not (0,0,0). *)
Theorem C70_weier : forall p P Q, prime p -> wtuple p P -> wtuple p Q ->
  WCurve.pt_eqb P P = Ret true
  /\ (exists b, WCurve.pt_eqb P Q = Ret b /\ WCurve.pt_eqb Q P = Ret b
      /\ (b = true <-> WCurve.pe P = WCurve.pe Q
          /\ cross p (val (WCurve.px (WCurve.pc P))) (val (WCurve.pz (WCurve.pc P))) (val (WCurve.px (WCurve.pc Q))) (val (WCurve.pz (WCurve.pc Q)))
          /\ cross p (val (WCurve.py (WCurve.pc P))) (val (WCurve.pz (WCurve.pc P))) (val (WCurve.py (WCurve.pc Q))) (val (WCurve.pz (WCurve.pc Q)))))
  /\ ((forall S R, wtuple p S -> wtuple p R -> WCurve.pt_eqb S Q = Ret true -> WCurve.pt_eqb Q R = Ret true -> WCurve.pt_eqb S R = Ret true)
      <-> ~ wnull Q).
Proof. exact c70_weier. Qed.
Print Assumptions C70_weier.

(** Montgomery: the same *)
Theorem C70_mont : forall p P Q, prime p -> mtuple p P -> mtuple p Q ->
  MCurve.pt_eqb P P = Ret true
  /\ (exists b, MCurve.pt_eqb P Q = Ret b /\ MCurve.pt_eqb Q P = Ret b
      /\ (b = true <-> MCurve.pe P = MCurve.pe Q
          /\ cross p (val (MCurve.px (MCurve.pc P))) (val (MCurve.pz (MCurve.pc P))) (val (MCurve.px (MCurve.pc Q))) (val (MCurve.pz (MCurve.pc Q)))
          /\ cross p (val (MCurve.py (MCurve.pc P))) (val (MCurve.pz (MCurve.pc P))) (val (MCurve.py (MCurve.pc Q))) (val (MCurve.pz (MCurve.pc Q)))))
  /\ ((forall S R, mtuple p S -> mtuple p R -> MCurve.pt_eqb S Q = Ret true -> MCurve.pt_eqb Q R = Ret true -> MCurve.pt_eqb S R = Ret true)
      <-> ~ mnull Q).
Proof. exact c70_mont. Qed.
Print Assumptions C70_mont.

(** Edwards: the same with the third cross product *)
Theorem C70_edw : forall p P Q, prime p -> etuple p P -> etuple p Q ->
  ECurve.pt_eqb P P = Ret true
  /\ (exists b, ECurve.pt_eqb P Q = Ret b /\ ECurve.pt_eqb Q P = Ret b
      /\ (b = true <-> ECurve.pe P = ECurve.pe Q
          /\ cross p (val (ECurve.px (ECurve.pc P))) (val (ECurve.pz (ECurve.pc P))) (val (ECurve.px (ECurve.pc Q))) (val (ECurve.pz (ECurve.pc Q)))
          /\ cross p (val (ECurve.py (ECurve.pc P))) (val (ECurve.pz (ECurve.pc P))) (val (ECurve.py (ECurve.pc Q))) (val (ECurve.pz (ECurve.pc Q)))
          /\ cross p (val (ECurve.ptt (ECurve.pc P))) (val (ECurve.pz (ECurve.pc P))) (val (ECurve.ptt (ECurve.pc Q))) (val (ECurve.pz (ECurve.pc Q)))))
  /\ ((forall S R, etuple p S -> etuple p R -> ECurve.pt_eqb S Q = Ret true -> ECurve.pt_eqb Q R = Ret true -> ECurve.pt_eqb S R = Ret true)
      <-> ~ enull Q).
Proof. exact c70_edw. Qed.
Print Assumptions C70_edw.

(** Points over different fields: == does not answer false, it panics, whatever the curves are *)
Theorem C70_different_fields : forall p q, p <> q ->
  (forall P Q, wtuple p P -> wtuple q Q -> WCurve.pt_eqb P Q = Panic "elements of different fields")
  /\ (forall P Q, mtuple p P -> mtuple q Q -> MCurve.pt_eqb P Q = Panic "elements of different fields")
  /\ (forall P Q, etuple p P -> etuple q Q -> ECurve.pt_eqb P Q = Panic "elements of different fields").
Proof. exact c70_different_fields. Qed.
Print Assumptions C70_different_fields.

(** two representations of (2,3), the tuples with z = 0 (all equal to each other), and (0,0,0) between two points *)
Example C70_ex : let e := WeierProps.E7 in
  let t x y z := WCurve.mkPoint e (WCurve.mkProy (mkFpElt x (mkFp 7)) (mkFpElt y (mkFp 7)) (mkFpElt z (mkFp 7))) in
  WCurve.pt_eqb (t 2 3 1) (t 4 6 2) = Ret true /\ WCurve.pt_eqb (t 2 3 1) (t 4 5 2) = Ret false
  /\ WCurve.pt_eqb (t 1 0 0) (t 0 1 0) = Ret true /\ WCurve.pt_eqb (t 1 0 0) (t 2 3 1) = Ret false
  /\ WCurve.pt_eqb (t 2 3 1) (t 0 0 0) = Ret true /\ WCurve.pt_eqb (t 0 0 0) (t 2 4 1) = Ret true
  /\ WCurve.pt_eqb (t 2 3 1) (t 2 4 1) = Ret false.
Proof. exact c70_ex. Qed.
