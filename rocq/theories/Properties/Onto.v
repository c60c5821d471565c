(** Properties C45, C46: every point of secp256k1 is the image of exactly one point under the 3-isogeny; the 11-isogeny is a bijection
    between the subgroups of the two base points, and every image has exactly eleven preimages; it is not onto. *)

From Coq Require Import ZArith Znumtheory Lia String Ascii Bool List.
From Verif.Math Require Import Fld Zp Residue.
From Verif.Spec Require Import Arith Curve Isogeny Order.
From Verif.Spec Require Instances.
From Verif.Model Require Import Out BigInt PrimeField Scalar Instances RationalMaps.
From Verif.Model Require WCurve.
From Verif.Proofs Require Import FieldP FieldProps ScalarProps CurveP PolyL IsogP IsoHomP IsogProps IsoHomProps.
From Verif.Proofs Require WeierP WeierProps InstShip InstProps Cert_Isog OrderProps LawProps.
From Verif.Math Require Import ECGroup.
From Verif.Spec Require Export Morphisms IsogBases.
Import WPoints(weier, wpoint, wsum, won, same).
Import ListNotations.
Open Scope Z_scope.
From Verif.Proofs Require Import OntoProps.

(** the isogeny onto secp256k1 is a bijection *)
Theorem C45_onto : forall m A', get_isogeny_secp256k1 = Ret m -> won (iso_e1 m) A' ->
  exists A, won (iso_e0 m) A /\ forall B, won (iso_e0 m) B -> (maps m iso3_secp256k1 B A' <-> B = A).
Proof. exact c45_onto. Qed.
Print Assumptions C45_onto.

(** the isogeny onto BLS12-381 G1 is a bijection between the multiples of the base points *)
Theorem C46_onto_subgroup : forall m n A', get_isogeny_bls12381g1 = Ret m -> multiple (wsum (iso_e1 m)) Infinity gen11' n A' ->
  exists A, (exists k, multiple (wsum (iso_e0 m)) Infinity gen11 k A) /\ maps m iso11_bls12381g1 A A'
    /\ forall k B, multiple (wsum (iso_e0 m)) Infinity gen11 k B -> maps m iso11_bls12381g1 B A' -> B = A.
Proof. exact c46_onto_subgroup. Qed.
Print Assumptions C46_onto_subgroup.

(** there are eleven, all on the curve, and every point of the domain goes to the same image as exactly ten others: those that differ from it by a point of the kernel *)
Theorem C46_eleven_preimages : forall m A A', get_isogeny_bls12381g1 = Ret m -> won (iso_e0 m) A -> maps m iso11_bls12381g1 A A' ->
  exists l, NoDup l /\ List.length l = 11%nat /\ forall B, In B l <-> won (iso_e0 m) B /\ maps m iso11_bls12381g1 B A'.
Proof. exact c46_eleven_preimages. Qed.
Print Assumptions C46_eleven_preimages.

(** it is not onto: the curves have equally many points, so some point of BLS12-381 G1 is the image of none *)
Theorem C46_onto_refuted : forall m, get_isogeny_bls12381g1 = Ret m ->
  exists A', won (iso_e1 m) A' /\ forall A, won (iso_e0 m) A -> ~ maps m iso11_bls12381g1 A A'.
Proof. exact c46_onto_refuted. Qed.
Print Assumptions C46_onto_refuted.

(** the base points correspond; the eleven points of the kernel *)
Example C46_onto_ex : (exists m, get_isogeny_secp256k1 = Ret m /\ maps m iso3_secp256k1 gen3 gen3')
  /\ (exists m, get_isogeny_bls12381g1 = Ret m /\ maps m iso11_bls12381g1 gen11 gen11') /\ List.length kernel_points = 11%nat.
Proof. exact c46_onto_ex. Qed.
