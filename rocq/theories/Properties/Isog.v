(** Isogenies onto the curves with a = 0 and the maps built on them: C45-C47. *)

From Coq Require Import ZArith Znumtheory Lia String Ascii Bool List.
From Verif.Math Require Import Fld Zp Residue ECGroup.
From Verif.Spec Require Import Arith Curve Isogeny.
From Verif.Spec Require Maps Instances.
From Verif.Model Require Import Out BigInt PrimeField Instances RationalMaps.
From Verif.Model Require WCurve Maps.
From Verif.Proofs Require Import FieldP FieldProps CurveP IsogP.
From Verif.Proofs Require WeierP WeierProps InstP InstShip InstProps MapsP MapsProps Cert_Isog.
From Verif.Math Require Prime_psecp Prime_pbls.
From Verif.Spec Require Export Morphisms.
Import WPoints(weier, wpoint, wsum, won).
Import ListNotations.
Open Scope Z_scope.
From Verif.Proofs Require Import IsogProps.

(** the map the code builds is the 3-isogeny of RFC 9380 between the two curves it names *)
Theorem C45_shipped : exists m, get_isogeny_secp256k1 = Ret m /\ SECP256K1_3ISO = Ret (iso_e0 m) /\ SECP256K1 = Ret (iso_e1 m) /\ isog m iso3_secp256k1.
Proof. exact c45_shipped. Qed.
Print Assumptions C45_shipped.

(** push looks at X and Y only: it returns the image of (X, Y) if that is a point of the domain and panics if it is not;
    no point of the domain makes a denominator vanish *)
Theorem C45_exact : forall m P, get_isogeny_secp256k1 = Ret m -> tuple m P ->
  let X := val (WCurve.px (WCurve.pc P)) in let Y := val (WCurve.py (WCurve.pc P)) in
  (won (iso_e0 m) (Affine X Y) ->
     exists Q X' Y', iso_push m P = Ret Q /\ wpoint (iso_e1 m) Q (Affine X' Y') /\ image m iso3_secp256k1 X Y X' Y')
  /\ (~ won (iso_e0 m) (Affine X Y) -> iso_push m P = Panic "not valid point").
Proof. exact c45_exact. Qed.
Print Assumptions C45_exact.

(** in particular push is total on points with z = 1, and its result is their image, a point of secp256k1 *)
Theorem C45_normalised : forall m P x y, get_isogeny_secp256k1 = Ret m -> wpoint (iso_e0 m) P (Affine x y) ->
  val (WCurve.pz (WCurve.pc P)) = 1 ->
  exists Q X Y, iso_push m P = Ret Q /\ wpoint (iso_e1 m) Q (Affine X Y) /\ image m iso3_secp256k1 x y X Y.
Proof. exact c45_normalised. Qed.
Print Assumptions C45_normalised.

Theorem C45_opposite : forall m P P' x y, get_isogeny_secp256k1 = Ret m -> wpoint (iso_e0 m) P (Affine x y) ->
  wpoint (iso_e0 m) P' (negative (modulus (WCurve.c_f (iso_e0 m))) (Affine x y)) ->
  val (WCurve.pz (WCurve.pc P)) = 1 -> val (WCurve.pz (WCurve.pc P')) = 1 ->
  exists Q Q' X Y, iso_push m P = Ret Q /\ iso_push m P' = Ret Q' /\ wpoint (iso_e1 m) Q (Affine X Y)
    /\ wpoint (iso_e1 m) Q' (negative (modulus (WCurve.c_f (iso_e1 m))) (Affine X Y)).
Proof. exact c45_opposite. Qed.
Print Assumptions C45_opposite.

(** push panics on the identity *)
Theorem C45_identity_refuted : exists m P, get_isogeny_secp256k1 = Ret m /\ wpoint (iso_e0 m) P Infinity /\ iso_push m P = Panic "not valid point".
Proof. exact c45_identity_refuted. Qed.
Print Assumptions C45_identity_refuted.

(** and on a representative with z = 2 of a point whose representative with z = 1 it accepts *)
Theorem C45_unnormalised_refuted : exists m P P' A Q, get_isogeny_secp256k1 = Ret m
  /\ wpoint (iso_e0 m) P A /\ wpoint (iso_e0 m) P' A /\ iso_push m P = Ret Q /\ iso_push m P' = Panic "not valid point".
Proof. exact c45_unnormalised_refuted. Qed.
Print Assumptions C45_unnormalised_refuted.

(** the base point of the domain is sent to the base point of the codomain *)
Theorem C45_generator : exists m G G' Q, get_isogeny_secp256k1 = Ret m /\ WCurve.get_generator (iso_e0 m) = Ret G /\ WCurve.get_generator (iso_e1 m) = Ret G'
  /\ iso_push m G = Ret Q /\ wpoint (iso_e1 m) G' (Affine (Instances.w_gx Instances.std_SECP256K1) (Instances.w_gy Instances.std_SECP256K1))
  /\ wpoint (iso_e1 m) Q (Affine (Instances.w_gx Instances.std_SECP256K1) (Instances.w_gy Instances.std_SECP256K1)).
Proof. exact c45_generator. Qed.
Print Assumptions C45_generator.

(** the map the code builds is the 11-isogeny of RFC 9380 between the two curves it names *)
Theorem C46_shipped : exists m, get_isogeny_bls12381g1 = Ret m /\ BLS12381G1_11ISO = Ret (iso_e0 m) /\ BLS12381G1 = Ret (iso_e1 m) /\ isog m iso11_bls12381g1.
Proof. exact c46_shipped. Qed.
Print Assumptions C46_shipped.

(** push looks at X and Y only: it returns the image of (X, Y) if that is a point of the domain outside the kernel, and panics
    in all other cases *)
Theorem C46_exact : forall m P, get_isogeny_bls12381g1 = Ret m -> tuple m P ->
  let X := val (WCurve.px (WCurve.pc P)) in let Y := val (WCurve.py (WCurve.pc P)) in
  (won (iso_e0 m) (Affine X Y) -> ~ In X kernel11 ->
     exists Q X' Y', iso_push m P = Ret Q /\ wpoint (iso_e1 m) Q (Affine X' Y') /\ image m iso11_bls12381g1 X Y X' Y')
  /\ (~ won (iso_e0 m) (Affine X Y) \/ In X kernel11 -> iso_push m P = Panic "not valid point").
Proof. exact c46_exact. Qed.
Print Assumptions C46_exact.

(** on points with z = 1: the image, a point of the curve, unless the point is in the kernel *)
Theorem C46_normalised : forall m P x y, get_isogeny_bls12381g1 = Ret m -> wpoint (iso_e0 m) P (Affine x y) ->
  val (WCurve.pz (WCurve.pc P)) = 1 ->
  (~ In x kernel11 -> exists Q X Y, iso_push m P = Ret Q /\ wpoint (iso_e1 m) Q (Affine X Y) /\ image m iso11_bls12381g1 x y X Y)
  /\ (In x kernel11 -> iso_push m P = Panic "not valid point").
Proof. exact c46_normalised. Qed.
Print Assumptions C46_normalised.

(** every abscissa of the kernel is that of a point of the domain with z = 1, on which push panics; the isogeny sends it to the
    identity *)
Theorem C46_kernel_refuted : forall x, In x kernel11 -> exists m P y, get_isogeny_bls12381g1 = Ret m
  /\ wpoint (iso_e0 m) P (Affine x y) /\ val (WCurve.pz (WCurve.pc P)) = 1 /\ iso_push m P = Panic "not valid point".
Proof. exact c46_kernel_refuted. Qed.
Print Assumptions C46_kernel_refuted.

Theorem C46_identity_refuted : exists m P, get_isogeny_bls12381g1 = Ret m /\ wpoint (iso_e0 m) P Infinity /\ iso_push m P = Panic "not valid point".
Proof. exact c46_identity_refuted. Qed.
Print Assumptions C46_identity_refuted.

Theorem C46_unnormalised_refuted : exists m P P' A Q, get_isogeny_bls12381g1 = Ret m
  /\ wpoint (iso_e0 m) P A /\ wpoint (iso_e0 m) P' A /\ iso_push m P = Ret Q /\ iso_push m P' = Panic "not valid point".
Proof. exact c46_unnormalised_refuted. Qed.
Print Assumptions C46_unnormalised_refuted.

(** the base point of the domain is sent to the base point of the codomain *)
Theorem C46_generator : exists m G G' Q, get_isogeny_bls12381g1 = Ret m /\ WCurve.get_generator (iso_e0 m) = Ret G /\ WCurve.get_generator (iso_e1 m) = Ret G'
  /\ iso_push m G = Ret Q /\ wpoint (iso_e1 m) G' (Affine (Instances.w_gx Instances.std_BLS12381G1) (Instances.w_gy Instances.std_BLS12381G1))
  /\ wpoint (iso_e1 m) Q (Affine (Instances.w_gx Instances.std_BLS12381G1) (Instances.w_gy Instances.std_BLS12381G1)).
Proof. exact c46_generator. Qed.
Print Assumptions C46_generator.

(** new accepts exactly the codomain of the isogeny together with parameters that SSWU accepts for its domain *)
Theorem C47_new : forall m i e z, isog m i -> sqrt_modulus (modulus (WCurve.c_f (iso_e0 m))) -> valid (modulus (WCurve.c_f (iso_e0 m))) z ->
  let ok := e = iso_e1 m /\ Verif.Spec.Maps.sswu_params (modulus (WCurve.c_f (iso_e0 m))) (val (WCurve.c_a (iso_e0 m))) (val (WCurve.c_b (iso_e0 m))) (val z) in
  (ok -> exists s, sswuab0_new e z m = Ret s) /\ (~ ok -> sswuab0_new e z m = Panic "wrong input parameters").
Proof. exact c47_new. Qed.
Print Assumptions C47_new.

(** map(u) is the image under the isogeny of the point SSWU gives on its domain, and a panic if that point is in the kernel *)
Theorem C47_map : forall m i e z s u, isog m i -> sqrt_modulus (modulus (WCurve.c_f (iso_e0 m))) -> valid (modulus (WCurve.c_f (iso_e0 m))) z ->
  valid (modulus (WCurve.c_f (iso_e0 m))) u -> sswuab0_new e z m = Ret s ->
  let p := modulus (WCurve.c_f (iso_e0 m)) in
  exists x y, Verif.Spec.Maps.sswu_point p (val (WCurve.c_a (iso_e0 m))) (val (WCurve.c_b (iso_e0 m))) (val z) (val u) x y
    /\ won (iso_e0 m) (Affine x y)
    /\ (~ (p | peval (i_xd i) x) -> exists Q X Y, sswuab0_map s u = Ret Q /\ wpoint e Q (Affine X Y) /\ image m i x y X Y)
    /\ ((p | peval (i_xd i) x) -> sswuab0_map s u = Panic "not valid point").
Proof. exact c47_map. Qed.
Print Assumptions C47_map.

(** over the 3-isogeny to secp256k1 the map is total *)
Theorem C47_secp256k1 : forall m e z s u, get_isogeny_secp256k1 = Ret m -> valid (modulus (WCurve.c_f (iso_e0 m))) z ->
  valid (modulus (WCurve.c_f (iso_e0 m))) u -> sswuab0_new e z m = Ret s ->
  exists x y Q X Y, Verif.Spec.Maps.sswu_point (modulus (WCurve.c_f (iso_e0 m))) (val (WCurve.c_a (iso_e0 m))) (val (WCurve.c_b (iso_e0 m))) (val z) (val u) x y
    /\ sswuab0_map s u = Ret Q /\ wpoint e Q (Affine X Y) /\ image m iso3_secp256k1 x y X Y.
Proof. exact c47_secp256k1. Qed.
Print Assumptions C47_secp256k1.

(** over the 11-isogeny to BLS12-381 G1 it returns the image exactly when the SSWU point is outside the kernel *)
Theorem C47_bls12381g1 : forall m e z s u, get_isogeny_bls12381g1 = Ret m -> valid (modulus (WCurve.c_f (iso_e0 m))) z ->
  valid (modulus (WCurve.c_f (iso_e0 m))) u -> sswuab0_new e z m = Ret s ->
  exists x y, Verif.Spec.Maps.sswu_point (modulus (WCurve.c_f (iso_e0 m))) (val (WCurve.c_a (iso_e0 m))) (val (WCurve.c_b (iso_e0 m))) (val z) (val u) x y
    /\ (~ In x kernel11 -> exists Q X Y, sswuab0_map s u = Ret Q /\ wpoint e Q (Affine X Y) /\ image m iso11_bls12381g1 x y X Y)
    /\ (In x kernel11 -> sswuab0_map s u = Panic "not valid point").
Proof. exact c47_bls12381g1. Qed.
Print Assumptions C47_bls12381g1.

(** the parameters of RFC 9380 are accepted: z = -11 for secp256k1 and z = 11 for BLS12-381 G1 *)
Example C47_secp256k1_ex : exists m s, get_isogeny_secp256k1 = Ret m
  /\ sswuab0_new (iso_e1 m) (mkFpElt (Cert_Isog.p_secp - 11) (WCurve.c_f (iso_e0 m))) m = Ret s.
Proof. exact c47_secp256k1_ex. Qed.

Example C47_bls12381g1_ex : exists m s, get_isogeny_bls12381g1 = Ret m /\ sswuab0_new (iso_e1 m) (mkFpElt 11 (WCurve.c_f (iso_e0 m))) m = Ret s.
Proof. exact c47_bls12381g1_ex. Qed.

(** with z = 11 the map to BLS12-381 G1 panics on this u, whose SSWU point is in the kernel of the isogeny *)
Theorem C47_bls12381g1_refuted : exists m s u, get_isogeny_bls12381g1 = Ret m
  /\ sswuab0_new (iso_e1 m) (mkFpElt 11 (WCurve.c_f (iso_e0 m))) m = Ret s
  /\ valid (modulus (WCurve.c_f (iso_e0 m))) u
  /\ val u = 2996364799790106798135996267804732426571918304256045973420659328602593967274666773429484758551777178205846782232816
  /\ sswuab0_map s u = Panic "not valid point".
Proof. exact c47_bls12381g1_refuted. Qed.
Print Assumptions C47_bls12381g1_refuted.
