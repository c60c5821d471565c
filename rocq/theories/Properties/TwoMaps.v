(** C73: hashing from two field elements: both are mapped to the curve, the images added, the sum multiplied by the cofactor. *)

From Coq Require Import ZArith Znumtheory Lia String Ascii Bool List.
From Verif.Math Require Import Fld Zp Residue.
From Verif.Spec Require Import Arith Curve Isogeny Elements.
From Verif.Spec Require Instances Maps Morphisms.
From Verif.Model Require Import Out BigInt PrimeField Scalar RationalMaps CurveExtras.
From Verif.Model Require Instances Maps.
From Verif.Model Require WCurve MCurve ECurve.
From Verif.Proofs Require Import FieldP FieldProps CurveP.
From Verif.Proofs Require WeierProps MontProps EdwProps MapsProps InstProps IsogProps RatProps Rat4Props EdEllProps OrderRun OrderProps ScLawProps LawProps HashProps.
From Verif.Spec Require Export Shipped TwoMaps.
Import Spec.Instances Model.Instances Model.Maps.
Import ListNotations.
Open Scope Z_scope.
From Verif.Proofs Require Import TwoMapsProps.

(** SSWU and SVDW on the curves whose cofactor clears *)
Theorem C73_weierstrass : Forall w_hashes_pairs [P256; P384; P521; SECP256K1; SECP256K1_3ISO; BLS12381G1].
Proof. exact c73_weierstrass. Qed.
Print Assumptions C73_weierstrass.

(** SSWU through the 3-isogeny, onto secp256k1 *)
Theorem C73_secp256k1 : forall m z s u v, get_isogeny_secp256k1 = Ret m -> let p := modulus (WCurve.c_f (iso_e0 m)) in
  valid p z -> valid p u -> valid p v -> sswuab0_new (iso_e1 m) z m = Ret s ->
  SECP256K1 = Ret (iso_e1 m) /\ w_both_land (iso_e1 m) (sswuab0_map s u) (sswuab0_map s v).
Proof. exact c73_secp256k1. Qed.
Print Assumptions C73_secp256k1.

(** SSWU through the 11-isogeny, onto BLS12-381 G1: exactly when neither SSWU point is in the kernel; otherwise the map panics *)
Theorem C73_bls12381g1 : forall m z s u v, get_isogeny_bls12381g1 = Ret m -> let p := modulus (WCurve.c_f (iso_e0 m)) in
  valid p z -> valid p u -> valid p v -> sswuab0_new (iso_e1 m) z m = Ret s ->
  BLS12381G1 = Ret (iso_e1 m)
  /\ exists x y x' y', Verif.Spec.Maps.sswu_point p (val (WCurve.c_a (iso_e0 m))) (val (WCurve.c_b (iso_e0 m))) (val z) (val u) x y
    /\ Verif.Spec.Maps.sswu_point p (val (WCurve.c_a (iso_e0 m))) (val (WCurve.c_b (iso_e0 m))) (val z) (val v) x' y'
    /\ (w_both_land (iso_e1 m) (sswuab0_map s u) (sswuab0_map s v) <-> ~ In x kernel11 /\ ~ In x' kernel11).
Proof. exact c73_bls12381g1. Qed.
Print Assumptions C73_bls12381g1.

Theorem C73_montgomery : Forall m_hashes_pairs [CURVE25519; CURVE448].
Proof. exact c73_montgomery. Qed.
Print Assumptions C73_montgomery.

(** Elligator 2 on edwards25519, for every pair *)
Theorem C73_edwards25519 : exists m, edwards25519_to_curve25519 = Ret m /\ EDWARDS25519 = Ret (ed_e0 m) /\
  forall z u v, let p := modulus (ECurve.c_f (ed_e0 m)) in valid p z -> valid p u -> valid p v -> ~ square_mod p (val z) ->
  exists M, ed_ell2_new (ed_e0 m) z (Some (R25519 m)) = Ret M /\ e_both_land (ed_e0 m) (ed_ell2_map M u) (ed_ell2_map M v).
Proof. exact c73_edwards25519. Qed.
Print Assumptions C73_edwards25519.

(** Elligator 2 on edwards448: exactly for the pairs without an element that is sent to (0, 0, 0, 0) *)
Theorem C73_edwards448 : exists m, edwards448_to_curve448 = Ret m /\ EDWARDS448 = Ret (e4_e0 m) /\
  forall z u v, let p := modulus (ECurve.c_f (e4_e0 m)) in valid p z -> valid p u -> valid p v -> ~ square_mod p (val z) ->
  exists M, ed_ell2_new (e4_e0 m) z (Some (R448 m)) = Ret M
  /\ (e_both_land (e4_e0 m) (ed_ell2_map M u) (ed_ell2_map M v) <->
      (~ (p | val u) /\ ~ (p | 1 + val z * (val u * val u))) /\ ~ (p | val v) /\ ~ (p | 1 + val z * (val v * val v))).
Proof. exact c73_edwards448. Qed.
Print Assumptions C73_edwards448.

Theorem C73_sswu_opposite : forall e z u m, WPoints.weier e -> Morphisms.wfield e -> let p := modulus (WCurve.c_f e) in valid p z -> valid p u -> sswu_new e z = Ret m -> val u <> 0 ->
  exists v, neg u = Ret v /\ WPoints.same (bind (sswu_map m u) (fun P => bind (sswu_map m v) (fun Q => WCurve.pt_add P Q))) (WCurve.identity e).
Proof. exact c73_sswu_opposite. Qed.
Print Assumptions C73_sswu_opposite.

(** with SVDW they cancel unless both of the first two candidates are abscissas of points; then each of u and -u takes its own *)
Theorem C73_svdw_opposite : forall e z u m P x y, Morphisms.wfield e -> let p := modulus (WCurve.c_f e) in
  let square_at := fun x => square_mod p (Verif.Spec.Maps.cubic (val (WCurve.c_a e)) (val (WCurve.c_b e)) x) in
  valid p z -> valid p u -> svdw_new e z = Ret m -> val u <> 0 -> svdw_map m u = Ret P -> WPoints.wpoint e P (Affine x y) ->
  exists v Q c x1 x2 x3, neg u = Ret v /\ svdw_map m v = Ret Q
    /\ Verif.Spec.Maps.svdw_candidates p (val (WCurve.c_a e)) (val (WCurve.c_b e)) (val z) (val u) c x1 x2 x3
    /\ (square_at x1 -> square_at x2 -> x = x1 /\ exists y', WPoints.wpoint e Q (Affine x2 y'))
    /\ (~ (square_at x1 /\ square_at x2) -> WPoints.wpoint e Q (negative p (Affine x y))).
Proof. exact c73_svdw_opposite. Qed.
Print Assumptions C73_svdw_opposite.

(** P-256 with the parameter -10 of RFC 9380; on the curve modulo 11 of C40 opposite elements cancel and 1, 4 are sent to (8,9), (6,6) with
    sum (2,0); on the one of C41 the opposite elements 5 and 6 are sent to (10,0) and (0,10) *)
Example C73_ex : (exists e z m, P256 = Ret e /\ from_int (w_get_field e) (-10) = Ret z /\ sswu_new e z = Ret m
    /\ forall u v, valid (modulus (w_get_field e)) u -> valid (modulus (w_get_field e)) v -> w_both_land e (sswu_map m u) (sswu_map m v))
  /\ (exists m S T, sswu_new MapsProps.W11 (MapsProps.n11 2) = Ret m
     /\ bind (sswu_map m (MapsProps.n11 1)) (fun P => bind (sswu_map m (MapsProps.n11 4)) (fun Q => WCurve.pt_add P Q)) = Ret S
     /\ bind (sswu_map m (MapsProps.n11 4)) (fun P => bind (sswu_map m (MapsProps.n11 7)) (fun Q => WCurve.pt_add P Q)) = Ret T
     /\ WCurve.normalize S = Ret (MapsProps.w11 2 0) /\ WCurve.pt_is_zero T = true)
  /\ exists m, svdw_new MapsProps.V11 (MapsProps.n11 1) = Ret m /\ neg (MapsProps.n11 5) = Ret (MapsProps.n11 6)
     /\ svdw_map m (MapsProps.n11 5) = Ret (MapsProps.v11 10 0) /\ svdw_map m (MapsProps.n11 6) = Ret (MapsProps.v11 0 10).
Proof. exact c73_ex. Qed.

(** so opposite elements do not always have opposite images under SVDW *)
Theorem C73_svdw_odd_refuted : exists e z u v m P Q A, Morphisms.wfield e /\ valid (modulus (WCurve.c_f e)) z /\ valid (modulus (WCurve.c_f e)) u /\ val u <> 0
  /\ svdw_new e z = Ret m /\ neg u = Ret v /\ svdw_map m u = Ret P /\ svdw_map m v = Ret Q /\ WPoints.wpoint e P A
  /\ ~ WPoints.wpoint e Q (negative (modulus (WCurve.c_f e)) A).
Proof. exact c73_svdw_odd_refuted. Qed.
Print Assumptions C73_svdw_odd_refuted.
