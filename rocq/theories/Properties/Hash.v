(** C58: from a field element to the subgroup: the maps followed by the multiplication by the cofactor. *)

From Coq Require Import ZArith Znumtheory Lia String Ascii Bool List.
From Verif.Math Require Import Fld Zp Residue.
From Verif.Spec Require Import Arith Curve Isogeny.
From Verif.Spec Require Instances Maps.
From Verif.Model Require Import Out BigInt PrimeField Scalar RationalMaps CurveExtras.
From Verif.Model Require Instances Maps.
From Verif.Model Require WCurve MCurve ECurve.
From Verif.Proofs Require Import FieldP FieldProps CurveP.
From Verif.Proofs Require WeierProps MontProps EdwProps MapsProps InstShip InstProps IsogProps RatProps Rat4Props EdEllProps OrderRun OrderProps Cert_Hash Cert_Ell.
From Verif.Math Require Prime_p25519 Prime_p448.
From Verif.Spec Require Export Shipped.
Import Spec.Instances Model.Instances Model.Maps.
Import ListNotations.
Open Scope Z_scope.
From Verif.Proofs Require Import HashProps.

(** SSWU and SVDW on the curves whose cofactor clears *)
Theorem C58_weierstrass : Forall w_hashes [P256; P384; P521; SECP256K1; SECP256K1_3ISO; BLS12381G1].
Proof. exact c58_weierstrass. Qed.
Print Assumptions C58_weierstrass.

(** the parameters of RFC 9380, section 8, for SSWU *)
Theorem C58_rfc9380_sswu : sswu_ok P256 (-10) /\ sswu_ok P384 (-12) /\ sswu_ok P521 (-4).
Proof. exact c58_rfc9380_sswu. Qed.
Print Assumptions C58_rfc9380_sswu.

(** and the smallest parameters for SVDW *)
Theorem C58_rfc9380_svdw : svdw_ok P256 (-3) /\ svdw_ok P384 (-1) /\ svdw_ok P521 1 /\ svdw_ok SECP256K1 1 /\ svdw_ok BLS12381G1 (-3).
Proof. exact c58_rfc9380_svdw. Qed.
Print Assumptions C58_rfc9380_svdw.

(** SSWU through the 3-isogeny, onto secp256k1 *)
Theorem C58_secp256k1 : forall m z s u, get_isogeny_secp256k1 = Ret m -> valid (modulus (WCurve.c_f (iso_e0 m))) z ->
  valid (modulus (WCurve.c_f (iso_e0 m))) u -> sswuab0_new (iso_e1 m) z m = Ret s ->
  SECP256K1 = Ret (iso_e1 m) /\ w_lands (iso_e1 m) (sswuab0_map s u).
Proof. exact c58_secp256k1. Qed.
Print Assumptions C58_secp256k1.

(** SSWU through the 11-isogeny, onto BLS12-381 G1: it lands exactly when the SSWU point is outside the kernel *)
Theorem C58_bls12381g1 : forall m z s u, get_isogeny_bls12381g1 = Ret m -> valid (modulus (WCurve.c_f (iso_e0 m))) z ->
  valid (modulus (WCurve.c_f (iso_e0 m))) u -> sswuab0_new (iso_e1 m) z m = Ret s ->
  BLS12381G1 = Ret (iso_e1 m)
  /\ exists x y, Verif.Spec.Maps.sswu_point (modulus (WCurve.c_f (iso_e0 m))) (val (WCurve.c_a (iso_e0 m))) (val (WCurve.c_b (iso_e0 m))) (val z) (val u) x y
    /\ (w_lands (iso_e1 m) (sswuab0_map s u) <-> ~ In x kernel11)
    /\ (In x kernel11 -> sswuab0_map s u = Panic "not valid point").
Proof. exact c58_bls12381g1. Qed.
Print Assumptions C58_bls12381g1.

Theorem C58_montgomery : Forall m_hashes [CURVE25519; CURVE448].
Proof. exact c58_montgomery. Qed.
Print Assumptions C58_montgomery.

(** Elligator 2 on edwards25519, for every u *)
Theorem C58_edwards25519 : exists m, edwards25519_to_curve25519 = Ret m /\ EDWARDS25519 = Ret (ed_e0 m) /\
  forall z u, let p := modulus (ECurve.c_f (ed_e0 m)) in valid p z -> valid p u -> ~ square_mod p (val z) ->
  exists M, ed_ell2_new (ed_e0 m) z (Some (R25519 m)) = Ret M /\ e_lands (ed_e0 m) (ed_ell2_map M u).
Proof. exact c58_edwards25519. Qed.
Print Assumptions C58_edwards25519.

(** Elligator 2 on edwards448, exactly for the u other than those for which it returns (0, 0, 0, 0) *)
Theorem C58_edwards448 : exists m, edwards448_to_curve448 = Ret m /\ EDWARDS448 = Ret (e4_e0 m) /\
  forall z u, let p := modulus (ECurve.c_f (e4_e0 m)) in valid p z -> valid p u -> ~ square_mod p (val z) ->
  exists M, ed_ell2_new (e4_e0 m) z (Some (R448 m)) = Ret M
  /\ (e_lands (e4_e0 m) (ed_ell2_map M u) <-> ~ (p | val u) /\ ~ (p | 1 + val z * (val u * val u))).
Proof. exact c58_edwards448. Qed.
Print Assumptions C58_edwards448.

(** the parameters of RFC 9380 for Elligator 2 and for the isogenies: 2, -1, -11 and 11 *)
Example C58_ex : (exists e m, CURVE25519 = Ret e /\ from_int (m_get_field e) 2 = Ret (mkFpElt 2 (m_get_field e)) /\ ell2_new e (mkFpElt 2 (m_get_field e)) = Ret m
    /\ forall u, valid (modulus (m_get_field e)) u -> m_lands e (ell2_map m u))
  /\ (exists e z m, CURVE448 = Ret e /\ from_int (m_get_field e) (-1) = Ret z /\ ell2_new e z = Ret m
    /\ forall u, valid (modulus (m_get_field e)) u -> m_lands e (ell2_map m u))
  /\ (exists m s, get_isogeny_secp256k1 = Ret m /\ sswuab0_new (iso_e1 m) (mkFpElt (Cert_Isog.p_secp - 11) (WCurve.c_f (iso_e0 m))) m = Ret s
    /\ forall u, valid (modulus (WCurve.c_f (iso_e0 m))) u -> w_lands (iso_e1 m) (sswuab0_map s u))
  /\ (exists m s, get_isogeny_bls12381g1 = Ret m /\ sswuab0_new (iso_e1 m) (mkFpElt 11 (WCurve.c_f (iso_e0 m))) m = Ret s).
Proof. exact c58_ex. Qed.
