(** C63 for the shipped curves: over 2^255 - 19 Elligator 2 sends two elements to one point exactly when they are
    equal or opposite; simplified SWU followed by the isogenies onto secp256k1 and BLS12-381 G1. *)

From Coq Require Import ZArith Znumtheory Lia String Bool List.
From Verif.Spec Require Import Arith Curve Elements Morphisms Counting.
From Verif.Spec Require Instances Shipped.
From Verif.Spec Require EPoints MPoints.
From Verif.Model Require Import Out PrimeField RationalMaps Maps.
From Verif.Model Require Instances.
From Verif.Model Require MCurve ECurve.
From Verif.Spec Require Import Isogeny.
From Verif.Spec Require WPoints.
From Verif.Model Require WCurve.
From Verif.Proofs Require WeierProps MontProps MapsProps InstProps HashProps RatProps EdEllProps IsogProps Cert_Isog Cert_Ell.
From Verif.Math Require Prime_p25519.
From Verif.Proofs Require Import IsoHomProps.
From Verif.Math Require Import Fld Zp Fibre.
From Verif.Proofs Require Import CurveP.
From Verif.Math Require Import ECGroup.
From Verif.Proofs Require Import FibreProps.
Import ListNotations.
Import Spec.Instances Model.Instances.
Open Scope Z_scope.
From Verif.Proofs Require Import FibreInstProps.

Theorem C63_curve25519 : exists e, CURVE25519 = Ret e /\
  forall z, let p := modulus (MCurve.c_f e) in valid p z -> ~ square_mod p (val z) ->
  exists m, ell2_new e z = Ret m /\
  forall u v, valid p u -> valid p v ->
  ((exists A, sent p (ell2_map m) (MPoints.mpoint e) A u /\ sent p (ell2_map m) (MPoints.mpoint e) A v) <-> v = u \/ neg u = Ret v).
Proof. exact c63_curve25519. Qed.
Print Assumptions C63_curve25519.

(** the same on edwards25519, through the birational map *)
Theorem C63_edwards25519 : exists m, edwards25519_to_curve25519 = Ret m /\ EDWARDS25519 = Ret (ed_e0 m) /\
  forall z, let p := modulus (ECurve.c_f (ed_e0 m)) in valid p z -> ~ square_mod p (val z) ->
  exists M, ed_ell2_new (ed_e0 m) z (Some (R25519 m)) = Ret M /\
  forall u v, valid p u -> valid p v ->
  ((exists A, sent p (ed_ell2_map M) (EPoints.epoint (ed_e0 m)) A u /\ sent p (ed_ell2_map M) (EPoints.epoint (ed_e0 m)) A v)
   <-> v = u \/ neg u = Ret v).
Proof. exact c63_edwards25519. Qed.
Print Assumptions C63_edwards25519.

(** the 3-isogeny onto secp256k1 is injective, and the counts are those of simplified SWU *)
Theorem C63_secp256k1 : forall m z s, get_isogeny_secp256k1 = Ret m -> valid (modulus (WCurve.c_f (iso_e0 m))) z -> sswuab0_new (iso_e1 m) z m = Ret s ->
  let p := modulus (WCurve.c_f (iso_e0 m)) in
  SECP256K1 = Ret (iso_e1 m)
  /\ (forall A, at_most 7 (sent p (sswuab0_map s) (WPoints.wpoint (iso_e1 m)) A))
  /\ (forall A, at_most 4 (fun u => sent p (sswuab0_map s) (WPoints.wpoint (iso_e1 m)) A u /\ ~ degenerate p (val z) (val u)))
  /\ at_least (Z.to_nat (p / 4)) (fun A => exists u, sent p (sswuab0_map s) (WPoints.wpoint (iso_e1 m)) A u).
Proof. exact c63_secp256k1. Qed.
Print Assumptions C63_secp256k1.

(** the counts of simplified SWU, times the eleven points of a fibre of the isogeny *)
Theorem C63_bls12381g1 : forall m z s, get_isogeny_bls12381g1 = Ret m -> valid (modulus (WCurve.c_f (iso_e0 m))) z -> sswuab0_new (iso_e1 m) z m = Ret s ->
  let p := modulus (WCurve.c_f (iso_e0 m)) in
  BLS12381G1 = Ret (iso_e1 m)
  /\ (forall A, at_most 77 (sent p (sswuab0_map s) (WPoints.wpoint (iso_e1 m)) A))
  /\ (forall A, at_most 44 (fun u => sent p (sswuab0_map s) (WPoints.wpoint (iso_e1 m)) A u /\ ~ degenerate p (val z) (val u)))
  /\ at_least (Z.to_nat ((p / 4 - 10) / 11)) (fun A => exists u, sent p (sswuab0_map s) (WPoints.wpoint (iso_e1 m)) A u).
Proof. exact c63_bls12381g1. Qed.
Print Assumptions C63_bls12381g1.

(** z = 2 on the two curves over 2^255 - 19, and the parameters of RFC 9380 for the isogenies, meet the hypotheses *)
Example C63_shipped_ex : (exists e z m, CURVE25519 = Ret e /\ valid (modulus (MCurve.c_f e)) z /\ ~ square_mod (modulus (MCurve.c_f e)) (val z) /\ ell2_new e z = Ret m)
  /\ (exists m s, get_isogeny_secp256k1 = Ret m /\ sswuab0_new (iso_e1 m) (mkFpElt (Cert_Isog.p_secp - 11) (WCurve.c_f (iso_e0 m))) m = Ret s)
  /\ (exists m s, get_isogeny_bls12381g1 = Ret m /\ sswuab0_new (iso_e1 m) (mkFpElt 11 (WCurve.c_f (iso_e0 m))) m = Ret s).
Proof. exact c63_shipped_ex. Qed.
