(** Elligator 2 on the Edwards curves: C51. *)

From Coq Require Import ZArith Znumtheory Lia String Ascii Bool List.
From Verif.Math Require Import Fld Zp Residue.
From Verif.Spec Require Import Arith Curve Instances RatMaps Maps.
From Verif.Model Require Import Out BigInt PrimeField Instances RationalMaps.
From Verif.Model Require WCurve MCurve ECurve Maps.
From Verif.Proofs Require Import FieldP FieldProps CurveP.
From Verif.Proofs Require MontProps EdwProps MapsProps InstP InstShip InstProps RatProps Rat4Props Cert_Ell.
From Verif.Math Require Prime_p25519 Prime_p448.
From Verif.Spec Require Export Morphisms.
Import EPoints(edw, epoint, esum, eon).
Import MPoints(mont, mpoint, msum, mon).
Import Morphisms(birat, bmap).
Import Morphisms(iso4, imap, dmap).
Import ListNotations.
Open Scope Z_scope.
From Verif.Proofs Require Import EdEllProps.

(** Ell2::new of the Edwards curves without a rational map is not implemented, and it refuses a map of another curve *)
Theorem C51_new : forall e z, ed_ell2_new e z None = Panic "not yet implemented"
  /\ (forall r, rat_domain r <> e -> ed_ell2_new e z (Some r) = Panic "Domain of rational map is incompatible with curve")
  /\ (forall r, rat_domain r = e -> mont (rat_codomain r) -> sqrt_modulus (modulus (MCurve.c_f (rat_codomain r))) ->
      valid (modulus (MCurve.c_f (rat_codomain r))) z ->
      (val (MCurve.c_a (rat_codomain r)) <> 0 -> exists m, ed_ell2_new e z (Some r) = Ret m)
      /\ (val (MCurve.c_a (rat_codomain r)) = 0 -> ed_ell2_new e z (Some r) = Panic "wrong input parameters")).
Proof. exact c51_new. Qed.
Print Assumptions C51_new.

(** over the birational map, it returns for every u the point corresponding to the Elligator 2 point of the Montgomery curve *)
Theorem C51_map_25519 : forall m z u M, let p := modulus (ECurve.c_f (ed_e0 m)) in
  birat m -> sqrt_modulus p -> valid p z -> valid p u -> ~ square_mod p (val z) ->
  ed_ell2_new (ed_e0 m) z (Some (R25519 m)) = Ret M ->
  exists P x y, ed_ell2_map M u = Ret P /\ ell2_image (ed_e1 m) (val z) (val u) x y
    /\ (exists E, epoint (ed_e0 m) P E)
    /\ forall E, epoint (ed_e0 m) P E <-> eon (ed_e0 m) E /\ bmap m E (Affine x y).
Proof. exact c51_map_25519. Qed.
Print Assumptions C51_map_25519.

(** over the 4-isogeny, it returns the image of the Elligator 2 point unless this point is (0, 0) *)
Theorem C51_map_448 : forall m z u M, let p := modulus (ECurve.c_f (e4_e0 m)) in
  iso4 m -> sqrt_modulus p -> valid p z -> valid p u -> ~ square_mod p (val z) ->
  ed_ell2_new (e4_e0 m) z (Some (R448 m)) = Ret M ->
  exists P x y, ed_ell2_map M u = Ret P /\ ell2_image (e4_e1 m) (val z) (val u) x y
    /\ ((x, y) <> (0, 0) -> (exists E, epoint (e4_e0 m) P E) /\ forall E, epoint (e4_e0 m) P E <-> dmap m (Affine x y) E)
    /\ ((x, y) = (0, 0) -> val (ECurve.px (ECurve.pc P)) = 0 /\ val (ECurve.py (ECurve.pc P)) = 0
        /\ val (ECurve.ptt (ECurve.pc P)) = 0 /\ val (ECurve.pz (ECurve.pc P)) = 0 /\ (forall E, ~ epoint (e4_e0 m) P E)).
Proof. exact c51_map_448. Qed.
Print Assumptions C51_map_448.

(** on edwards448 the result is a point of the curve exactly when u <> 0 and z u^2 <> -1, and otherwise it is (0, 0, 0, 0) *)
Theorem C51_edwards448_refuted : exists m, edwards448_to_curve448 = Ret m /\
  forall z u, let p := modulus (ECurve.c_f (e4_e0 m)) in valid p z -> valid p u -> ~ square_mod p (val z) ->
  exists M P, ed_ell2_new (e4_e0 m) z (Some (R448 m)) = Ret M /\ ed_ell2_map M u = Ret P
    /\ ((exists E, epoint (e4_e0 m) P E) <-> ~ ((p | val u) \/ (p | 1 + val z * (val u * val u))))
    /\ ((p | val u) \/ (p | 1 + val z * (val u * val u)) ->
        val (ECurve.px (ECurve.pc P)) = 0 /\ val (ECurve.py (ECurve.pc P)) = 0
        /\ val (ECurve.ptt (ECurve.pc P)) = 0 /\ val (ECurve.pz (ECurve.pc P)) = 0).
Proof. exact c51_edwards448_refuted. Qed.
Print Assumptions C51_edwards448_refuted.

(** on edwards25519 the result is always a point of the curve, and it is (0, -1) exactly for these inputs *)
Theorem C51_edwards25519 : exists m, edwards25519_to_curve25519 = Ret m /\
  forall z u, let p := modulus (ECurve.c_f (ed_e0 m)) in valid p z -> valid p u -> ~ square_mod p (val z) ->
  exists M P E, ed_ell2_new (ed_e0 m) z (Some (R25519 m)) = Ret M /\ ed_ell2_map M u = Ret P
    /\ (forall E', epoint (ed_e0 m) P E' <-> E' = E)
    /\ (exists x y, ell2_image (ed_e1 m) (val z) (val u) x y /\ bmap m E (Affine x y))
    /\ (E = (0, p - 1) <-> (p | val u) \/ (p | 1 + val z * (val u * val u))).
Proof. exact c51_edwards25519. Qed.
Print Assumptions C51_edwards25519.

Example C51_ex : (exists m M, let e := e4_e0 m in let p := modulus (ECurve.c_f e) in edwards448_to_curve448 = Ret m
    /\ ed_ell2_new e (mkFpElt (p - 1) (mkFp p)) (Some (R448 m)) = Ret M
    /\ (forall u, u = 0 \/ u = 1 \/ u = p - 1 -> exists P, ed_ell2_map M (mkFpElt u (mkFp p)) = Ret P /\ val (ECurve.pz (ECurve.pc P)) = 0)
    /\ (exists P E, ed_ell2_map M (mkFpElt 2 (mkFp p)) = Ret P /\ epoint e P E))
  /\ (exists m M P E, let e := ed_e0 m in let p := modulus (ECurve.c_f e) in edwards25519_to_curve25519 = Ret m
    /\ ed_ell2_new e (mkFpElt 2 (mkFp p)) (Some (R25519 m)) = Ret M
    /\ ed_ell2_map M (mkFpElt 1 (mkFp p)) = Ret P /\ epoint e P E /\ E <> (0, p - 1)).
Proof. exact c51_ex. Qed.

(** pushing the Edwards point back through the same rational map gives the Montgomery point it came from
    (edwards25519), or its quadruple (edwards448), whenever that point is not (0, 0) *)
Theorem C51_push_back : forall (m : EdEll2) u Q M, Maps.ell2_map (ee_map m) u = Ret Q ->
  mpoint (rat_codomain (ee_ratmap m)) Q M -> M <> Affine 0 0 ->
  (forall r, ee_ratmap m = R25519 r -> birat r ->
    exists P Q', ed_ell2_map m u = Ret P /\ rat_push (ee_ratmap m) P = Ret Q'
    /\ forall C, mpoint (rat_codomain (ee_ratmap m)) Q' C <-> C = M)
  /\ (forall r, ee_ratmap m = R448 r -> iso4 r ->
    exists P Q', ed_ell2_map m u = Ret P /\ rat_push (ee_ratmap m) P = Ret Q'
    /\ forall C, mpoint (rat_codomain (ee_ratmap m)) Q' C <-> multiple (msum (rat_codomain (ee_ratmap m))) Infinity M 4 C).
Proof. exact c51_push_back. Qed.
Print Assumptions C51_push_back.
