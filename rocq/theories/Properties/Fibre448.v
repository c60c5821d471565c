(** C63 for curve448 and edwards448: how many elements Elligator 2 followed by the 4-isogeny sends to one point. *)

From Coq Require Import ZArith Znumtheory Lia String Bool List.
From Verif.Spec Require Import Arith Curve Elements Morphisms Counting.
From Verif.Spec Require Instances.
From Verif.Spec Require EPoints MPoints.
From Verif.Model Require Import Out PrimeField RationalMaps Maps.
From Verif.Model Require Instances.
From Verif.Model Require MCurve ECurve.
From Verif.Proofs Require MontProps EdwProps EdwP RatP MapsProps InstProps HashProps EdEllProps Iso4P Rat4Props SmallP.
From Verif.Math Require MontAdd.
From Verif.Math Require Import Fld Zp Fibre Iso4 Iso4Dual.
From Verif.Proofs Require Import CurveP.
From Verif.Math Require Import Edwards ECGroup.
From Verif.Proofs Require Import FibreProps FibreInstProps.
Import EPoints(edw, epoint, esum, eon).
Import MPoints(mont, mpoint, msum, mon).
Import ListNotations.
Import Spec.Instances Model.Instances.
Open Scope Z_scope.
From Verif.Proofs Require Import Fibre448Props.

(** no point of the Edwards curve is the image of more than four points of the Montgomery curve *)
Theorem C63_dual_fibre : forall m E, iso4 m -> at_most 4 (fun M => mon (e4_e1 m) M /\ dmap m M E).
Proof. exact c63_dual_fibre. Qed.
Print Assumptions C63_dual_fibre.

(** Elligator 2 followed by the 4-isogeny: at most eight elements other than 0 go to one point, and so at least
    (p + 3)/8 points are reached *)
Theorem C63_iso4 : forall m z M, let p := modulus (ECurve.c_f (e4_e0 m)) in
  iso4 m -> sqrt_modulus p -> valid p z -> ~ square_mod p (val z) -> ed_ell2_new (e4_e0 m) z (Some (R448 m)) = Ret M ->
  (forall E, at_most 8 (fun u => sent p (ed_ell2_map M) (epoint (e4_e0 m)) E u /\ val u <> 0))
  /\ (forall E, at_most 9 (sent p (ed_ell2_map M) (epoint (e4_e0 m)) E))
  /\ at_least (Z.to_nat ((p + 3) / 8)) (fun E => exists u, sent p (ed_ell2_map M) (epoint (e4_e0 m)) E u).
Proof. exact c63_iso4. Qed.
Print Assumptions C63_iso4.

(** the shipped curves; on curve448 two elements share an image exactly when their squares agree or both are degenerate *)
Theorem C63_curve448 : exists e, CURVE448 = Ret e /\
  forall z, let p := modulus (MCurve.c_f e) in valid p z -> ~ square_mod p (val z) ->
  exists m, ell2_new e z = Ret m /\
  forall u v, valid p u -> valid p v ->
  ((exists A, sent p (ell2_map m) (mpoint e) A u /\ sent p (ell2_map m) (mpoint e) A v)
   <-> (p | val u * val u - val v * val v) \/ (degenerate p (val z) (val u) /\ degenerate p (val z) (val v))).
Proof. exact c63_curve448. Qed.
Print Assumptions C63_curve448.

(** on edwards448 no point has more than eight preimages *)
Theorem C63_edwards448 : exists m, edwards448_to_curve448 = Ret m /\ EDWARDS448 = Ret (e4_e0 m) /\
  forall z, let p := modulus (ECurve.c_f (e4_e0 m)) in valid p z -> ~ square_mod p (val z) ->
  exists M, ed_ell2_new (e4_e0 m) z (Some (R448 m)) = Ret M
  /\ (forall E, at_most 8 (sent p (ed_ell2_map M) (epoint (e4_e0 m)) E))
  /\ at_least (Z.to_nat ((p + 3) / 8)) (fun E => exists u, sent p (ed_ell2_map M) (epoint (e4_e0 m)) E u).
Proof. exact c63_edwards448. Qed.
Print Assumptions C63_edwards448.

Example C63_iso4_ex : iso4 I43 /\ sqrt_modulus 43 /\ exists M, ed_ell2_new (e4_e0 I43) (n43 2) (Some (R448 I43)) = Ret M
  /\ forall u, In u [4; 7; 11; 20; 23; 32; 36; 39] -> sent 43 (ed_ell2_map M) (epoint (e4_e0 I43)) (41, 29) (n43 u).
Proof. exact c63_iso4_ex. Qed.
