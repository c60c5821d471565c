(** Properties C40 to C42: the maps from the field to the curves. *)

From Coq Require Import ZArith Znumtheory Lia String Bool List.
From Verif.Math Require Import Fld Zp Residue MapAlg.
From Verif.Spec Require Import Arith Curve Maps.
From Verif.Model Require Import Out BigInt PrimeField Maps.
From Verif.Model Require WCurve MCurve.
From Verif.Proofs Require Import FieldP FieldProps CurveP SmallP MapsP.
From Verif.Proofs Require WeierP WeierProps MontProps.
From Verif.Spec Require Export Morphisms.
Import ListNotations.
Open Scope Z_scope.
Open Scope string_scope.
From Verif.Proofs Require Import MapsProps.

(** SSWU::new accepts exactly the parameters of RFC 9380 *)
Theorem C40_new : forall e z, wfield e -> valid (modulus (WCurve.c_f e)) z ->
  (sswu_params (modulus (WCurve.c_f e)) (val (WCurve.c_a e)) (val (WCurve.c_b e)) (val z) -> exists m, sswu_new e z = Ret m)
  /\ (~ sswu_params (modulus (WCurve.c_f e)) (val (WCurve.c_a e)) (val (WCurve.c_b e)) (val z) ->
      sswu_new e z = Panic "wrong input parameters").
Proof. exact c40_new. Qed.
Print Assumptions C40_new.

(** the map of accepted parameters returns, for every u, the point of the specification *)
Theorem C40_map : forall e z u m, wfield e -> valid (modulus (WCurve.c_f e)) z -> valid (modulus (WCurve.c_f e)) u ->
  sswu_new e z = Ret m ->
  exists P, sswu_map m u = Ret P /\ forall x y, WPoints.wpoint e P (Affine x y) <->
    sswu_point (modulus (WCurve.c_f e)) (val (WCurve.c_a e)) (val (WCurve.c_b e)) (val z) (val u) x y.
Proof. exact c40_map. Qed.
Print Assumptions C40_map.

(** in particular it never panics, its result is an affine point of the curve, and the sign of y is that of u *)
Theorem C40_on_curve : forall e z u m, wfield e -> valid (modulus (WCurve.c_f e)) z -> valid (modulus (WCurve.c_f e)) u ->
  sswu_new e z = Ret m ->
  exists P x y, sswu_map m u = Ret P /\ WPoints.wpoint e P (Affine x y)
    /\ on_cubic (modulus (WCurve.c_f e)) 1 0 (val (WCurve.c_a e)) (val (WCurve.c_b e)) (Affine x y)
    /\ sign_follows (val u) y.
Proof. exact c40_on_curve. Qed.
Print Assumptions C40_on_curve.

(** opposite inputs have opposite images *)
Theorem C40_odd : forall e z u m P x y, wfield e -> valid (modulus (WCurve.c_f e)) z -> valid (modulus (WCurve.c_f e)) u ->
  sswu_new e z = Ret m -> val u <> 0 -> sswu_map m u = Ret P -> WPoints.wpoint e P (Affine x y) ->
  exists v Q, neg u = Ret v /\ sswu_map m v = Ret Q
    /\ WPoints.wpoint e Q (negative (modulus (WCurve.c_f e)) (Affine x y)).
Proof. exact c40_odd. Qed.
Print Assumptions C40_odd.

(** SVDW::new accepts exactly the parameters of RFC 9380 *)
Theorem C41_new : forall e z, wfield e -> valid (modulus (WCurve.c_f e)) z ->
  (svdw_params (modulus (WCurve.c_f e)) (val (WCurve.c_a e)) (val (WCurve.c_b e)) (val z) -> exists m, svdw_new e z = Ret m)
  /\ (~ svdw_params (modulus (WCurve.c_f e)) (val (WCurve.c_a e)) (val (WCurve.c_b e)) (val z) ->
      svdw_new e z = Panic "wrong input parameters").
Proof. exact c41_new. Qed.
Print Assumptions C41_new.

(** the map of accepted parameters returns, for every u, the point of the specification *)
Theorem C41_map : forall e z u m, wfield e -> valid (modulus (WCurve.c_f e)) z -> valid (modulus (WCurve.c_f e)) u ->
  svdw_new e z = Ret m ->
  exists P, svdw_map m u = Ret P /\ forall x y, WPoints.wpoint e P (Affine x y) <->
    svdw_point (modulus (WCurve.c_f e)) (val (WCurve.c_a e)) (val (WCurve.c_b e)) (val z) (val u) x y.
Proof. exact c41_map. Qed.
Print Assumptions C41_map.

(** in particular it never panics, its result is an affine point of the curve, and the sign of y is that of u *)
Theorem C41_on_curve : forall e z u m, wfield e -> valid (modulus (WCurve.c_f e)) z -> valid (modulus (WCurve.c_f e)) u ->
  svdw_new e z = Ret m ->
  exists P x y, svdw_map m u = Ret P /\ WPoints.wpoint e P (Affine x y)
    /\ on_cubic (modulus (WCurve.c_f e)) 1 0 (val (WCurve.c_a e)) (val (WCurve.c_b e)) (Affine x y)
    /\ sign_follows (val u) y.
Proof. exact c41_on_curve. Qed.
Print Assumptions C41_on_curve.

(** Ell2::new only checks that the coefficients are not zero *)
Theorem C42_new : forall e z, mfield e -> valid (modulus (MCurve.c_f e)) z ->
  (val (MCurve.c_a e) <> 0 -> val (MCurve.c_b e) <> 0 -> exists m, ell2_new e z = Ret m)
  /\ (val (MCurve.c_a e) = 0 \/ val (MCurve.c_b e) = 0 -> ell2_new e z = Panic "wrong input parameters").
Proof. exact c42_new. Qed.
Print Assumptions C42_new.

(** when b = 1 or b = -1 the map returns the point of the specification whenever there is one, and panics
    otherwise; there is one for all u when z is not a square *)
Theorem C42_map : forall e z u m, mfield e -> valid (modulus (MCurve.c_f e)) z -> valid (modulus (MCurve.c_f e)) u ->
  (modulus (MCurve.c_f e) | val (MCurve.c_b e) * val (MCurve.c_b e) - 1) -> ell2_new e z = Ret m ->
  (forall x0 y0, ell2_point (modulus (MCurve.c_f e)) (val (MCurve.c_a e)) (val (MCurve.c_b e)) (val z) (val u) x0 y0 ->
     exists P, ell2_map m u = Ret P /\ forall x y, MPoints.mpoint e P (Affine x y) <->
       ell2_point (modulus (MCurve.c_f e)) (val (MCurve.c_a e)) (val (MCurve.c_b e)) (val z) (val u) x y)
  /\ ((forall x y, ~ ell2_point (modulus (MCurve.c_f e)) (val (MCurve.c_a e)) (val (MCurve.c_b e)) (val z) (val u) x y) ->
      ell2_map m u = Panic "not valid point").
Proof. exact c42_map. Qed.
Print Assumptions C42_map.

Theorem C42_total : forall e z u m, mfield e -> valid (modulus (MCurve.c_f e)) z -> valid (modulus (MCurve.c_f e)) u ->
  (modulus (MCurve.c_f e) | val (MCurve.c_b e) * val (MCurve.c_b e) - 1) -> ell2_new e z = Ret m ->
  ~ square_mod (modulus (MCurve.c_f e)) (val z) ->
  exists P x y, ell2_map m u = Ret P /\ MPoints.mpoint e P (Affine x y)
    /\ ell2_point (modulus (MCurve.c_f e)) (val (MCurve.c_a e)) (val (MCurve.c_b e)) (val z) (val u) x y.
Proof. exact c42_total. Qed.
Print Assumptions C42_total.

(** for the other values of b, accepted by Ell2::new, the map never returns anything else than (0,0) *)
Theorem C42_other_b : forall e z u m, mfield e -> valid (modulus (MCurve.c_f e)) z -> valid (modulus (MCurve.c_f e)) u ->
  ~ (modulus (MCurve.c_f e) | val (MCurve.c_b e) * val (MCurve.c_b e) - 1) -> ell2_new e z = Ret m ->
  ~ square_mod (modulus (MCurve.c_f e)) (val z) ->
  ell2_map m u = Panic "not valid point"
  \/ exists P, ell2_map m u = Ret P /\ forall A, MPoints.mpoint e P A <-> A = Affine 0 0.
Proof. exact c42_other_b. Qed.
Print Assumptions C42_other_b.

(** opposite inputs have the same image *)
Theorem C42_even : forall e z u m, mfield e -> valid (modulus (MCurve.c_f e)) z -> valid (modulus (MCurve.c_f e)) u ->
  ell2_new e z = Ret m -> exists v, neg u = Ret v /\ ell2_map m v = ell2_map m u.
Proof. exact c42_even. Qed.
Print Assumptions C42_even.

(** ordinary inputs with either candidate, and the exceptional inputs u = 0 and z u^2 = -1 *)
Example C40_ex : wfield W11 /\ exists m, sswu_new W11 (n11 2) = Ret m
  /\ sswu_map m (n11 0) = Ret (w11 6 6) /\ sswu_map m (n11 4) = Ret (w11 6 6) /\ sswu_map m (n11 7) = Ret (w11 6 5)
  /\ sswu_map m (n11 1) = Ret (w11 8 9) /\ sswu_map m (n11 2) = Ret (w11 8 2)
  /\ sswu_new W11 (n11 10) = Panic "wrong input parameters".
Proof. exact c40_ex. Qed.

Example C41_ex : wfield V11 /\ exists m, svdw_new V11 (n11 1) = Ret m
  /\ svdw_map m (n11 0) = Ret (v11 5 4) /\ svdw_map m (n11 1) = Ret (v11 0 1) /\ svdw_map m (n11 2) = Ret (v11 9 2)
  /\ svdw_map m (n11 5) = Ret (v11 10 0) /\ svdw_map m (n11 6) = Ret (v11 0 10)
  /\ svdw_new V11 (n11 0) = Panic "wrong input parameters".
Proof. exact c41_ex. Qed.

Example C42_ex : mfield (M11 1) /\ mfield (M11 10) /\ ~ square_mod 11 2
  /\ (exists m, ell2_new (M11 1) (n11 2) = Ret m /\ ell2_map m (n11 0) = Ret (m11 1 0 0) /\ ell2_map m (n11 1) = Ret (m11 1 4 4)
      /\ ell2_map m (n11 2) = Ret (m11 1 8 9))
  /\ (exists m, ell2_new (M11 10) (n11 2) = Ret m /\ ell2_map m (n11 0) = Ret (m11 10 6 4)
      /\ ell2_map m (n11 1) = Ret (m11 10 2 6)).
Proof. exact c42_ex. Qed.

(** Ell2::new accepts a square z and any b <> 0, for which the map panics *)
Theorem C42_accepted_parameters_never_panic_refuted : exists e z u m, mfield e /\ valid (modulus (MCurve.c_f e)) z
  /\ valid (modulus (MCurve.c_f e)) u /\ val (MCurve.c_b e) = 1 /\ ell2_new e z = Ret m /\ ell2_map m u = Panic "not valid point".
Proof. exact c42_accepted_parameters_never_panic_refuted. Qed.
Print Assumptions C42_accepted_parameters_never_panic_refuted.

Theorem C42_all_b_refuted : exists e z u m, mfield e /\ valid (modulus (MCurve.c_f e)) z
  /\ valid (modulus (MCurve.c_f e)) u /\ ~ square_mod (modulus (MCurve.c_f e)) (val z)
  /\ ell2_new e z = Ret m /\ ell2_map m u = Panic "not valid point".
Proof. exact c42_all_b_refuted. Qed.
Print Assumptions C42_all_b_refuted.
