(** C63: how many field elements each map sends to one point, and which ones. *)

From Coq Require Import ZArith Znumtheory Lia String Bool List.
From Verif.Math Require Import Fld Zp Residue MapAlg Fibre.
From Verif.Spec Require Import Arith Curve Maps Elements Morphisms Counting.
From Verif.Spec Require WPoints MPoints.
From Verif.Model Require Import Out BigInt PrimeField Maps.
From Verif.Model Require WCurve MCurve.
From Verif.Proofs Require Import FieldP FieldProps CurveP MapsP MapsProps SmallP.
From Verif.Proofs Require WeierP WeierProps.
Import WeierProps(coord_K).
Import ListNotations.
Open Scope Z_scope.
From Verif.Proofs Require Import FibreProps.

Theorem C63_sswu : forall e z m x y, wfield e -> valid (modulus (WCurve.c_f e)) z -> sswu_new e z = Ret m ->
  at_most 4 (fun u => sent (modulus (WCurve.c_f e)) (sswu_map m) (WPoints.wpoint e) (Affine x y) u
                      /\ ~ degenerate (modulus (WCurve.c_f e)) (val z) (val u)).
Proof. exact c63_sswu. Qed.
Print Assumptions C63_sswu.

(** the elements left out there: at most three, and they all go to the two points with x = b/(z a) *)
Theorem C63_sswu_degenerate : forall e z m, wfield e -> valid (modulus (WCurve.c_f e)) z -> sswu_new e z = Ret m ->
  at_most 3 (fun u => valid (modulus (WCurve.c_f e)) u /\ degenerate (modulus (WCurve.c_f e)) (val z) (val u))
  /\ forall u x y, degenerate (modulus (WCurve.c_f e)) (val z) (val u) ->
       sent (modulus (WCurve.c_f e)) (sswu_map m) (WPoints.wpoint e) (Affine x y) u ->
       (modulus (WCurve.c_f e) | x * (val z * val (WCurve.c_a e)) - val (WCurve.c_b e)).
Proof. exact c63_sswu_degenerate. Qed.
Print Assumptions C63_sswu_degenerate.

(** so no point has more than seven preimages, and a point with another abscissa no more than four *)
Theorem C63_sswu_all : forall e z m x y, wfield e -> valid (modulus (WCurve.c_f e)) z -> sswu_new e z = Ret m ->
  at_most 7 (sent (modulus (WCurve.c_f e)) (sswu_map m) (WPoints.wpoint e) (Affine x y))
  /\ (~ (modulus (WCurve.c_f e) | x * (val z * val (WCurve.c_a e)) - val (WCurve.c_b e)) ->
      at_most 4 (sent (modulus (WCurve.c_f e)) (sswu_map m) (WPoints.wpoint e) (Affine x y))).
Proof. exact c63_sswu_all. Qed.
Print Assumptions C63_sswu_all.

Theorem C63_sswu_image : forall e z m, wfield e -> valid (modulus (WCurve.c_f e)) z -> sswu_new e z = Ret m ->
  at_least (Z.to_nat (modulus (WCurve.c_f e) / 4))
    (fun A => exists u, sent (modulus (WCurve.c_f e)) (sswu_map m) (WPoints.wpoint e) A u).
Proof. exact c63_sswu_image. Qed.
Print Assumptions C63_sswu_image.

Theorem C63_svdw : forall e z m x y, wfield e -> valid (modulus (WCurve.c_f e)) z -> svdw_new e z = Ret m ->
  at_most 4 (fun u => sent (modulus (WCurve.c_f e)) (svdw_map m) (WPoints.wpoint e) (Affine x y) u /\ val u <> 0)
  /\ at_most 5 (sent (modulus (WCurve.c_f e)) (svdw_map m) (WPoints.wpoint e) (Affine x y))
  /\ (~ (modulus (WCurve.c_f e) | 2 * x + val z) ->
      at_most 4 (sent (modulus (WCurve.c_f e)) (svdw_map m) (WPoints.wpoint e) (Affine x y))).
Proof. exact c63_svdw. Qed.
Print Assumptions C63_svdw.

Theorem C63_svdw_image : forall e z m, wfield e -> valid (modulus (WCurve.c_f e)) z -> svdw_new e z = Ret m ->
  at_least (Z.to_nat ((modulus (WCurve.c_f e) + 2) / 4))
    (fun A => exists u, sent (modulus (WCurve.c_f e)) (svdw_map m) (WPoints.wpoint e) A u).
Proof. exact c63_svdw_image. Qed.
Print Assumptions C63_svdw_image.

(** u and v go to the same point exactly when v = u, v = -u, or both are degenerate *)
Theorem C63_ell2_same : forall e z m u v x y, mfield e -> valid (modulus (MCurve.c_f e)) z ->
  (modulus (MCurve.c_f e) | val (MCurve.c_b e) * val (MCurve.c_b e) - 1) -> ~ square_mod (modulus (MCurve.c_f e)) (val z) -> ell2_new e z = Ret m ->
  sent (modulus (MCurve.c_f e)) (ell2_map m) (MPoints.mpoint e) (Affine x y) u -> valid (modulus (MCurve.c_f e)) v ->
  (sent (modulus (MCurve.c_f e)) (ell2_map m) (MPoints.mpoint e) (Affine x y) v <->
   (modulus (MCurve.c_f e) | val u * val u - val v * val v)
   \/ (degenerate (modulus (MCurve.c_f e)) (val z) (val u) /\ degenerate (modulus (MCurve.c_f e)) (val z) (val v))).
Proof. exact c63_ell2_same. Qed.
Print Assumptions C63_ell2_same.

(** when -1 is a square the only degenerate element is 0: Elligator 2 is then two-to-one *)
Theorem C63_ell2_two_to_one : forall e z m u v x y, mfield e -> valid (modulus (MCurve.c_f e)) z ->
  (modulus (MCurve.c_f e) | val (MCurve.c_b e) * val (MCurve.c_b e) - 1) -> ~ square_mod (modulus (MCurve.c_f e)) (val z) -> ell2_new e z = Ret m ->
  modulus (MCurve.c_f e) mod 4 = 1 ->
  sent (modulus (MCurve.c_f e)) (ell2_map m) (MPoints.mpoint e) (Affine x y) u -> valid (modulus (MCurve.c_f e)) v ->
  (sent (modulus (MCurve.c_f e)) (ell2_map m) (MPoints.mpoint e) (Affine x y) v <-> v = u \/ neg u = Ret v).
Proof. exact c63_ell2_two_to_one. Qed.
Print Assumptions C63_ell2_two_to_one.

(** which points are reached *)
Theorem C63_ell2_image : forall e z m x y, mfield e -> valid (modulus (MCurve.c_f e)) z ->
  (modulus (MCurve.c_f e) | val (MCurve.c_b e) * val (MCurve.c_b e) - 1) -> ~ square_mod (modulus (MCurve.c_f e)) (val z) -> ell2_new e z = Ret m ->
  on_cubic (modulus (MCurve.c_f e)) (val (MCurve.c_b e)) (val (MCurve.c_a e)) 1 0 (Affine x y) ->
  ((exists u, sent (modulus (MCurve.c_f e)) (ell2_map m) (MPoints.mpoint e) (Affine x y) u) <->
   square_mod (modulus (MCurve.c_f e)) (- (val z * (x * (x + val (MCurve.c_a e)))))
   /\ (x = 0 -> ~ square_mod (modulus (MCurve.c_f e)) (- (val (MCurve.c_a e) * val (MCurve.c_b e))))
   /\ ((modulus (MCurve.c_f e) | x + val (MCurve.c_a e)) -> forall w, coord (modulus (MCurve.c_f e)) w ->
         (modulus (MCurve.c_f e) | y - val (MCurve.c_b e) * w) -> w = 0 \/ Z.even w = false)).
Proof. exact c63_ell2_image. Qed.
Print Assumptions C63_ell2_image.

(** no point has more than three preimages, of which at most two are not 0; half of the field is the least number of points reached *)
Theorem C63_ell2 : forall e z m x y, mfield e -> valid (modulus (MCurve.c_f e)) z ->
  (modulus (MCurve.c_f e) | val (MCurve.c_b e) * val (MCurve.c_b e) - 1) -> ~ square_mod (modulus (MCurve.c_f e)) (val z) -> ell2_new e z = Ret m ->
  at_most 2 (fun u => sent (modulus (MCurve.c_f e)) (ell2_map m) (MPoints.mpoint e) (Affine x y) u /\ val u <> 0)
  /\ at_most 3 (sent (modulus (MCurve.c_f e)) (ell2_map m) (MPoints.mpoint e) (Affine x y)).
Proof. exact c63_ell2. Qed.
Print Assumptions C63_ell2.

Theorem C63_ell2_size : forall e z m, mfield e -> valid (modulus (MCurve.c_f e)) z ->
  (modulus (MCurve.c_f e) | val (MCurve.c_b e) * val (MCurve.c_b e) - 1) -> ~ square_mod (modulus (MCurve.c_f e)) (val z) -> ell2_new e z = Ret m ->
  at_least (Z.to_nat ((modulus (MCurve.c_f e) - 1) / 2))
    (fun A => exists u, sent (modulus (MCurve.c_f e)) (ell2_map m) (MPoints.mpoint e) A u).
Proof. exact c63_ell2_size. Qed.
Print Assumptions C63_ell2_size.

(** seven elements, three of them degenerate, sent to (5, 0); four to (8, 9), none degenerate *)
Example C63_sswu_ex : wfield W11' /\ wfield W11
  /\ (exists m, sswu_new W11' (n11 7) = Ret m
      /\ Forall (fun u => sswu_map m (n11 u) = Ret (WCurve.mkPoint W11' (WCurve.mkProy (n11 5) (n11 0) (n11 1)))) [0; 3; 4; 5; 6; 7; 8]
      /\ Forall (fun u => degenerate 11 7 u) [0; 5; 6])
  /\ (exists m, sswu_new W11 (n11 2) = Ret m /\ Forall (fun u => sswu_map m (n11 u) = Ret (w11 8 9)) [1; 3; 5; 9]).
Proof. exact c63_sswu_ex. Qed.

(** five elements sent to (12, 0), where 2 x = - z; four to (1, 11) *)
Example C63_svdw_ex : wfield (V13 1) /\ wfield (V13 3)
  /\ (exists m, svdw_new (V13 1) (n13 2) = Ret m
      /\ Forall (fun u => svdw_map m (n13 u) = Ret (WCurve.mkPoint (V13 1) (WCurve.mkProy (n13 12) (n13 0) (n13 1)))) [0; 4; 6; 7; 9])
  /\ (exists m, svdw_new (V13 3) (n13 1) = Ret m
      /\ Forall (fun u => svdw_map m (n13 u) = Ret (WCurve.mkPoint (V13 3) (WCurve.mkProy (n13 1) (n13 11) (n13 1)))) [1; 3; 7; 9]).
Proof. exact c63_svdw_ex. Qed.

(** three elements, all degenerate, sent to (0, 0); the others go in pairs *)
Example C63_ell2_ex : mfield (M11 1) /\ ~ square_mod 11 2
  /\ exists m, ell2_new (M11 1) (n11 2) = Ret m
  /\ Forall (fun u => ell2_map m (n11 u) = Ret (m11 1 0 0)) [0; 4; 7]
  /\ Forall (fun u => ell2_map m (n11 u) = Ret (m11 1 4 4)) [1; 10]
  /\ Forall (fun u => ell2_map m (n11 u) = Ret (m11 1 8 9)) [2; 9].
Proof. exact c63_ell2_ex. Qed.
