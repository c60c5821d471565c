(** The isogenies onto secp256k1 and BLS12-381 G1 respect the group law: C45, C46. *)

From Coq Require Import ZArith Znumtheory Lia String Ascii Bool List.
From Verif.Math Require Import Fld Zp Residue.
From Verif.Math Require IsogHom.
From Verif.Spec Require Import Arith Curve Isogeny.
From Verif.Spec Require Instances.
From Verif.Model Require Import Out BigInt PrimeField Scalar Instances RationalMaps.
From Verif.Model Require WCurve.
From Verif.Proofs Require Import FieldP FieldProps ScalarProps CurveP PolyL IsogP IsoHomP IsogProps.
From Verif.Proofs Require WeierP WeierProps InstShip InstProps Cert_Isog Cert_Line.
From Verif.Math Require Import ECGroup.
From Verif.Spec Require Export Morphisms.
Import WPoints(weier, wpoint, wsum, won, same).
Import ListNotations.
Open Scope Z_scope.
From Verif.Proofs Require Import IsoHomProps.

(** the isogeny onto secp256k1 is a map of curves: one image for every point, on secp256k1 *)
Theorem C45_map : forall m A, get_isogeny_secp256k1 = Ret m -> won (iso_e0 m) A ->
  exists A', maps m iso3_secp256k1 A A' /\ won (iso_e1 m) A' /\ (forall A'', maps m iso3_secp256k1 A A'' -> A'' = A') /\ (A' = Infinity <-> A = Infinity).
Proof. exact c45_map. Qed.
Print Assumptions C45_map.

(** it is a homomorphism *)
Theorem C45_homomorphism : forall m A B C A' B' C', get_isogeny_secp256k1 = Ret m ->
  won (iso_e0 m) A -> won (iso_e0 m) B -> wsum (iso_e0 m) A B C ->
  maps m iso3_secp256k1 A A' -> maps m iso3_secp256k1 B B' -> maps m iso3_secp256k1 C C' -> wsum (iso_e1 m) A' B' C'.
Proof. exact c45_homomorphism. Qed.
Print Assumptions C45_homomorphism.

Theorem C45_multiples : forall m A C n A' C', get_isogeny_secp256k1 = Ret m ->
  won (iso_e0 m) A -> multiple (wsum (iso_e0 m)) Infinity A n C ->
  maps m iso3_secp256k1 A A' -> maps m iso3_secp256k1 C C' -> multiple (wsum (iso_e1 m)) Infinity A' n C'.
Proof. exact c45_multiples. Qed.
Print Assumptions C45_multiples.

(** and injective: no two points have the same image *)
Theorem C45_injective : forall m A B A', get_isogeny_secp256k1 = Ret m -> won (iso_e0 m) A -> won (iso_e0 m) B ->
  maps m iso3_secp256k1 A A' -> maps m iso3_secp256k1 B A' -> A = B.
Proof. exact c45_injective. Qed.
Print Assumptions C45_injective.

(** the isogeny onto BLS12-381 G1: one image for every point, the identity exactly for the eleven points of the kernel *)
Theorem C46_map : forall m A, get_isogeny_bls12381g1 = Ret m -> won (iso_e0 m) A ->
  exists A', maps m iso11_bls12381g1 A A' /\ won (iso_e1 m) A' /\ (forall A'', maps m iso11_bls12381g1 A A'' -> A'' = A')
    /\ (A' = Infinity <-> A = Infinity \/ exists x y, A = Affine x y /\ In x kernel11).
Proof. exact c46_map. Qed.
Print Assumptions C46_map.

(** it is a homomorphism *)
Theorem C46_homomorphism : forall m A B C A' B' C', get_isogeny_bls12381g1 = Ret m ->
  won (iso_e0 m) A -> won (iso_e0 m) B -> wsum (iso_e0 m) A B C ->
  maps m iso11_bls12381g1 A A' -> maps m iso11_bls12381g1 B B' -> maps m iso11_bls12381g1 C C' -> wsum (iso_e1 m) A' B' C'.
Proof. exact c46_homomorphism. Qed.
Print Assumptions C46_homomorphism.

Theorem C46_multiples : forall m A C n A' C', get_isogeny_bls12381g1 = Ret m ->
  won (iso_e0 m) A -> multiple (wsum (iso_e0 m)) Infinity A n C ->
  maps m iso11_bls12381g1 A A' -> maps m iso11_bls12381g1 C C' -> multiple (wsum (iso_e1 m)) Infinity A' n C'.
Proof. exact c46_multiples. Qed.
Print Assumptions C46_multiples.

(** two points have the same image exactly when they differ by a point of the kernel *)
Theorem C46_fibres : forall m A B A' B', get_isogeny_bls12381g1 = Ret m -> won (iso_e0 m) A -> won (iso_e0 m) B ->
  maps m iso11_bls12381g1 A A' -> maps m iso11_bls12381g1 B B' ->
  (A' = B' <-> exists D, wsum (iso_e0 m) A (negative (modulus (WCurve.c_f (iso_e0 m))) B) D
                 /\ (D = Infinity \/ exists x y, D = Affine x y /\ In x kernel11)).
Proof. exact c46_fibres. Qed.
Print Assumptions C46_fibres.

(** on points of the model with z = 1: push adds up, as far as the code can tell *)
Theorem C45_push_sum : forall m P Q R T A B C, get_isogeny_secp256k1 = Ret m ->
  wpoint (iso_e0 m) P A -> wpoint (iso_e0 m) Q B -> wpoint (iso_e0 m) R C ->
  val (WCurve.pz (WCurve.pc P)) = 1 -> val (WCurve.pz (WCurve.pc Q)) = 1 -> val (WCurve.pz (WCurve.pc R)) = 1 ->
  WCurve.pt_add P Q = Ret T -> WCurve.pt_eqb T R = Ret true ->
  exists P' Q' R', iso_push m P = Ret P' /\ iso_push m Q = Ret Q' /\ iso_push m R = Ret R' /\ same (WCurve.pt_add P' Q') (Ret R').
Proof. exact c45_push_sum. Qed.
Print Assumptions C45_push_sum.

Theorem C45_push_opposite : forall m P Q T A B, get_isogeny_secp256k1 = Ret m ->
  wpoint (iso_e0 m) P A -> wpoint (iso_e0 m) Q B -> val (WCurve.pz (WCurve.pc P)) = 1 -> val (WCurve.pz (WCurve.pc Q)) = 1 ->
  WCurve.pt_add P Q = Ret T -> WCurve.pt_is_zero T = true ->
  exists P' Q' S, iso_push m P = Ret P' /\ iso_push m Q = Ret Q' /\ WCurve.pt_add P' Q' = Ret S /\ WCurve.pt_is_zero S = true.
Proof. exact c45_push_opposite. Qed.
Print Assumptions C45_push_opposite.

(** and commutes with scalar multiplication *)
Theorem C45_push_mul : forall oc m P R T A C k, get_isogeny_secp256k1 = Ret m ->
  wpoint (iso_e0 m) P A -> wpoint (iso_e0 m) R C -> val (WCurve.pz (WCurve.pc P)) = 1 -> val (WCurve.pz (WCurve.pc R)) = 1 ->
  valid_scalar (WCurve.c_r (iso_e1 m)) k -> (oc = true -> sk k <> 0) ->
  WCurve.pt_mul oc P k = Ret T -> WCurve.pt_eqb T R = Ret true ->
  exists P' R', iso_push m P = Ret P' /\ iso_push m R = Ret R' /\ same (WCurve.pt_mul oc P' k) (Ret R').
Proof. exact c45_push_mul. Qed.
Print Assumptions C45_push_mul.

(** the same onto BLS12-381 G1, where a sum in the kernel makes push panic and the sum of the images the identity *)
Theorem C46_push_sum : forall m P Q P' Q' T A B, get_isogeny_bls12381g1 = Ret m -> wpoint (iso_e0 m) P A -> wpoint (iso_e0 m) Q B ->
  val (WCurve.pz (WCurve.pc P)) = 1 -> val (WCurve.pz (WCurve.pc Q)) = 1 -> iso_push m P = Ret P' -> iso_push m Q = Ret Q' -> WCurve.pt_add P Q = Ret T ->
  exists S, WCurve.pt_add P' Q' = Ret S
    /\ (forall R C, wpoint (iso_e0 m) R C -> val (WCurve.pz (WCurve.pc R)) = 1 -> WCurve.pt_eqb T R = Ret true ->
         (forall R', iso_push m R = Ret R' -> WCurve.pt_eqb S R' = Ret true) /\ (forall t, iso_push m R = Panic t -> WCurve.pt_is_zero S = true))
    /\ (WCurve.pt_is_zero T = true -> WCurve.pt_is_zero S = true).
Proof. exact c46_push_sum. Qed.
Print Assumptions C46_push_sum.

Theorem C46_push_mul : forall oc m P P' T A k, get_isogeny_bls12381g1 = Ret m -> wpoint (iso_e0 m) P A -> val (WCurve.pz (WCurve.pc P)) = 1 ->
  valid_scalar (WCurve.c_r (iso_e1 m)) k -> (oc = true -> sk k <> 0) -> iso_push m P = Ret P' -> WCurve.pt_mul oc P k = Ret T ->
  exists S, WCurve.pt_mul oc P' k = Ret S
    /\ (forall R C, wpoint (iso_e0 m) R C -> val (WCurve.pz (WCurve.pc R)) = 1 -> WCurve.pt_eqb T R = Ret true ->
         (forall R', iso_push m R = Ret R' -> WCurve.pt_eqb S R' = Ret true) /\ (forall t, iso_push m R = Panic t -> WCurve.pt_is_zero S = true))
    /\ (WCurve.pt_is_zero T = true -> WCurve.pt_is_zero S = true).
Proof. exact c46_push_mul. Qed.
Print Assumptions C46_push_mul.

(** the base point G of the domain, 2G and their images *)
Example C45_homomorphism_ex : exists m, get_isogeny_secp256k1 = Ret m /\
  let G := Affine (Instances.w_gx Instances.std_SECP256K1_3ISO) (Instances.w_gy Instances.std_SECP256K1_3ISO) in
  let G' := Affine (Instances.w_gx Instances.std_SECP256K1) (Instances.w_gy Instances.std_SECP256K1) in
  let D := Affine 115524197775026640362506171578509991097273557594497848896767778779498117157007 4452455935741279395784198790153216998931520571243984448607586324497950974238 in
  let D' := Affine 89565891926547004231252920425935692360644145829622209833684329913297188986597 12158399299693830322967808612713398636155367887041628176798871954788371653930 in
  won (iso_e0 m) G /\ wsum (iso_e0 m) G G D /\ maps m iso3_secp256k1 G G' /\ maps m iso3_secp256k1 D D' /\ wsum (iso_e1 m) G' G' D'.
Proof. exact c45_homomorphism_ex. Qed.

(** the base point of the domain and its sum with a point of the kernel have the same image *)
Example C46_fibres_ex : exists m A B, get_isogeny_bls12381g1 = Ret m /\ won (iso_e0 m) A /\ won (iso_e0 m) B /\ A <> B
  /\ let G' := Affine (Instances.w_gx Instances.std_BLS12381G1) (Instances.w_gy Instances.std_BLS12381G1) in
     maps m iso11_bls12381g1 A G' /\ maps m iso11_bls12381g1 B G'.
Proof. exact c46_fibres_ex. Qed.
