(** C63: exactly how many points Elligator 2 reaches. *)

From Coq Require Import ZArith Znumtheory Lia String Bool List Field.
From Verif.Math Require Import Fld Zp Residue MapAlg Fibre.
From Verif.Spec Require Import Arith Curve Elements Morphisms Counting.
From Verif.Spec Require Instances Shipped.
From Verif.Spec Require EPoints MPoints.
From Verif.Model Require Import Out PrimeField RationalMaps Maps.
From Verif.Model Require Instances.
From Verif.Model Require MCurve ECurve.
From Verif.Proofs Require Import SmallP FieldP FieldProps CurveP MapsP.
From Verif.Proofs Require MontProps EdwProps MapsProps InstProps HashProps RatProps FibreProps FibreInstProps.
Import ListNotations.
Import Spec.Instances Model.Instances.
Open Scope Z_scope.
From Verif.Proofs Require Import ImageProps.

(** on any Montgomery curve of the library's kind, with z not a square: (p + 1)/2 points when p = 1 mod 4, (p - 1)/2 when p = 3 mod 4 *)
Theorem C63_ell2_exact : forall e z m, MPoints.mgroup e -> valid (modulus (MCurve.c_f e)) z -> ~ square_mod (modulus (MCurve.c_f e)) (val z) -> ell2_new e z = Ret m ->
  (modulus (MCurve.c_f e) mod 4 = 1 ->
   exactly (Z.to_nat ((modulus (MCurve.c_f e) + 1) / 2)) (fun A => exists u, sent (modulus (MCurve.c_f e)) (ell2_map m) (MPoints.mpoint e) A u))
  /\ (modulus (MCurve.c_f e) mod 4 = 3 ->
   exactly (Z.to_nat ((modulus (MCurve.c_f e) - 1) / 2)) (fun A => exists u, sent (modulus (MCurve.c_f e)) (ell2_map m) (MPoints.mpoint e) A u)).
Proof. exact c63_ell2_exact. Qed.
Print Assumptions C63_ell2_exact.

(** on the shipped curves, for every z that is not a square *)
Theorem C63_curve25519_exact : exists e, CURVE25519 = Ret e /\
  forall z, let p := modulus (MCurve.c_f e) in valid p z -> ~ square_mod p (val z) ->
  exists m, ell2_new e z = Ret m /\ exactly (Z.to_nat (2 ^ 254 - 9)) (fun A => exists u, sent p (ell2_map m) (MPoints.mpoint e) A u).
Proof. exact c63_curve25519_exact. Qed.
Print Assumptions C63_curve25519_exact.

Theorem C63_curve448_exact : exists e, CURVE448 = Ret e /\
  forall z, let p := modulus (MCurve.c_f e) in valid p z -> ~ square_mod p (val z) ->
  exists m, ell2_new e z = Ret m /\ exactly (Z.to_nat (2 ^ 447 - 2 ^ 223 - 1)) (fun A => exists u, sent p (ell2_map m) (MPoints.mpoint e) A u).
Proof. exact c63_curve448_exact. Qed.
Print Assumptions C63_curve448_exact.

Theorem C63_edwards25519_exact : exists m, edwards25519_to_curve25519 = Ret m /\ EDWARDS25519 = Ret (ed_e0 m) /\
  forall z, let p := modulus (ECurve.c_f (ed_e0 m)) in valid p z -> ~ square_mod p (val z) ->
  exists M, ed_ell2_new (ed_e0 m) z (Some (R25519 m)) = Ret M
  /\ exactly (Z.to_nat (2 ^ 254 - 9)) (fun A => exists u, sent p (ed_ell2_map M) (EPoints.epoint (ed_e0 m)) A u).
Proof. exact c63_edwards25519_exact. Qed.
Print Assumptions C63_edwards25519_exact.

(** y^2 = x^3 + 6 x^2 + x over F_19, z = 2: 3 is degenerate and goes where 0 goes; the elements 1, .., 9 have nine different images *)
Example C63_exact_ex : MPoints.mgroup MontProps.E19 /\ degenerate 19 2 3
  /\ bind (ell2_new MontProps.E19 (MontProps.n19 2)) (fun m => Ret (map (fun u => ell2_map m (MontProps.n19 u)) [0; 1; 2; 3; 4; 5; 6; 7; 8; 9; 10]))
  = Ret (map (fun xy => Ret (MontProps.pt19 (fst xy) (snd xy) 1)) [(0, 0); (15, 16); (12, 1); (0, 0); (8, 12); (12, 18); (11, 4); (8, 7); (11, 15); (15, 3); (15, 3)]).
Proof. exact c63_exact_ex. Qed.
