(** C77: how many multiples of the base point hashing reaches. *)

From Coq Require Import ZArith Znumtheory Lia String Bool List.
From Verif.Spec Require Import Arith Curve Order Elements Counting.
From Verif.Spec Require WPoints MPoints EPoints.
From Verif.Spec Require Instances.
From Verif.Model Require Import Out BigInt PrimeField Scalar CurveExtras.
From Verif.Model Require WCurve MCurve ECurve.
From Verif.Model Require Instances.
From Verif.Model Require Import Maps RationalMaps.
From Verif.Proofs Require Import FieldProps CountP.
From Verif.Proofs Require WeierProps MontProps EdwProps InstProps OrderProps ClearProps FibreInstProps Fibre448Props ImageProps IsogProps.
From Verif.Spec Require Export Shipped Membership Clearing.
Import Spec.Instances Model.Instances.
Import ListNotations.
Open Scope Z_scope.
From Verif.Proofs Require Import ReachProps.

Theorem C77_hash_curve25519 : exists e k, CURVE25519 = Ret e /\ MCurve.new_scalar e (m_get_cofactor e) = Ret k /\
  forall z, let p := modulus (MCurve.c_f e) in valid p z -> ~ square_mod p (val z) ->
  exists m, ell2_new e z = Ret m /\ at_least (Z.to_nat (2 ^ 251 - 1)) (fun C =>
    generated (MPoints.msum e) Infinity (Affine (m_gx std_CURVE25519) (m_gy std_CURVE25519)) (m_r std_CURVE25519) C
    /\ exists u, hashes_to p (ell2_map m) MCurve.pt_mul (MPoints.mpoint e) k C u).
Proof. exact c77_hash_curve25519. Qed.
Print Assumptions C77_hash_curve25519.

Theorem C77_hash_curve448 : exists e k, CURVE448 = Ret e /\ MCurve.new_scalar e (m_get_cofactor e) = Ret k /\
  forall z, let p := modulus (MCurve.c_f e) in valid p z -> ~ square_mod p (val z) ->
  exists m, ell2_new e z = Ret m /\ at_least (Z.to_nat (2 ^ 445 - 2 ^ 221)) (fun C =>
    generated (MPoints.msum e) Infinity (Affine (m_gx std_CURVE448) (m_gy std_CURVE448)) (m_r std_CURVE448) C
    /\ exists u, hashes_to p (ell2_map m) MCurve.pt_mul (MPoints.mpoint e) k C u).
Proof. exact c77_hash_curve448. Qed.
Print Assumptions C77_hash_curve448.

Theorem C77_hash_edwards25519 : exists m k, edwards25519_to_curve25519 = Ret m /\ EDWARDS25519 = Ret (ed_e0 m) /\ ECurve.new_scalar (ed_e0 m) (e_get_cofactor (ed_e0 m)) = Ret k /\
  forall z, let p := modulus (ECurve.c_f (ed_e0 m)) in valid p z -> ~ square_mod p (val z) ->
  exists M, ed_ell2_new (ed_e0 m) z (Some (R25519 m)) = Ret M /\ at_least (Z.to_nat (2 ^ 251 - 1)) (fun C =>
    generated (EPoints.esum (ed_e0 m)) (0, 1) (e_gx std_EDWARDS25519, e_gy std_EDWARDS25519) (e_r std_EDWARDS25519) C
    /\ exists u, hashes_to p (ed_ell2_map M) ECurve.pt_mul (EPoints.epoint (ed_e0 m)) k C u).
Proof. exact c77_hash_edwards25519. Qed.
Print Assumptions C77_hash_edwards25519.

Theorem C77_hash_edwards448 : exists m k, edwards448_to_curve448 = Ret m /\ EDWARDS448 = Ret (e4_e0 m) /\ ECurve.new_scalar (e4_e0 m) (e_get_cofactor (e4_e0 m)) = Ret k /\
  forall z, let p := modulus (ECurve.c_f (e4_e0 m)) in valid p z -> ~ square_mod p (val z) ->
  exists M, ed_ell2_new (e4_e0 m) z (Some (R448 m)) = Ret M /\ at_least (Z.to_nat (2 ^ 443 - 2 ^ 219)) (fun C =>
    generated (EPoints.esum (e4_e0 m)) (0, 1) (e_gx std_EDWARDS448, e_gy std_EDWARDS448) (e_r std_EDWARDS448) C
    /\ exists u, hashes_to p (ed_ell2_map M) ECurve.pt_mul (EPoints.epoint (e4_e0 m)) k C u).
Proof. exact c77_hash_edwards448. Qed.
Print Assumptions C77_hash_edwards448.

Theorem C77_hash_bls12381g1 : forall m z s, get_isogeny_bls12381g1 = Ret m -> valid (modulus (WCurve.c_f (iso_e0 m))) z -> sswuab0_new (iso_e1 m) z m = Ret s ->
  BLS12381G1 = Ret (iso_e1 m) /\ exists k, WCurve.new_scalar (iso_e1 m) (w_get_cofactor (iso_e1 m)) = Ret k
  /\ at_least (Z.to_nat (0x2a27dfc12667d07758722002ec3ada307b8ac746e8b995d11745d1740000001)) (fun C =>
    generated (WPoints.wsum (iso_e1 m)) Infinity (Affine (w_gx std_BLS12381G1) (w_gy std_BLS12381G1)) (w_r std_BLS12381G1) C
    /\ exists u, hashes_to (modulus (WCurve.c_f (iso_e0 m))) (sswuab0_map s) WCurve.pt_mul (WPoints.wpoint (iso_e1 m)) k C u).
Proof. exact c77_hash_bls12381g1. Qed.
Print Assumptions C77_hash_bls12381g1.

(** on y^2 = x^3 + 6 x^2 + x modulo 19 (20 points, cofactor 4) Elligator 2 reaches 9 points, so at least 3 of the 5 multiples
    of the base point are reached: here the field elements that hash to 0 G, .., 4 G *)
Example C77_hash_ex : MPoints.mgroup MontProps.E19
  /\ bind (ell2_new MontProps.E19 (MontProps.n19 2)) (fun m => bind (MCurve.get_generator MontProps.E19) (fun G =>
     Ret (map (fun j => filter (fun u => match bind (ell2_map m (MontProps.n19 u)) (fun P => bind (MCurve.pt_mul false P (mkScalar 4 5)) (fun Q =>
       bind (MCurve.pt_mul false G (mkScalar j 5)) (fun C => MCurve.pt_eqb Q C))) with Ret true => true | _ => false end) (map Z.of_nat (seq 0 19))) [0; 1; 2; 3; 4])))
  = Ret [[0; 3; 16]; [5; 6; 7; 12; 13; 14]; [1; 18]; [9; 10]; [2; 4; 8; 11; 15; 17]].
Proof. exact c77_hash_ex. Qed.
