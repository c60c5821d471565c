(** Edwards curves that need not be complete, on the whole group of the companion curve: C66. *)

From Coq Require Import ZArith Znumtheory Lia String Bool List.
From Verif.Math Require Import Fld Zp Residue EdOdd EdComp ECGroup.
From Verif.Spec Require Import Arith Curve Elements EPoints Exceptions.
From Verif.Model Require Import Out BigInt PrimeField Scalar.
From Verif.Model Require ECurve.
From Verif.Proofs Require Import FieldP FieldProps CurveP SmallP ExcepP ExcepProps EdCompP.
From Verif.Proofs Require EdOddP EdwP EdwProps.
Import ListNotations.
Open Scope Z_scope.
From Verif.Proofs Require Import CompProps.

(** what can come out of the operations is a point of the companion curve or (0, 0, 0, 0); the points of the Edwards curve are
    among the former *)
Theorem C66_edw_tuples : forall e P, edw_smooth e ->
  (e_tuple e P <-> e_null e P \/ exists M, e_stands e P M)
  /\ (forall A, epoint e P A -> exists M, e_stands e P M /\ e_finite e M).
Proof. exact c66_edw_tuples. Qed.
Print Assumptions C66_edw_tuples.

(** what a tuple stands for is unique, and it is a point of the Edwards curve exactly when no denominator vanishes there *)
Theorem C66_edw_stands : forall e P M, edw_smooth e -> e_stands e P M ->
  (forall N, e_stands e P N <-> N = M) /\ ~ e_null e P /\ ((exists A, epoint e P A) <-> e_finite e M).
Proof. exact c66_edw_stands. Qed.
Print Assumptions C66_edw_stands.

(** the coordinates: x = 2 u / v and y = (u - f) / (u + f) with f = a - d; the identity is Infinity and (0, -1) is (0, 0) *)
Theorem C66_edw_coordinates : forall e P x y, edw_smooth e -> epoint e P (x, y) ->
  let p := modulus (ECurve.c_f e) in let f := val (ECurve.c_a e) - val (ECurve.c_d e) in
  (e_stands e P Infinity -> x = 0 /\ y = 1) /\ (e_stands e P (Affine 0 0) -> x = 0 /\ y = p - 1)
  /\ forall u v, e_stands e P (Affine u v) -> u <> 0 -> (p | x * v - 2 * u) /\ (p | y * (u + f) - (u - f)).
Proof. exact c66_edw_coordinates. Qed.
Print Assumptions C66_edw_coordinates.

(** the sum of P and Q is the sum on the companion curve, unless P - Q is not a point of the Edwards curve: then it is (0, 0, 0, 0) *)
Theorem C66_edw_completed : forall e P Q M N, edw_smooth e -> e_stands e P M -> e_stands e Q N ->
  exists R D, ECurve.pt_add P Q = Ret R /\ e_csum e M (negative (modulus (ECurve.c_f e)) N) D
    /\ (~ e_finite e D -> e_null e R) /\ (e_finite e D -> forall C, e_stands e R C <-> e_csum e M N C).
Proof. exact c66_edw_completed. Qed.
Print Assumptions C66_edw_completed.

(** adding a point to itself has no exception; neither has negation *)
Theorem C66_edw_doubling : forall e P M, edw_smooth e -> e_stands e P M ->
  (exists R, ECurve.pt_add P P = Ret R /\ forall C, e_stands e R C <-> e_csum e M M C)
  /\ exists R, ECurve.pt_neg P = Ret R /\ e_stands e R (negative (modulus (ECurve.c_f e)) M).
Proof. exact c66_edw_doubling. Qed.
Print Assumptions C66_edw_doubling.

(** k P is the k-fold sum, unless an addition on the way meets such a difference: then it is (0, 0, 0, 0) *)
Theorem C66_edw_multiplication : forall oc e P M k, edw_smooth e -> e_stands e P M -> sr k = ECurve.c_r e -> 0 < sk k -> bits (sk k) < 2 ^ 64 ->
  exists R, ECurve.pt_mul oc P k = Ret R
    /\ (e_spoiled e M (sk k) -> e_null e R)
    /\ (~ e_spoiled e M (sk k) -> forall C, e_stands e R C <-> multiple (e_csum e) Infinity M (Z.to_nat (sk k)) C).
Proof. exact c66_edw_multiplication. Qed.
Print Assumptions C66_edw_multiplication.

(** (0, 0, 0, 0) absorbs every operation, compares equal to everything and is not the identity *)
Theorem C66_edw_no_point : forall oc e N P k, edw_smooth e -> e_null e N -> e_tuple e P ->
  sr k = ECurve.c_r e -> 0 < sk k -> bits (sk k) < 2 ^ 64 ->
  ECurve.pt_add N P = Ret N /\ ECurve.pt_add P N = Ret N /\ ECurve.pt_sub N P = Ret N /\ ECurve.pt_sub P N = Ret N
  /\ ECurve.pt_neg N = Ret N /\ ECurve.pt_mul oc N k = Ret N
  /\ ECurve.pt_eqb N P = Ret true /\ ECurve.pt_eqb P N = Ret true
  /\ ECurve.pt_is_zero N = false /\ forall A, ~ epoint e N A.
Proof. exact c66_edw_no_point. Qed.
Print Assumptions C66_edw_no_point.

Example C66_edw_completed_ex : edw_smooth D20 /\ e_stands D20 (d20 9 11 8 1) (Affine 5 4) /\ epoint D20 (d20 9 11 8 1) (9, 11)
    /\ ECurve.pt_mul true (d20 9 11 8 1) (mkScalar 5 20) = Ret (d20 0 1 6 0) /\ e_stands D20 (d20 0 1 6 0) (Affine 2 5) /\ ~ e_finite D20 (Affine 2 5)
    /\ (exists R, ECurve.pt_add (d20 0 1 6 0) (d20 9 11 8 1) = Ret R /\ ECurve.pt_mul true (d20 9 11 8 1) (mkScalar 6 20) = Ret (d20 6 10 9 11)
          /\ ECurve.pt_eqb R (d20 6 10 9 11) = Ret true)
    /\ ECurve.pt_mul true (d20 9 11 8 1) (mkScalar 7 20) = Ret (d20 0 0 0 0) /\ e_spoiled D20 (Affine 5 4) 7.
Proof. exact c66_edw_completed_ex. Qed.
