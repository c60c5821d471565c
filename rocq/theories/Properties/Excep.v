(** The addition formulas on any nonsingular curve: C66. *)

From Coq Require Import ZArith Znumtheory Lia String Bool List.
From Verif.Math Require Import Fld Zp Residue RCB MontAdd ECGroup Excep.
From Verif.Spec Require Import Arith Curve WPoints MPoints EPoints Exceptions.
From Verif.Model Require Import Out BigInt PrimeField Scalar.
From Verif.Model Require WCurve MCurve ECurve.
From Verif.Proofs Require Import FieldP FieldProps CurveP SmallP ExcepP.
From Verif.Proofs Require EdOddP.
From Verif.Proofs Require WeierP MontP EdwP WeierProps MontProps EdwProps.
Import ListNotations.
Open Scope Z_scope.
From Verif.Proofs Require Import ExcepProps.

(** the sum of P and Q is the sum of the points, unless P - Q has order 2: then it is (0, 0, 0) *)
Theorem C66_addition : forall e P Q A B, weier_any e -> wpoint e P A -> wpoint e Q B ->
  exists R D, WCurve.pt_add P Q = Ret R /\ wsum e A (negative (modulus (WCurve.c_f e)) B) D
    /\ (ordinate D 0 -> w_null e R) /\ (~ ordinate D 0 -> forall C, wpoint e R C <-> wsum e A B C).
Proof. exact c66_addition. Qed.
Print Assumptions C66_addition.

(** doubling has no exception *)
Theorem C66_doubling : forall e P A, weier_any e -> wpoint e P A ->
  exists R, WCurve.core_doubling P = Ret R /\ forall C, wpoint e R C <-> wsum e A A C.
Proof. exact c66_doubling. Qed.
Print Assumptions C66_doubling.

(** k P is the k-fold sum, unless an addition on the way meets a difference of order 2: then it is (0, 0, 0) *)
Theorem C66_multiplication : forall oc e P A k, weier_any e -> wpoint e P A -> sr k = WCurve.c_r e -> 0 < sk k -> bits (sk k) < 2 ^ 64 ->
  exists R, WCurve.pt_mul oc P k = Ret R
    /\ (w_spoiled e A (sk k) -> w_null e R)
    /\ (~ w_spoiled e A (sk k) -> forall C, wpoint e R C <-> multiple (wsum e) Infinity A (Z.to_nat (sk k)) C).
Proof. exact c66_multiplication. Qed.
Print Assumptions C66_multiplication.

(** a point of odd order never meets the exception, whatever the order of the curve *)
Theorem C66_odd_order : forall oc e P A k n, weier_any e -> wpoint e P A -> sr k = WCurve.c_r e -> 0 < sk k -> bits (sk k) < 2 ^ 64 ->
  Nat.Odd n -> multiple (wsum e) Infinity A n Infinity ->
  exists R, WCurve.pt_mul oc P k = Ret R
    /\ forall C, wpoint e R C <-> multiple (wsum e) Infinity A (Z.to_nat (sk k)) C.
Proof. exact c66_odd_order. Qed.
Print Assumptions C66_odd_order.

(** (0, 0, 0) absorbs every operation, compares equal to every point, is no point and not the identity *)
Theorem C66_no_point : forall oc e N P A k, weier_any e -> w_null e N -> wpoint e P A ->
  sr k = WCurve.c_r e -> 0 < sk k -> bits (sk k) < 2 ^ 64 ->
  WCurve.pt_add N P = Ret N /\ WCurve.pt_add P N = Ret N /\ WCurve.pt_sub N P = Ret N /\ WCurve.pt_sub P N = Ret N
  /\ WCurve.pt_add N N = Ret N /\ WCurve.pt_neg N = Ret N /\ WCurve.pt_mul oc N k = Ret N
  /\ WCurve.pt_eqb N P = Ret true /\ WCurve.pt_eqb P N = Ret true
  /\ WCurve.pt_is_zero N = false /\ forall B, ~ wpoint e N B.
Proof. exact c66_no_point. Qed.
Print Assumptions C66_no_point.

(** the condition on the curve under which C24 is stated is necessary: without it some sum is wrong *)
Theorem C66_condition : forall e, weier_any e ->
  (weier e <-> forall P Q A B, wpoint e P A -> wpoint e Q B ->
     exists R, WCurve.pt_add P Q = Ret R /\ forall C, wpoint e R C <-> wsum e A B C).
Proof. exact c66_condition. Qed.
Print Assumptions C66_condition.

Theorem C66_mont_addition : forall e P Q A B, mont_any e -> mpoint e P A -> mpoint e Q B ->
  exists R D, MCurve.pt_add P Q = Ret R /\ msum e A (negative (modulus (MCurve.c_f e)) B) D
    /\ (ordinate D (val (MCurve.c_s e)) -> m_null e R)
    /\ (~ ordinate D (val (MCurve.c_s e)) -> forall C, mpoint e R C <-> msum e A B C).
Proof. exact c66_mont_addition. Qed.
Print Assumptions C66_mont_addition.

(** adding a point to itself has no exception, whatever s *)
Theorem C66_mont_doubling : forall e P A, mont_any e -> mpoint e P A ->
  exists R, MCurve.pt_add P P = Ret R /\ forall C, mpoint e R C <-> msum e A A C.
Proof. exact c66_mont_doubling. Qed.
Print Assumptions C66_mont_doubling.

Theorem C66_mont_multiplication : forall oc e P A k, mont_any e -> mpoint e P A -> sr k = MCurve.c_r e -> 0 < sk k -> bits (sk k) < 2 ^ 64 ->
  exists R, MCurve.pt_mul oc P k = Ret R
    /\ (m_spoiled e A (sk k) -> m_null e R)
    /\ (~ m_spoiled e A (sk k) -> forall C, mpoint e R C <-> multiple (msum e) Infinity A (Z.to_nat (sk k)) C).
Proof. exact c66_mont_multiplication. Qed.
Print Assumptions C66_mont_multiplication.

Theorem C66_mont_no_point : forall oc e N P A k, mont_any e -> m_null e N -> mpoint e P A ->
  sr k = MCurve.c_r e -> 0 < sk k -> bits (sk k) < 2 ^ 64 ->
  MCurve.pt_add N P = Ret N /\ MCurve.pt_add P N = Ret N /\ MCurve.pt_sub N P = Ret N /\ MCurve.pt_sub P N = Ret N
  /\ MCurve.pt_add N N = Ret N /\ MCurve.pt_neg N = Ret N /\ MCurve.pt_mul oc N k = Ret N
  /\ MCurve.pt_eqb N P = Ret true /\ MCurve.pt_eqb P N = Ret true
  /\ MCurve.pt_is_zero N = false /\ forall B, ~ mpoint e N B.
Proof. exact c66_mont_no_point. Qed.
Print Assumptions C66_mont_no_point.

(** the sums are right for all points exactly when no point of the curve has ordinate s *)
Theorem C66_mont_condition : forall e, mont_any e ->
  (mont e <-> forall P Q A B, mpoint e P A -> mpoint e Q B ->
     exists R, MCurve.pt_add P Q = Ret R /\ forall C, mpoint e R C <-> msum e A B C).
Proof. exact c66_mont_condition. Qed.
Print Assumptions C66_mont_condition.

(** on any curve the sum is computed without a panic; it is the sum where the addition law is defined, and no
    point (third coordinate 0) where it is not *)
Theorem C66_edw_addition : forall e P Q A B, edw_any e -> epoint e P A -> epoint e Q B ->
  exists R, ECurve.pt_add P Q = Ret R
    /\ (e_undefined e A B -> val (ECurve.pz (ECurve.pc R)) = 0 /\ forall C, ~ epoint e R C)
    /\ (~ e_undefined e A B -> forall C, epoint e R C <-> esum e A B C).
Proof. exact c66_edw_addition. Qed.
Print Assumptions C66_edw_addition.

(** whatever a and d are, operations on points and on what comes out of them never panic *)
Theorem C66_edw_total : forall oc e P Q k, edw_any e -> e_tuple e P -> e_tuple e Q ->
  (exists R, ECurve.pt_add P Q = Ret R /\ e_tuple e R) /\ (exists R, ECurve.pt_sub P Q = Ret R /\ e_tuple e R)
  /\ (exists R, ECurve.pt_neg P = Ret R /\ e_tuple e R)
  /\ (sr k = ECurve.c_r e -> 0 < sk k -> bits (sk k) < 2 ^ 64 -> exists R, ECurve.pt_mul oc P k = Ret R /\ e_tuple e R)
  /\ forall S A, epoint e S A -> e_tuple e S.
Proof. exact c66_edw_total. Qed.
Print Assumptions C66_edw_total.

(** every sum of two points is right exactly when the curve is complete or all its points lie on the axes *)
Theorem C66_edw_condition : forall e, edw_any e -> ~ (modulus (ECurve.c_f e) | val (ECurve.c_a e)) -> ~ (modulus (ECurve.c_f e) | val (ECurve.c_d e)) ->
  ((forall P Q A B, epoint e P A -> epoint e Q B -> exists R C, ECurve.pt_add P Q = Ret R /\ epoint e R C /\ esum e A B C)
   <-> edw e \/ forall x y, eon e (x, y) -> x = 0 \/ y = 0).
Proof. exact c66_edw_condition. Qed.
Print Assumptions C66_edw_condition.

(** the points of odd order: every sum is defined, of odd order, and computed *)
Theorem C66_edw_odd_sums : forall e P Q A B m n, edw_smooth e -> epoint e P A -> epoint e Q B ->
  Nat.Odd m -> multiple (esum e) (0, 1) A m (0, 1) -> Nat.Odd n -> multiple (esum e) (0, 1) B n (0, 1) ->
  exists R C, ECurve.pt_add P Q = Ret R /\ epoint e R C /\ esum e A B C /\ multiple (esum e) (0, 1) C (m * n) (0, 1).
Proof. exact c66_edw_odd_sums. Qed.
Print Assumptions C66_edw_odd_sums.

(** multiplication of a point of odd order is right whatever the curve *)
Theorem C66_edw_odd_order : forall oc e P A k n, edw_smooth e -> epoint e P A -> sr k = ECurve.c_r e -> 0 < sk k -> bits (sk k) < 2 ^ 64 ->
  Nat.Odd n -> multiple (esum e) (0, 1) A n (0, 1) ->
  exists R C, ECurve.pt_mul oc P k = Ret R /\ epoint e R C
    /\ forall C', multiple (esum e) (0, 1) A (Z.to_nat (sk k)) C' <-> C' = C.
Proof. exact c66_edw_odd_order. Qed.
Print Assumptions C66_edw_odd_order.

Example C66_ex : weier_any W6 /\ wpoint W6 (w6 4 1 1) (Affine 4 1) /\ wpoint W6 (w6 6 1 1) (Affine 6 1)
    /\ wsum W6 (Affine 4 1) (Affine 6 6) (Affine 5 0)
    /\ WCurve.pt_add (w6 4 1 1) (w6 6 1 1) = Ret (w6 0 0 0)
    /\ WCurve.pt_mul true (w6 4 1 1) (mkScalar 5 6) = Ret (w6 0 0 0)
    /\ (exists R, WCurve.pt_mul true (w6 4 1 1) (mkScalar 4 6) = Ret R /\ WCurve.pt_eqb R (w6 6 1 1) = Ret true).
Proof. exact c66_ex. Qed.

Theorem C66_equality_transitive_refuted : exists e P Q N A B, weier_any e /\ wpoint e P A /\ wpoint e Q B
    /\ WCurve.pt_add P Q = Ret N /\ WCurve.pt_eqb P N = Ret true /\ WCurve.pt_eqb N Q = Ret true /\ WCurve.pt_eqb P Q = Ret false.
Proof. exact c66_equality_transitive_refuted. Qed.
Print Assumptions C66_equality_transitive_refuted.

Example C66_spoiled_ex : w_spoiled W6 (Affine 4 1) 5.
Proof. exact c66_spoiled_ex. Qed.

Example C66_mont_ex : mont_any M1 /\ mpoint M1 (m1 6 1 1) (Affine 6 1) /\ mpoint M1 (m1 0 1 0) Infinity
    /\ MCurve.pt_add (m1 6 1 1) (m1 0 1 0) = Ret (m1 0 0 0) /\ MCurve.pt_mul true (m1 6 18 1) (mkScalar 1 5) = Ret (m1 0 0 0)
    /\ MCurve.pt_eqb (m1 0 0 0) (m1 7 6 1) = Ret true.
Proof. exact c66_mont_ex. Qed.

Example C66_edw_ex : edw_any D4 /\ epoint D4 (d4 2 2 4 1) (2, 2) /\ epoint D4 (d4 5 5 6 1) (5, 5)
    /\ e_undefined D4 (2, 2) (5, 5) /\ ECurve.pt_add (d4 2 2 4 1) (d4 5 5 6 1) = Ret (d4 0 0 0 0).
Proof. exact c66_edw_ex. Qed.

Example C66_edw_odd_ex : edw_smooth D5 /\ epoint D5 (d5 1 3 3 1) (1, 3) /\ epoint D5 (d5 2 6 12 1) (2, 6)
    /\ multiple (esum D5) (0, 1) (1, 3) 5 (0, 1) /\ e_undefined D5 (1, 3) (2, 6)
    /\ multiple (esum D5) (0, 1) (1, 3) 3 (3, 5)
    /\ (exists R, ECurve.pt_mul true (d5 1 3 3 1) (mkScalar 3 5) = Ret R /\ ECurve.pt_eqb R (d5 3 5 2 1) = Ret true).
Proof. exact c66_edw_odd_ex. Qed.

Example C66_edw_total_ex : ECurve.pt_add (d5 1 3 3 1) (d5 2 6 12 1) = Ret (d5 0 2 12 0) /\ e_tuple D5 (d5 0 2 12 0)
    /\ (forall A, ~ epoint D5 (d5 0 2 12 0) A)
    /\ exists R, ECurve.pt_sub (d5 0 2 12 0) (d5 2 6 12 1) = Ret R /\ ECurve.pt_eqb R (d5 1 3 3 1) = Ret true.
Proof. exact c66_edw_total_ex. Qed.
