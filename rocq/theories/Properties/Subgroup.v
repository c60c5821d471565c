(** C60: is a point a multiple of the base point? Tests a caller can write with the API. *)

From Coq Require Import ZArith Znumtheory Lia String Ascii Bool List.
From Verif.Spec Require Import Arith Curve Order.
From Verif.Spec Require Instances.
From Verif.Model Require Import Out BigInt PrimeField Scalar CurveExtras.
From Verif.Model Require Instances.
From Verif.Model Require WCurve MCurve ECurve.
From Verif.Proofs Require Import FieldProps ScalarProps ScLaw ScLawProps OrderRun Subgroup SubgroupRun.
From Verif.Proofs Require WeierProps MontProps EdwProps InstProps OrderProps.
From Verif.Spec Require Export Shipped Membership.
Import Spec.Instances Model.Instances.
Import ListNotations.
Open Scope Z_scope.
Open Scope out_scope.
From Verif.Proofs Require Import SubgroupProps.

Theorem C60_any_curve : forall e h MG G, WPoints.weier e -> Z.log2 (WCurve.c_r e) < 2 ^ 63 -> 1 < WCurve.c_r e -> 0 <= h -> Z.gcd h (WCurve.c_r e) = 1 ->
  WPoints.wpoint e MG G -> multiple (WPoints.wsum e) Infinity G (Z.to_nat (WCurve.c_r e)) Infinity -> clears (WPoints.won e) (WPoints.wsum e) Infinity G h (WCurve.c_r e) ->
  exists k, WCurve.new_scalar e (w_get_order e - 1) = Ret k
  /\ forall oc P A, WPoints.wpoint e P A -> exists S T b, WCurve.pt_mul oc P k = Ret S /\ WCurve.pt_neg P = Ret T /\ WCurve.pt_eqb S T = Ret b
     /\ (b = true <-> generated (WPoints.wsum e) Infinity G (WCurve.c_r e) A).
Proof. exact c60_any_curve. Qed.
Print Assumptions C60_any_curve.

Theorem C60_mont_any_curve : forall e h MG G, MPoints.mont e -> Z.log2 (MCurve.c_r e) < 2 ^ 63 -> 1 < MCurve.c_r e -> 0 <= h -> Z.gcd h (MCurve.c_r e) = 1 ->
  MPoints.mpoint e MG G -> multiple (MPoints.msum e) Infinity G (Z.to_nat (MCurve.c_r e)) Infinity -> clears (MPoints.mon e) (MPoints.msum e) Infinity G h (MCurve.c_r e) ->
  exists k, MCurve.new_scalar e (m_get_order e - 1) = Ret k
  /\ forall oc P A, MPoints.mpoint e P A -> exists S T b, MCurve.pt_mul oc P k = Ret S /\ MCurve.pt_neg P = Ret T /\ MCurve.pt_eqb S T = Ret b
     /\ (b = true <-> generated (MPoints.msum e) Infinity G (MCurve.c_r e) A).
Proof. exact c60_mont_any_curve. Qed.
Print Assumptions C60_mont_any_curve.

Theorem C60_edw_any_curve : forall e h MG G, EPoints.edw e -> Z.log2 (ECurve.c_r e) < 2 ^ 63 -> 1 < ECurve.c_r e -> 0 <= h -> Z.gcd h (ECurve.c_r e) = 1 ->
  EPoints.epoint e MG G -> multiple (EPoints.esum e) (0, 1) G (Z.to_nat (ECurve.c_r e)) (0, 1) -> clears (EPoints.eon e) (EPoints.esum e) (0, 1) G h (ECurve.c_r e) ->
  exists k, ECurve.new_scalar e (e_get_order e - 1) = Ret k
  /\ forall oc P A, EPoints.epoint e P A -> exists S T b, ECurve.pt_mul oc P k = Ret S /\ ECurve.pt_neg P = Ret T /\ ECurve.pt_eqb S T = Ret b
     /\ (b = true <-> generated (EPoints.esum e) (0, 1) G (ECurve.c_r e) A).
Proof. exact c60_edw_any_curve. Qed.
Print Assumptions C60_edw_any_curve.

Theorem C60_membership : forall X s, In (X, s) w_curves -> w_member_test X s.
Proof. exact c60_membership. Qed.
Print Assumptions C60_membership.

Theorem C60_mont_membership : forall X s, In (X, s) m_curves -> m_member_test X s.
Proof. exact c60_mont_membership. Qed.
Print Assumptions C60_mont_membership.

Theorem C60_edw_membership : forall X s, In (X, s) e_curves -> e_member_test X s.
Proof. exact c60_edw_membership. Qed.
Print Assumptions C60_edw_membership.

Theorem C60_order_scalar : forall X s, In (X, s) w_curves -> w_order_scalar X.
Proof. exact c60_order_scalar. Qed.
Print Assumptions C60_order_scalar.

Theorem C60_mont_order_scalar : forall X s, In (X, s) m_curves -> m_order_scalar X.
Proof. exact c60_mont_order_scalar. Qed.
Print Assumptions C60_mont_order_scalar.

Theorem C60_edw_order_scalar : forall X s, In (X, s) e_curves -> e_order_scalar X.
Proof. exact c60_edw_order_scalar. Qed.
Print Assumptions C60_edw_order_scalar.

(** a point of order 3 of BLS12-381 G1 *)
Theorem C60_order_check_refuted : w_order_fooled BLS12381G1 std_BLS12381G1 (Affine 0 2).
Proof. exact c60_order_check_refuted. Qed.
Print Assumptions C60_order_check_refuted.

(** (0,0) on the Montgomery curves *)
Theorem C60_mont_order_check_refuted : forall X s, In (X, s) m_curves -> m_order_fooled X s (Affine 0 0).
Proof. exact c60_mont_order_check_refuted. Qed.
Print Assumptions C60_mont_order_check_refuted.

(** (0,-1) on the Edwards curves *)
Theorem C60_edw_order_check_refuted : forall X s, In (X, s) e_curves -> e_order_fooled X s (0, e_p s - 1).
Proof. exact c60_edw_order_check_refuted. Qed.
Print Assumptions C60_edw_order_check_refuted.

(** 4 affine points pass the test, and they are the ones of order 5; the other 15 fail it, but the naive check accepts them *)
Example C60_mont_ex : how_many (true, true, true) = 4%nat /\ how_many (false, true, false) = 15%nat
  /\ List.length (filter (fun xy => match sort19 xy with Some _ => true | None => false end) all19) = 19%nat.
Proof. exact c60_mont_ex. Qed.

(** -x^2 + y^2 = 1 + 2 x^2 y^2 modulo 29, order 7, cofactor 4: the base point passes, (0,-1) does not, the naive check accepts both *)
Example C60_edw_ex : map (fun xy : Z * Z => let e := EdwProps.E29 in
    P <- ECurve.new_point e (mkFpElt (fst xy) (mkFp 29)) (mkFpElt (snd xy) (mkFp 29)) ;;
    k <- ECurve.new_scalar e (e_get_order e - 1) ;; A <- ECurve.pt_mul true P k ;; B <- ECurve.pt_neg P ;; t <- ECurve.pt_eqb A B ;;
    z <- ECurve.new_scalar e (e_get_order e) ;; N <- ECurve.pt_mul false P z ;; Ret (t, ECurve.pt_is_zero N)) [(2, 22); (0, 28)]
  = [Ret (true, true); Ret (false, true)].
Proof. exact c60_edw_ex. Qed.

(** y^2 = x^3 + x + 6 modulo 7, order 11, cofactor 1: 10 P = -P, and 11 P is computed as 0 P *)
Example C60_ex : (let e := WeierProps.E7 in P <- WCurve.get_generator e ;; k <- WCurve.new_scalar e (w_get_order e - 1) ;;
    A <- WCurve.pt_mul true P k ;; B <- WCurve.pt_neg P ;; t <- WCurve.pt_eqb A B ;;
    z <- WCurve.new_scalar e (w_get_order e) ;; N <- WCurve.pt_mul false P z ;; Ret (t, WCurve.pt_is_zero N, WCurve.pt_mul true P z))
  = Ret (true, true, Panic "attempt to subtract with overflow").
Proof. exact c60_ex. Qed.
