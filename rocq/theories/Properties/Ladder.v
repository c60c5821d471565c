(** The point operations performed by scalar multiplication: C65. *)

From Coq Require Import ZArith Lia String Bool List.
From Verif.Spec Require Import Arith Curve Ladder.
From Verif.Spec Require WPoints MPoints EPoints.
From Verif.Model Require Import Out BigInt PrimeField Scalar MulTrace.
From Verif.Model Require WCurve MCurve ECurve.
From Verif.Proofs Require Import BytesP ScalarProps LadderP.
From Verif.Proofs Require WeierProps MontProps EdwProps.
Import ListNotations.
Open Scope Z_scope.
From Verif.Proofs Require Import LadderProps.

(** keeping the record changes neither results nor panics *)
Theorem C65_record : forall oc P k, forget (w_log_mul oc P k) = WCurve.pt_mul oc P k.
Proof. exact c65_record. Qed.
Print Assumptions C65_record.

Theorem C65_mont_record : forall oc P k, forget (m_log_mul oc P k) = MCurve.pt_mul oc P k.
Proof. exact c65_mont_record. Qed.
Print Assumptions C65_mont_record.

Theorem C65_edw_record : forall oc P k, forget (e_log_mul oc P k) = ECurve.pt_mul oc P k.
Proof. exact c65_edw_record. Qed.
Print Assumptions C65_edw_record.

(** the operations are those of the binary numeral of the scalar, whatever the point; none for the scalar 0 *)
Theorem C65_operations : forall oc P k R g, w_log_mul oc P k = Ret (R, g) -> 0 <= sk k -> bits (sk k) < 2 ^ 64 ->
  (sk k = 0 -> g = []) /\ (0 < sk k -> exists l, numeral (sk k) l /\ g = operations l).
Proof. exact c65_operations. Qed.
Print Assumptions C65_operations.

Theorem C65_mont_operations : forall oc P k R g, m_log_mul oc P k = Ret (R, g) -> 0 <= sk k -> bits (sk k) < 2 ^ 64 ->
  (sk k = 0 -> g = []) /\ (0 < sk k -> exists l, numeral (sk k) l /\ g = operations l).
Proof. exact c65_mont_operations. Qed.
Print Assumptions C65_mont_operations.

Theorem C65_edw_operations : forall oc P k R g, e_log_mul oc P k = Ret (R, g) -> 0 <= sk k -> bits (sk k) < 2 ^ 64 ->
  (sk k = 0 -> g = []) /\ (0 < sk k -> exists l, numeral (sk k) l /\ g = operations l).
Proof. exact c65_edw_operations. Qed.
Print Assumptions C65_edw_operations.

(** one doubling per bit and one addition per bit that is 1 *)
Theorem C65_counts : forall n l, 0 < n -> numeral n l ->
  doublings (operations l) = Z.log2 n + 1 /\ additions (operations l) = ones (Z.to_nat (Z.log2 n + 1)) n.
Proof. exact c65_counts. Qed.
Print Assumptions C65_counts.

(** so the operations give the scalar away *)
Theorem C65_reveals : forall n n' l l', numeral n l -> numeral n' l' -> operations l = operations l' -> n = n'.
Proof. exact c65_reveals. Qed.
Print Assumptions C65_reveals.

(** the operations do not depend on the point, but their number depends on the scalar, even among scalars of one length *)
Theorem C65_same_number_refuted : exists e P k l R S g h, WPoints.wgroup e /\ valid_scalar (WCurve.c_r e) k /\ valid_scalar (WCurve.c_r e) l
  /\ bits (sk k) = bits (sk l) /\ w_log_mul true P k = Ret (R, g) /\ w_log_mul true P l = Ret (S, h) /\ List.length g <> List.length h.
Proof. exact c65_same_number_refuted. Qed.
Print Assumptions C65_same_number_refuted.

Example C65_ex : exists R, w_log_mul true (WeierProps.pt7 4 6 2) (mkScalar 5 11) = Ret (R, [Doubling; Addition; Doubling; Doubling; Addition])
  /\ WCurve.pt_mul true (WeierProps.pt7 4 6 2) (mkScalar 5 11) = Ret R /\ numeral 5 [true; false; true]
  /\ operations [true; false; true] = [Doubling; Addition; Doubling; Doubling; Addition] /\ ones 3 5 = 2
  /\ w_log_mul true (WeierProps.pt7 4 6 2) (mkScalar 0 11) = Panic "attempt to subtract with overflow"
  /\ exists O, w_log_mul false (WeierProps.pt7 4 6 2) (mkScalar 0 11) = Ret (O, []).
Proof. exact c65_ex. Qed.

Example C65_mont_ex : exists R, m_log_mul true (MontProps.pt19 12 2 2) (mkScalar 3 5) = Ret (R, [Doubling; Addition; Doubling; Addition]).
Proof. exact c65_mont_ex. Qed.

Example C65_edw_ex : exists R, e_log_mul true (EdwProps.pt29 6 10 1 2) (mkScalar 6 7) = Ret (R, [Doubling; Addition; Doubling; Addition; Doubling]).
Proof. exact c65_edw_ex. Qed.
