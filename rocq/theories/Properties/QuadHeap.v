(** C50 for the quadratic field: reference counts of an Fp2 and of the base field it owns. *)

From Coq Require Import ZArith Bool List Lia.
From Verif.Model Require Import SqrtCache QuadHeap.
From Verif.Proofs Require Import CacheProps.
Import ListNotations.
Local Open Scope Z_scope.
From Verif.Proofs Require Import QuadHeapProps.

(** While the user owns a field or an element, neither allocation has been freed. *)
Theorem C50_quadratic_no_early_free : forall p ops h fs es, qheap_run p ops = (h, fs, es) ->
  (fs <> 0%nat \/ es <> 0%nat) -> q_freed h = false /\ freed (q_base h) = false.
Proof. exact c50_quadratic_no_early_free. Qed.
Print Assumptions C50_quadratic_no_early_free.

(** When the user's last field and last element are gone both allocations are freed, whatever the
    modulus and whatever was called before, square roots that panicked included. *)
Theorem C50_quadratic_reclaimed : forall p ops h, qheap_run p ops = (h, 0%nat, 0%nat) ->
  q_freed h = true /\ freed (q_base h) = true.
Proof. exact c50_quadratic_reclaimed. Qed.
Print Assumptions C50_quadratic_reclaimed.

(** The counts are exactly what the owner holds: a field counts once, an element once for the field and
    twice for the base, which the field's own allocation holds once. *)
Theorem C50_quadratic_counts : forall p ops h fs es, qheap_run p ops = (h, fs, es) ->
  q_strong h = Z.of_nat fs + Z.of_nat es
  /\ strong (q_base h) = 2 * Z.of_nat es + (if q_freed h then 0 else 1)
  /\ filled (q_base h) = false.
Proof. exact c50_quadratic_counts. Qed.
Print Assumptions C50_quadratic_counts.

(** The cell of the constants is filled by the first square root of an element for p = 3 mod 4, and by nothing else. *)
Theorem C50_quadratic_filled : forall p ops h fs es, 0 < p -> qheap_run p ops = (h, fs, es) ->
  (q_filled h = true <-> p mod 4 = 3 /\ exists before after h' fs' es',
     ops = before ++ QSqrt :: after /\ qheap_run p before = (h', fs', S es')).
Proof. exact c50_quadratic_filled. Qed.
Print Assumptions C50_quadratic_filled.

(** The modulus 13 is 5 mod 8, where a prime field that took a square root is never freed. *)
Example C50_quadratic_ex :
  qheap_run 13 [QElt; QElt; QMul; QDiv; QSqrt; QDrop; QInv; QEltDrop; QEltDrop]
    = (mkQHeap 3 false false (mkHeap 7 0 false false), 0%nat, 3%nat)
  /\ qheap_run 7 [QElt; QSqrt; QClone; QDrop; QDrop; QEltDrop] = (mkQHeap 0 true true (mkHeap 0 0 false true), 0%nat, 0%nat)
  /\ qheap_run 13 [QElt; QSqrt; QEltDrop; QDrop] = (mkQHeap 0 false true (mkHeap 0 0 false true), 0%nat, 0%nat).
Proof. exact c50_quadratic_ex. Qed.
