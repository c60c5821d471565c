(** A^2 - 4 is not a square modulo the prime of curve448. *)
From Coq Require Import ZArith Bool List.
From Verif.Proofs Require Import InstP.
Open Scope Z_scope.

Lemma nonsq_disc448 : nonsq_check 726838724295606890549323807888004534353641360687318060281490199180612328166730772686396383698676545930088884461843637361053498018365439 24437818272 8 = true.
Proof. vm_cast_no_check (eq_refl true). Qed.
