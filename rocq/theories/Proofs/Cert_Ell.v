(** The opposites of the coefficients A of curve25519 and curve448 are not squares, and neither are the
    parameters of RFC 9380 (2 for curve25519, -1 for curve448). *)
From Coq Require Import ZArith Bool List.
From Verif.Proofs Require Import InstP.
Open Scope Z_scope.

Lemma nonsq_A25519 : nonsq_check 57896044618658097711785492504343953926634992332820282019728792003956564819949 57896044618658097711785492504343953926634992332820282019728792003956564333287 8 = true.
Proof. vm_cast_no_check (eq_refl true). Qed.
Lemma nonsq_A448 : nonsq_check 726838724295606890549323807888004534353641360687318060281490199180612328166730772686396383698676545930088884461843637361053498018365439 726838724295606890549323807888004534353641360687318060281490199180612328166730772686396383698676545930088884461843637361053498018209113 8 = true.
Proof. vm_cast_no_check (eq_refl true). Qed.
Lemma nonsq_Z25519 : nonsq_check 57896044618658097711785492504343953926634992332820282019728792003956564819949 2 8 = true.
Proof. vm_cast_no_check (eq_refl true). Qed.
Lemma nonsq_Z448 : nonsq_check 726838724295606890549323807888004534353641360687318060281490199180612328166730772686396383698676545930088884461843637361053498018365439 726838724295606890549323807888004534353641360687318060281490199180612328166730772686396383698676545930088884461843637361053498018365438 8 = true.
Proof. vm_cast_no_check (eq_refl true). Qed.
