(** Generated by tools/genprimes.py: a primality certificate. *)
From Coq Require Import ZArith Znumtheory List.
From Verif.Math Require Import Pock.
Import ListNotations.
Open Scope Z_scope.

Lemma q_2 : prime 2.
Proof. apply (trial_prime 2 0). vm_compute. reflexivity. Qed.
Lemma q_11 : prime 11.
Proof. apply (trial_prime 11 2). vm_compute. reflexivity. Qed.
Lemma q_19 : prime 19.
Proof. apply (trial_prime 19 3). vm_compute. reflexivity. Qed.
Lemma q_10177 : prime 10177.
Proof. apply (trial_prime 10177 99). vm_compute. reflexivity. Qed.
Lemma q_125527 : prime 125527.
Proof. apply (trial_prime 125527 353). vm_compute. reflexivity. Qed.
Lemma q_859267 : prime 859267.
Proof. apply (trial_prime 859267 925). vm_compute. reflexivity. Qed.
Lemma q_906349 : prime 906349.
Proof. apply (trial_prime 906349 951). vm_compute. reflexivity. Qed.
Lemma prime_rbls : prime 52435875175126190479447740508185965837690552500527637822603658699938581184513.
Proof.
  apply (pock_prime 52435875175126190479447740508185965837690552500527637822603658699938581184513 809435270409705325975970876576919191552 5 [(2, 32%positive); (11, 1%positive); (19, 1%positive); (10177, 1%positive); (125527, 1%positive); (859267, 1%positive); (906349, 2%positive)]).
  - vm_cast_no_check (eq_refl true).
  - in_list; [exact q_2|exact q_11|exact q_19|exact q_10177|exact q_125527|exact q_859267|exact q_906349].
Qed.
