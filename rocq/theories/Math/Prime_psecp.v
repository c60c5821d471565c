(** Generated by tools/genprimes.py: a primality certificate. *)
From Coq Require Import ZArith Znumtheory List.
From Verif.Math Require Import Pock.
Import ListNotations.
Open Scope Z_scope.

Lemma q_1627 : prime 1627.
Proof. apply (trial_prime 1627 39). vm_compute. reflexivity. Qed.
Lemma q_2657 : prime 2657.
Proof. apply (trial_prime 2657 50). vm_compute. reflexivity. Qed.
Lemma q_4423 : prime 4423.
Proof. apply (trial_prime 4423 65). vm_compute. reflexivity. Qed.
Lemma q_41201 : prime 41201.
Proof. apply (trial_prime 41201 201). vm_compute. reflexivity. Qed.
Lemma q_96557 : prime 96557.
Proof. apply (trial_prime 96557 309). vm_compute. reflexivity. Qed.
Lemma r_5 : prime 255515944373312847190720520512484175977.
Proof.
  apply (pock_prime 255515944373312847190720520512484175977 76065472551493819529 2 [(1627, 1%positive); (2657, 1%positive); (4423, 1%positive); (41201, 1%positive); (96557, 1%positive)]).
  - vm_cast_no_check (eq_refl true).
  - in_list; [exact q_1627|exact q_2657|exact q_4423|exact q_41201|exact q_96557].
Qed.
Lemma r_6 : prime 205115282021455665897114700593932402728804164701536103180137503955397371.
Proof.
  apply (pock_prime 205115282021455665897114700593932402728804164701536103180137503955397371 255515944373312847190720520512484175977 2 [(255515944373312847190720520512484175977, 1%positive)]).
  - vm_cast_no_check (eq_refl true).
  - in_list; [exact r_5].
Qed.
Lemma prime_psecp : prime 115792089237316195423570985008687907853269984665640564039457584007908834671663.
Proof.
  apply (pock_prime 115792089237316195423570985008687907853269984665640564039457584007908834671663 205115282021455665897114700593932402728804164701536103180137503955397371 2 [(205115282021455665897114700593932402728804164701536103180137503955397371, 1%positive)]).
  - vm_cast_no_check (eq_refl true).
  - in_list; [exact r_6].
Qed.
