(** Generated by tools/genprimes.py: a primality certificate. *)
From Coq Require Import ZArith Znumtheory List.
From Verif.Math Require Import Pock.
Import ListNotations.
Open Scope Z_scope.

Lemma q_353 : prime 353.
Proof. apply (trial_prime 353 17). vm_compute. reflexivity. Qed.
Lemma q_75707 : prime 75707.
Proof. apply (trial_prime 75707 274). vm_compute. reflexivity. Qed.
Lemma q_7 : prime 7.
Proof. apply (trial_prime 7 1). vm_compute. reflexivity. Qed.
Lemma q_2 : prime 2.
Proof. apply (trial_prime 2 0). vm_compute. reflexivity. Qed.
Lemma q_991 : prime 991.
Proof. apply (trial_prime 991 30). vm_compute. reflexivity. Qed.
Lemma r_5 : prime 8574133.
Proof.
  apply (pock_prime 8574133 3964 2 [(2, 2%positive); (991, 1%positive)]).
  - vm_cast_no_check (eq_refl true).
  - in_list; [exact q_2|exact q_991].
Qed.
Lemma r_6 : prime 1919519569386763.
Proof.
  apply (pock_prime 1919519569386763 60018931 2 [(7, 1%positive); (8574133, 1%positive)]).
  - vm_cast_no_check (eq_refl true).
  - in_list; [exact q_7|exact r_5].
Qed.
Lemma r_7 : prime 75445702479781427272750846543864801.
Proof.
  apply (pock_prime 75445702479781427272750846543864801 145321068039563666441 2 [(75707, 1%positive); (1919519569386763, 1%positive)]).
  - vm_cast_no_check (eq_refl true).
  - in_list; [exact q_75707|exact r_6].
Qed.
Lemma r_8 : prime 74058212732561358302231226437062788676166966415465897661863160754340907.
Proof.
  apply (pock_prime 74058212732561358302231226437062788676166966415465897661863160754340907 26632332975362843827281048829984274753 2 [(353, 1%positive); (75445702479781427272750846543864801, 1%positive)]).
  - vm_cast_no_check (eq_refl true).
  - in_list; [exact q_353|exact r_7].
Qed.
Lemma prime_p25519 : prime 57896044618658097711785492504343953926634992332820282019728792003956564819949.
Proof.
  apply (pock_prime 57896044618658097711785492504343953926634992332820282019728792003956564819949 74058212732561358302231226437062788676166966415465897661863160754340907 2 [(74058212732561358302231226437062788676166966415465897661863160754340907, 1%positive)]).
  - vm_cast_no_check (eq_refl true).
  - in_list; [exact r_8].
Qed.
