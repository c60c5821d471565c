(** Generated by tools/genprimes.py: a primality certificate. *)
From Coq Require Import ZArith Znumtheory List.
From Verif.Math Require Import Pock.
Import ListNotations.
Open Scope Z_scope.

Lemma q_2 : prime 2.
Proof. apply (trial_prime 2 0). vm_compute. reflexivity. Qed.
Lemma q_23 : prime 23.
Proof. apply (trial_prime 23 3). vm_compute. reflexivity. Qed.
Lemma q_59 : prime 59.
Proof. apply (trial_prime 59 6). vm_compute. reflexivity. Qed.
Lemma r_3 : prime 1609403.
Proof.
  apply (pock_prime 1609403 1357 2 [(23, 1%positive); (59, 1%positive)]).
  - vm_cast_no_check (eq_refl true).
  - in_list; [exact q_23|exact q_59].
Qed.
Lemma r_4 : prime 3402277943.
Proof.
  apply (pock_prime 3402277943 1609403 2 [(1609403, 1%positive)]).
  - vm_cast_no_check (eq_refl true).
  - in_list; [exact r_3].
Qed.
Lemma r_5 : prime 1469495262398780123809.
Proof.
  apply (pock_prime 1469495262398780123809 108872894176 17 [(2, 5%positive); (3402277943, 1%positive)]).
  - vm_cast_no_check (eq_refl true).
  - in_list; [exact q_2|exact r_4].
Qed.
Lemma q_217003 : prime 217003.
Proof. apply (trial_prime 217003 464). vm_compute. reflexivity. Qed.
Lemma r_7 : prime 1764234391.
Proof.
  apply (pock_prime 1764234391 217003 2 [(217003, 1%positive)]).
  - vm_cast_no_check (eq_refl true).
  - in_list; [exact q_217003].
Qed.
Lemma r_8 : prime 34741861125639557.
Proof.
  apply (pock_prime 34741861125639557 1764234391 2 [(1764234391, 1%positive)]).
  - vm_cast_no_check (eq_refl true).
  - in_list; [exact r_7].
Qed.
Lemma r_9 : prime 36131535570665139281.
Proof.
  apply (pock_prime 36131535570665139281 34741861125639557 2 [(34741861125639557, 1%positive)]).
  - vm_cast_no_check (eq_refl true).
  - in_list; [exact r_8].
Qed.
Lemma r_10 : prime 596242599987116128415063.
Proof.
  apply (pock_prime 596242599987116128415063 36131535570665139281 3 [(36131535570665139281, 1%positive)]).
  - vm_cast_no_check (eq_refl true).
  - in_list; [exact r_9].
Qed.
Lemma q_3 : prime 3.
Proof. apply (trial_prime 3 0). vm_compute. reflexivity. Qed.
Lemma q_2963 : prime 2963.
Proof. apply (trial_prime 2963 53). vm_compute. reflexivity. Qed.
Lemma r_13 : prime 36753053.
Proof.
  apply (pock_prime 36753053 11852 2 [(2, 2%positive); (2963, 1%positive)]).
  - vm_cast_no_check (eq_refl true).
  - in_list; [exact q_2|exact q_2963].
Qed.
Lemma q_116989 : prime 116989.
Proof. apply (trial_prime 116989 341). vm_compute. reflexivity. Qed.
Lemma r_15 : prime 1255525949.
Proof.
  apply (pock_prime 1255525949 116989 2 [(116989, 1%positive)]).
  - vm_cast_no_check (eq_refl true).
  - in_list; [exact q_116989].
Qed.
Lemma r_16 : prime 37414057161322375957408148834323969.
Proof.
  apply (pock_prime 37414057161322375957408148834323969 415299705718250673 3 [(3, 2%positive); (36753053, 1%positive); (1255525949, 1%positive)]).
  - vm_cast_no_check (eq_refl true).
  - in_list; [exact q_3|exact r_13|exact r_15].
Qed.
Lemma prime_p448 : prime 726838724295606890549323807888004534353641360687318060281490199180612328166730772686396383698676545930088884461843637361053498018365439.
Proof.
  apply (pock_prime 726838724295606890549323807888004534353641360687318060281490199180612328166730772686396383698676545930088884461843637361053498018365439 32781286822283458187724538908930243071165065029503595994185021601794823310724023 2 [(1469495262398780123809, 1%positive); (596242599987116128415063, 1%positive); (37414057161322375957408148834323969, 1%positive)]).
  - vm_cast_no_check (eq_refl true).
  - in_list; [exact r_5|exact r_10|exact r_16].
Qed.
