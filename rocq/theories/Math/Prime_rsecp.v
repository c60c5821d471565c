(** Generated by tools/genprimes.py: a primality certificate. *)
From Coq Require Import ZArith Znumtheory List.
From Verif.Math Require Import Pock.
Import ListNotations.
Open Scope Z_scope.

Lemma q_2 : prime 2.
Proof. apply (trial_prime 2 0). vm_compute. reflexivity. Qed.
Lemma q_16699 : prime 16699.
Proof. apply (trial_prime 16699 128). vm_compute. reflexivity. Qed.
Lemma q_85831 : prime 85831.
Proof. apply (trial_prime 85831 291). vm_compute. reflexivity. Qed.
Lemma r_3 : prime 107361793816595537.
Proof.
  apply (pock_prime 107361793816595537 1433291869 2 [(16699, 1%positive); (85831, 1%positive)]).
  - vm_cast_no_check (eq_refl true).
  - in_list; [exact q_16699|exact q_85831].
Qed.
Lemma q_4051 : prime 4051.
Proof. apply (trial_prime 4051 62). vm_compute. reflexivity. Qed.
Lemma q_9349 : prime 9349.
Proof. apply (trial_prime 9349 95). vm_compute. reflexivity. Qed.
Lemma r_6 : prime 44706919.
Proof.
  apply (pock_prime 44706919 9349 2 [(9349, 1%positive)]).
  - vm_cast_no_check (eq_refl true).
  - in_list; [exact q_9349].
Qed.
Lemma r_7 : prime 174723607534414371449.
Proof.
  apply (pock_prime 174723607534414371449 181107728869 2 [(4051, 1%positive); (44706919, 1%positive)]).
  - vm_cast_no_check (eq_refl true).
  - in_list; [exact q_4051|exact r_6].
Qed.
Lemma prime_rsecp : prime 115792089237316195423570985008687907852837564279074904382605163141518161494337.
Proof.
  apply (pock_prime 115792089237316195423570985008687907852837564279074904382605163141518161494337 1200552955328099471671999852218471879232 5 [(2, 6%positive); (107361793816595537, 1%positive); (174723607534414371449, 1%positive)]).
  - vm_cast_no_check (eq_refl true).
  - in_list; [exact q_2|exact r_3|exact r_7].
Qed.
