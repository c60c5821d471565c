(** Generated by tools/genprimes.py: a primality certificate. *)
From Coq Require Import ZArith Znumtheory List.
From Verif.Math Require Import Pock.
Import ListNotations.
Open Scope Z_scope.

Lemma q_104471 : prime 104471.
Proof. apply (trial_prime 104471 322). vm_compute. reflexivity. Qed.
Lemma r_1 : prime 3969899.
Proof.
  apply (pock_prime 3969899 104471 2 [(104471, 1%positive)]).
  - vm_cast_no_check (eq_refl true).
  - in_list; [exact q_104471].
Qed.
Lemma r_2 : prime 1002328039319.
Proof.
  apply (pock_prime 1002328039319 3969899 2 [(3969899, 1%positive)]).
  - vm_cast_no_check (eq_refl true).
  - in_list; [exact r_1].
Qed.
Lemma q_3 : prime 3.
Proof. apply (trial_prime 3 0). vm_compute. reflexivity. Qed.
Lemma q_155317 : prime 155317.
Proof. apply (trial_prime 155317 393). vm_compute. reflexivity. Qed.
Lemma r_5 : prime 191039911.
Proof.
  apply (pock_prime 191039911 155317 2 [(155317, 1%positive)]).
  - vm_cast_no_check (eq_refl true).
  - in_list; [exact q_155317].
Qed.
Lemma r_6 : prime 208150935158385979.
Proof.
  apply (pock_prime 208150935158385979 573119733 2 [(3, 1%positive); (191039911, 1%positive)]).
  - vm_cast_no_check (eq_refl true).
  - in_list; [exact q_3|exact r_5].
Qed.
Lemma r_7 : prime 2624747550333869278416773953.
Proof.
  apply (pock_prime 2624747550333869278416773953 208150935158385979 2 [(208150935158385979, 1%positive)]).
  - vm_cast_no_check (eq_refl true).
  - in_list; [exact r_6].
Qed.
Lemma prime_r256 : prime 115792089210356248762697446949407573529996955224135760342422259061068512044369.
Proof.
  apply (pock_prime 115792089210356248762697446949407573529996955224135760342422259061068512044369 2630858065833495457674334360831719058007 2 [(1002328039319, 1%positive); (2624747550333869278416773953, 1%positive)]).
  - vm_cast_no_check (eq_refl true).
  - in_list; [exact r_2|exact r_7].
Qed.
