(** Generated by tools/genprimes.py: a primality certificate. *)
From Coq Require Import ZArith Znumtheory List.
From Verif.Math Require Import Pock.
Import ListNotations.
Open Scope Z_scope.

Lemma q_11 : prime 11.
Proof. apply (trial_prime 11 2). vm_compute. reflexivity. Qed.
Lemma q_3769 : prime 3769.
Proof. apply (trial_prime 3769 60). vm_compute. reflexivity. Qed.
Lemma r_2 : prime 204061199.
Proof.
  apply (pock_prime 204061199 41459 3 [(11, 1%positive); (3769, 1%positive)]).
  - vm_cast_no_check (eq_refl true).
  - in_list; [exact q_11|exact q_3769].
Qed.
Lemma r_3 : prime 34282281433.
Proof.
  apply (pock_prime 34282281433 204061199 2 [(204061199, 1%positive)]).
  - vm_cast_no_check (eq_refl true).
  - in_list; [exact r_2].
Qed.
Lemma q_173 : prime 173.
Proof. apply (trial_prime 173 12). vm_compute. reflexivity. Qed.
Lemma q_3677 : prime 3677.
Proof. apply (trial_prime 3677 59). vm_compute. reflexivity. Qed.
Lemma r_6 : prime 66417393611.
Proof.
  apply (pock_prime 66417393611 636121 2 [(173, 1%positive); (3677, 1%positive)]).
  - vm_cast_no_check (eq_refl true).
  - in_list; [exact q_173|exact q_3677].
Qed.
Lemma r_7 : prime 11290956913871.
Proof.
  apply (pock_prime 11290956913871 66417393611 2 [(66417393611, 1%positive)]).
  - vm_cast_no_check (eq_refl true).
  - in_list; [exact r_6].
Qed.
Lemma r_8 : prime 774023187263532362759620327192479577272145303.
Proof.
  apply (pock_prime 774023187263532362759620327192479577272145303 387079762569202763457143 2 [(34282281433, 1%positive); (11290956913871, 1%positive)]).
  - vm_cast_no_check (eq_refl true).
  - in_list; [exact r_3|exact r_7].
Qed.
Lemma r_9 : prime 835945042244614951780389953367877943453916927241.
Proof.
  apply (pock_prime 835945042244614951780389953367877943453916927241 774023187263532362759620327192479577272145303 2 [(774023187263532362759620327192479577272145303, 1%positive)]).
  - vm_cast_no_check (eq_refl true).
  - in_list; [exact r_8].
Qed.
Lemma prime_p256 : prime 115792089210356248762697446949407573530086143415290314195533631308867097853951.
Proof.
  apply (pock_prime 115792089210356248762697446949407573530086143415290314195533631308867097853951 835945042244614951780389953367877943453916927241 2 [(835945042244614951780389953367877943453916927241, 1%positive)]).
  - vm_cast_no_check (eq_refl true).
  - in_list; [exact r_9].
Qed.
