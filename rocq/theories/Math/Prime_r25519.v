(** Generated by tools/genprimes.py: a primality certificate. *)
From Coq Require Import ZArith Znumtheory List.
From Verif.Math Require Import Pock.
Import ListNotations.
Open Scope Z_scope.

Lemma q_2 : prime 2.
Proof. apply (trial_prime 2 0). vm_compute. reflexivity. Qed.
Lemma q_23 : prime 23.
Proof. apply (trial_prime 23 3). vm_compute. reflexivity. Qed.
Lemma q_531581 : prime 531581.
Proof. apply (trial_prime 531581 728). vm_compute. reflexivity. Qed.
Lemma r_3 : prime 1257559732178653.
Proof.
  apply (pock_prime 1257559732178653 48905452 2 [(2, 2%positive); (23, 1%positive); (531581, 1%positive)]).
  - vm_cast_no_check (eq_refl true).
  - in_list; [exact q_2|exact q_23|exact q_531581].
Qed.
Lemma r_4 : prime 4434155615661930479.
Proof.
  apply (pock_prime 4434155615661930479 1257559732178653 2 [(1257559732178653, 1%positive)]).
  - vm_cast_no_check (eq_refl true).
  - in_list; [exact r_3].
Qed.
Lemma r_5 : prime 172054593956031949258510691.
Proof.
  apply (pock_prime 172054593956031949258510691 4434155615661930479 2 [(4434155615661930479, 1%positive)]).
  - vm_cast_no_check (eq_refl true).
  - in_list; [exact r_4].
Qed.
Lemma r_6 : prime 19757330305831588566944191468367130476339.
Proof.
  apply (pock_prime 19757330305831588566944191468367130476339 172054593956031949258510691 2 [(172054593956031949258510691, 1%positive)]).
  - vm_cast_no_check (eq_refl true).
  - in_list; [exact r_5].
Qed.
Lemma r_7 : prime 276602624281642239937218680557139826668747.
Proof.
  apply (pock_prime 276602624281642239937218680557139826668747 19757330305831588566944191468367130476339 2 [(19757330305831588566944191468367130476339, 1%positive)]).
  - vm_cast_no_check (eq_refl true).
  - in_list; [exact r_6].
Qed.
Lemma prime_r25519 : prime 7237005577332262213973186563042994240857116359379907606001950938285454250989.
Proof.
  apply (pock_prime 7237005577332262213973186563042994240857116359379907606001950938285454250989 276602624281642239937218680557139826668747 2 [(276602624281642239937218680557139826668747, 1%positive)]).
  - vm_cast_no_check (eq_refl true).
  - in_list; [exact r_7].
Qed.
