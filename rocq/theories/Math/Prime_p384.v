(** Generated by tools/genprimes.py: a primality certificate. *)
From Coq Require Import ZArith Znumtheory List.
From Verif.Math Require Import Pock.
Import ListNotations.
Open Scope Z_scope.

Lemma q_59 : prime 59.
Proof. apply (trial_prime 59 6). vm_compute. reflexivity. Qed.
Lemma q_599 : prime 599.
Proof. apply (trial_prime 599 23). vm_compute. reflexivity. Qed.
Lemma r_2 : prime 513928823.
Proof.
  apply (pock_prime 513928823 35341 2 [(59, 1%positive); (599, 1%positive)]).
  - vm_cast_no_check (eq_refl true).
  - in_list; [exact q_59|exact q_599].
Qed.
Lemma r_3 : prime 53448597593.
Proof.
  apply (pock_prime 53448597593 513928823 2 [(513928823, 1%positive)]).
  - vm_cast_no_check (eq_refl true).
  - in_list; [exact r_2].
Qed.
Lemma r_4 : prime 1357291859799823621.
Proof.
  apply (pock_prime 1357291859799823621 53448597593 2 [(53448597593, 1%positive)]).
  - vm_cast_no_check (eq_refl true).
  - in_list; [exact r_3].
Qed.
Lemma q_363557 : prime 363557.
Proof. apply (trial_prime 363557 601). vm_compute. reflexivity. Qed.
Lemma r_6 : prime 532247449.
Proof.
  apply (pock_prime 532247449 363557 2 [(363557, 1%positive)]).
  - vm_cast_no_check (eq_refl true).
  - in_list; [exact q_363557].
Qed.
Lemma r_7 : prime 44925942675193.
Proof.
  apply (pock_prime 44925942675193 532247449 2 [(532247449, 1%positive)]).
  - vm_cast_no_check (eq_refl true).
  - in_list; [exact r_6].
Qed.
Lemma r_8 : prime 35581458644053887931343.
Proof.
  apply (pock_prime 35581458644053887931343 44925942675193 2 [(44925942675193, 1%positive)]).
  - vm_cast_no_check (eq_refl true).
  - in_list; [exact r_7].
Qed.
Lemma r_9 : prime 23964610537191310276190549303.
Proof.
  apply (pock_prime 23964610537191310276190549303 35581458644053887931343 2 [(35581458644053887931343, 1%positive)]).
  - vm_cast_no_check (eq_refl true).
  - in_list; [exact r_8].
Qed.
Lemma r_10 : prime 862725979338887169942859774909.
Proof.
  apply (pock_prime 862725979338887169942859774909 23964610537191310276190549303 2 [(23964610537191310276190549303, 1%positive)]).
  - vm_cast_no_check (eq_refl true).
  - in_list; [exact r_9].
Qed.
Lemma r_11 : prime 20705423504133292078628634597817.
Proof.
  apply (pock_prime 20705423504133292078628634597817 862725979338887169942859774909 2 [(862725979338887169942859774909, 1%positive)]).
  - vm_cast_no_check (eq_refl true).
  - in_list; [exact r_10].
Qed.
Lemma r_12 : prime 413244619895455989650825325680172591660047.
Proof.
  apply (pock_prime 413244619895455989650825325680172591660047 20705423504133292078628634597817 2 [(20705423504133292078628634597817, 1%positive)]).
  - vm_cast_no_check (eq_refl true).
  - in_list; [exact r_11].
Qed.
Lemma r_13 : prime 12397338596863679689524759770405177749801411.
Proof.
  apply (pock_prime 12397338596863679689524759770405177749801411 413244619895455989650825325680172591660047 2 [(413244619895455989650825325680172591660047, 1%positive)]).
  - vm_cast_no_check (eq_refl true).
  - in_list; [exact r_12].
Qed.
Lemma r_14 : prime 19173790298027098165721053155794528970226934547887232785722672956982046098136719667167519737147526097.
Proof.
  apply (pock_prime 19173790298027098165721053155794528970226934547887232785722672956982046098136719667167519737147526097 16826806760705239622682171547961506019973991922007845576929231 2 [(1357291859799823621, 1%positive); (12397338596863679689524759770405177749801411, 1%positive)]).
  - vm_cast_no_check (eq_refl true).
  - in_list; [exact r_4|exact r_13].
Qed.
Lemma prime_p384 : prime 39402006196394479212279040100143613805079739270465446667948293404245721771496870329047266088258938001861606973112319.
Proof.
  apply (pock_prime 39402006196394479212279040100143613805079739270465446667948293404245721771496870329047266088258938001861606973112319 19173790298027098165721053155794528970226934547887232785722672956982046098136719667167519737147526097 2 [(19173790298027098165721053155794528970226934547887232785722672956982046098136719667167519737147526097, 1%positive)]).
  - vm_cast_no_check (eq_refl true).
  - in_list; [exact r_14].
Qed.
