(** Generated by tools/genprimes.py: a primality certificate. *)
From Coq Require Import ZArith Znumtheory List.
From Verif.Math Require Import Pock.
Import ListNotations.
Open Scope Z_scope.

Lemma q_251 : prime 251.
Proof. apply (trial_prime 251 14). vm_compute. reflexivity. Qed.
Lemma q_73 : prime 73.
Proof. apply (trial_prime 73 7). vm_compute. reflexivity. Qed.
Lemma q_233 : prime 233.
Proof. apply (trial_prime 233 14). vm_compute. reflexivity. Qed.
Lemma r_3 : prime 272109983.
Proof.
  apply (pock_prime 272109983 17009 2 [(73, 1%positive); (233, 1%positive)]).
  - vm_cast_no_check (eq_refl true).
  - in_list; [exact q_73|exact q_233].
Qed.
Lemma r_4 : prime 228572385721.
Proof.
  apply (pock_prime 228572385721 272109983 2 [(272109983, 1%positive)]).
  - vm_cast_no_check (eq_refl true).
  - in_list; [exact r_3].
Qed.
Lemma r_5 : prime 23314383343543.
Proof.
  apply (pock_prime 23314383343543 228572385721 2 [(228572385721, 1%positive)]).
  - vm_cast_no_check (eq_refl true).
  - in_list; [exact r_4].
Qed.
Lemma r_6 : prime 426632512014427833817.
Proof.
  apply (pock_prime 426632512014427833817 23314383343543 2 [(23314383343543, 1%positive)]).
  - vm_cast_no_check (eq_refl true).
  - in_list; [exact r_5].
Qed.
Lemma r_7 : prime 1495199339761412565498084319.
Proof.
  apply (pock_prime 1495199339761412565498084319 426632512014427833817 2 [(426632512014427833817, 1%positive)]).
  - vm_cast_no_check (eq_refl true).
  - in_list; [exact r_6].
Qed.
Lemma r_8 : prime 17942392077136950785977011829.
Proof.
  apply (pock_prime 17942392077136950785977011829 1495199339761412565498084319 2 [(1495199339761412565498084319, 1%positive)]).
  - vm_cast_no_check (eq_refl true).
  - in_list; [exact r_7].
Qed.
Lemma r_9 : prime 1059392654943455286185473617842338478315215895509773412096307.
Proof.
  apply (pock_prime 1059392654943455286185473617842338478315215895509773412096307 4503540411361374647280229969079 2 [(251, 1%positive); (17942392077136950785977011829, 1%positive)]).
  - vm_cast_no_check (eq_refl true).
  - in_list; [exact q_251|exact r_8].
Qed.
Lemma r_10 : prime 3055465788140352002733946906144561090641249606160407884365391979704929268480326390471.
Proof.
  apply (pock_prime 3055465788140352002733946906144561090641249606160407884365391979704929268480326390471 1059392654943455286185473617842338478315215895509773412096307 2 [(1059392654943455286185473617842338478315215895509773412096307, 1%positive)]).
  - vm_cast_no_check (eq_refl true).
  - in_list; [exact r_9].
Qed.
Lemma prime_r384 : prime 39402006196394479212279040100143613805079739270465446667946905279627659399113263569398956308152294913554433653942643.
Proof.
  apply (pock_prime 39402006196394479212279040100143613805079739270465446667946905279627659399113263569398956308152294913554433653942643 3055465788140352002733946906144561090641249606160407884365391979704929268480326390471 2 [(3055465788140352002733946906144561090641249606160407884365391979704929268480326390471, 1%positive)]).
  - vm_cast_no_check (eq_refl true).
  - in_list; [exact r_10].
Qed.
