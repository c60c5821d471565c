(** Generated by tools/genprimes.py: a primality certificate. *)
From Coq Require Import ZArith Znumtheory List.
From Verif.Math Require Import Pock.
Import ListNotations.
Open Scope Z_scope.

Lemma q_5 : prime 5.
Proof. apply (trial_prime 5 1). vm_compute. reflexivity. Qed.
Lemma q_17 : prime 17.
Proof. apply (trial_prime 17 3). vm_compute. reflexivity. Qed.
Lemma q_41 : prime 41.
Proof. apply (trial_prime 41 5). vm_compute. reflexivity. Qed.
Lemma q_53 : prime 53.
Proof. apply (trial_prime 53 6). vm_compute. reflexivity. Qed.
Lemma q_131 : prime 131.
Proof. apply (trial_prime 131 10). vm_compute. reflexivity. Qed.
Lemma q_157 : prime 157.
Proof. apply (trial_prime 157 11). vm_compute. reflexivity. Qed.
Lemma q_521 : prime 521.
Proof. apply (trial_prime 521 21). vm_compute. reflexivity. Qed.
Lemma q_1613 : prime 1613.
Proof. apply (trial_prime 1613 39). vm_compute. reflexivity. Qed.
Lemma q_2731 : prime 2731.
Proof. apply (trial_prime 2731 51). vm_compute. reflexivity. Qed.
Lemma q_8191 : prime 8191.
Proof. apply (trial_prime 8191 89). vm_compute. reflexivity. Qed.
Lemma q_42641 : prime 42641.
Proof. apply (trial_prime 42641 205). vm_compute. reflexivity. Qed.
Lemma q_51481 : prime 51481.
Proof. apply (trial_prime 51481 225). vm_compute. reflexivity. Qed.
Lemma q_61681 : prime 61681.
Proof. apply (trial_prime 61681 247). vm_compute. reflexivity. Qed.
Lemma q_409891 : prime 409891.
Proof. apply (trial_prime 409891 639). vm_compute. reflexivity. Qed.
Lemma q_858001 : prime 858001.
Proof. apply (trial_prime 858001 925). vm_compute. reflexivity. Qed.
Lemma q_317 : prime 317.
Proof. apply (trial_prime 317 16). vm_compute. reflexivity. Qed.
Lemma r_16 : prime 7623851.
Proof.
  apply (pock_prime 7623851 7925 3 [(5, 2%positive); (317, 1%positive)]).
  - vm_cast_no_check (eq_refl true).
  - in_list; [exact q_5|exact q_317].
Qed.
Lemma q_49481 : prime 49481.
Proof. apply (trial_prime 49481 221). vm_compute. reflexivity. Qed.
Lemma r_18 : prime 308761441.
Proof.
  apply (pock_prime 308761441 49481 3 [(49481, 1%positive)]).
  - vm_cast_no_check (eq_refl true).
  - in_list; [exact q_49481].
Qed.
Lemma q_2 : prime 2.
Proof. apply (trial_prime 2 0). vm_compute. reflexivity. Qed.
Lemma q_151 : prime 151.
Proof. apply (trial_prime 151 11). vm_compute. reflexivity. Qed.
Lemma r_21 : prime 8620289.
Proof.
  apply (pock_prime 8620289 38656 3 [(2, 8%positive); (151, 1%positive)]).
  - vm_cast_no_check (eq_refl true).
  - in_list; [exact q_2|exact q_151].
Qed.
Lemma r_22 : prime 2534364967.
Proof.
  apply (pock_prime 2534364967 8620289 2 [(8620289, 1%positive)]).
  - vm_cast_no_check (eq_refl true).
  - in_list; [exact r_21].
Qed.
Lemma r_23 : prime 145295143558111.
Proof.
  apply (pock_prime 145295143558111 2534364967 3 [(2534364967, 1%positive)]).
  - vm_cast_no_check (eq_refl true).
  - in_list; [exact r_22].
Qed.
Lemma prime_p521 : prime 6864797660130609714981900799081393217269435300143305409394463459185543183397656052122559640661454554977296311391480858037121987999716643812574028291115057151.
Proof.
  apply (pock_prime 6864797660130609714981900799081393217269435300143305409394463459185543183397656052122559640661454554977296311391480858037121987999716643812574028291115057151 5815416397305105399462772618967298491310893456777339258647634800414190059588525 3 [(5, 2%positive); (17, 1%positive); (41, 1%positive); (53, 1%positive); (131, 1%positive); (157, 1%positive); (521, 1%positive); (1613, 1%positive); (2731, 1%positive); (8191, 1%positive); (42641, 1%positive); (51481, 1%positive); (61681, 1%positive); (409891, 1%positive); (858001, 1%positive); (7623851, 1%positive); (308761441, 1%positive); (145295143558111, 1%positive)]).
  - vm_cast_no_check (eq_refl true).
  - in_list; [exact q_5|exact q_17|exact q_41|exact q_53|exact q_131|exact q_157|exact q_521|exact q_1613|exact q_2731|exact q_8191|exact q_42641|exact q_51481|exact q_61681|exact q_409891|exact q_858001|exact r_16|exact r_18|exact r_23].
Qed.
