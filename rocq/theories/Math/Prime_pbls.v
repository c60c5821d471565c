(** Generated by tools/genprimes.py: a primality certificate. *)
From Coq Require Import ZArith Znumtheory List.
From Verif.Math Require Import Pock.
Import ListNotations.
Open Scope Z_scope.

Lemma q_5 : prime 5.
Proof. apply (trial_prime 5 1). vm_compute. reflexivity. Qed.
Lemma q_421987 : prime 421987.
Proof. apply (trial_prime 421987 648). vm_compute. reflexivity. Qed.
Lemma r_2 : prime 13090036741.
Proof.
  apply (pock_prime 13090036741 421987 2 [(421987, 1%positive)]).
  - vm_cast_no_check (eq_refl true).
  - in_list; [exact q_421987].
Qed.
Lemma r_3 : prime 3819663927398918131021.
Proof.
  apply (pock_prime 3819663927398918131021 65450183705 3 [(5, 1%positive); (13090036741, 1%positive)]).
  - vm_cast_no_check (eq_refl true).
  - in_list; [exact q_5|exact r_2].
Qed.
Lemma r_4 : prime 1125266252156850182658904441386709967.
Proof.
  apply (pock_prime 1125266252156850182658904441386709967 3819663927398918131021 2 [(3819663927398918131021, 1%positive)]).
  - vm_cast_no_check (eq_refl true).
  - in_list; [exact r_3].
Qed.
Lemma r_5 : prime 15778400344354997994418419698270088123916926905054652752758194827714659.
Proof.
  apply (pock_prime 15778400344354997994418419698270088123916926905054652752758194827714659 1125266252156850182658904441386709967 2 [(1125266252156850182658904441386709967, 1%positive)]).
  - vm_cast_no_check (eq_refl true).
  - in_list; [exact r_4].
Qed.
Lemma prime_pbls : prime 4002409555221667393417789825735904156556882819939007885332058136124031650490837864442687629129015664037894272559787.
Proof.
  apply (pock_prime 4002409555221667393417789825735904156556882819939007885332058136124031650490837864442687629129015664037894272559787 15778400344354997994418419698270088123916926905054652752758194827714659 2 [(15778400344354997994418419698270088123916926905054652752758194827714659, 1%positive)]).
  - vm_cast_no_check (eq_refl true).
  - in_list; [exact r_5].
Qed.
