(** Generated by tools/geninst.py: computations about one shipped curve. *)
From Coq Require Import ZArith Bool List.
From Verif.Proofs Require Import InstP.
Import ListNotations.
Open Scope Z_scope.

Lemma nonsq_EDWARDS25519 : nonsq_check 57896044618658097711785492504343953926634992332820282019728792003956564819949 37095705934669439343138083508754565189542113879843219016388785533085940283555 8 = true.
Proof. vm_cast_no_check (eq_refl true). Qed.
Lemma order_EDWARDS25519 : echeck 57896044618658097711785492504343953926634992332820282019728792003956564819949 (-1) 37095705934669439343138083508754565189542113879843219016388785533085940283555 15112221349535400772501151409588531511454012693041857206046113283949847762202 46316835694926478169428394003475163141307993866256225615783033603165251855960 7237005577332262213973186563042994240857116359379907606001950938285454250989 8 16 = true.
Proof. vm_cast_no_check (eq_refl true). Qed.
