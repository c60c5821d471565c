(** Generated by tools/geninst.py: computations about one shipped curve. *)
From Coq Require Import ZArith Bool List.
From Verif.Proofs Require Import InstP.
Import ListNotations.
Open Scope Z_scope.

Lemma noroot_CURVE25519 : noroot_check 57896044618658097711785492504343953926634992332820282019728792003956564819949 486662 1 (-1) 8 [13333919749856007161615400341592404008995312576148998397828671423026149614476; 47703256669125318434657913387745193548382380329473079306949651000848558323864; 23514389461832592494741121943025980664378968193534757856631976913659148245642] = true.
Proof. vm_cast_no_check (eq_refl true). Qed.
Lemma order_CURVE25519 : mcheck 57896044618658097711785492504343953926634992332820282019728792003956564819949 486662 1 9 43114425171068552920764898935933967039370386198203806730763910166200978582548 7237005577332262213973186563042994240857116359379907606001950938285454250989 8 16 = true.
Proof. vm_cast_no_check (eq_refl true). Qed.
