(** Generated by tools/geninst.py: computations about one shipped curve. *)
From Coq Require Import ZArith Bool List.
From Verif.Proofs Require Import InstP.
Import ListNotations.
Open Scope Z_scope.

Lemma noroot_SECP256K1 : noroot_check 115792089237316195423570985008687907853269984665640564039457584007908834671663 0 0 7 8 [0; 0; 46758632835564736012269203954919337884311706168562511263687580192619680188360] = true.
Proof. vm_cast_no_check (eq_refl true). Qed.
Lemma order_SECP256K1 : wcheck 115792089237316195423570985008687907853269984665640564039457584007908834671663 0 7 55066263022277343669578718895168534326250603453777594175500187360389116729240 32670510020758816978083085130507043184471273380659243275938904335757337482424 115792089237316195423570985008687907852837564279074904382605163141518161494337 8 16 = true.
Proof. vm_cast_no_check (eq_refl true). Qed.
