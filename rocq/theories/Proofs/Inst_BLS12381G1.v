(** Generated by tools/geninst.py: computations about one shipped curve. *)
From Coq Require Import ZArith Bool List.
From Verif.Proofs Require Import InstP.
Import ListNotations.
Open Scope Z_scope.

Lemma noroot_BLS12381G1 : noroot_check 4002409555221667393417789825735904156556882819939007885332058136124031650490837864442687629129015664037894272559787 0 0 4 8 [0; 0; 1000602388805416848288324173873208079754105729848633517411273972340919538205171425491731769859297557207743673838251] = true.
Proof. vm_cast_no_check (eq_refl true). Qed.
Lemma order_BLS12381G1 : wcheck 4002409555221667393417789825735904156556882819939007885332058136124031650490837864442687629129015664037894272559787 0 4 3685416753713387016781088315183077757961620795782546409894578378688607592378376318836054947676345821548104185464507 1339506544944476473020471379941921221584933875938349620426543736416511423956333506472724655353366534992391756441569 52435875175126190479447740508185965837690552500527637822603658699938581184513 8 16 = true.
Proof. vm_cast_no_check (eq_refl true). Qed.
