(** Generated by tools/geninst.py: computations about one shipped curve. *)
From Coq Require Import ZArith Bool List.
From Verif.Proofs Require Import InstP.
Import ListNotations.
Open Scope Z_scope.

Lemma noroot_P256 : noroot_check 115792089210356248762697446949407573530086143415290314195533631308867097853951 0 (-3) 41058363725152142129326129780047268409114441015993725554835256314039467401291 8 [76626890310466861426869089647039036757962535851890885406097439786770458211455; 74462945259064871768191128030512052509059297803194871526163573358218695456204; 34768139465301476436978405170953382516735956999154666452188405812258086013549] = true.
Proof. vm_cast_no_check (eq_refl true). Qed.
Lemma order_P256 : wcheck 115792089210356248762697446949407573530086143415290314195533631308867097853951 (-3) 41058363725152142129326129780047268409114441015993725554835256314039467401291 48439561293906451759052585252797914202762949526041747995844080717082404635286 36134250956749795798585127919587881956611106672985015071877198253568414405109 115792089210356248762697446949407573529996955224135760342422259061068512044369 8 16 = true.
Proof. vm_cast_no_check (eq_refl true). Qed.
