(** Generated by tools/geninst.py: computations about one shipped curve. *)
From Coq Require Import ZArith Bool List.
From Verif.Proofs Require Import InstP.
Import ListNotations.
Open Scope Z_scope.

Lemma noroot_BLS12381G1_11ISO : noroot_check 4002409555221667393417789825735904156556882819939007885332058136124031650490837864442687629129015664037894272559787 0 12190336318893619529228877361869031420615612348429846051986726275283378313155663745811710833465465981901188123677 2906670324641927570491258158026293881577086121416628140204402091718288198173574630967936031029026176254968826637280 8 [3581225145818981921445159253799615720572315773894215409904203560110593237003590012172603947903194115860537229842822; 3708658914933914521789474239292798600556172903603147920794624420315079435135156955125382553326179664922229068677916; 309252305941472786928943141161856545374972085262673275331767348695194384529507520456342192859544500756946320939011] = true.
Proof. vm_cast_no_check (eq_refl true). Qed.
Lemma order_BLS12381G1_11ISO : wcheck 4002409555221667393417789825735904156556882819939007885332058136124031650490837864442687629129015664037894272559787 12190336318893619529228877361869031420615612348429846051986726275283378313155663745811710833465465981901188123677 2906670324641927570491258158026293881577086121416628140204402091718288198173574630967936031029026176254968826637280 1020232295111649411126762359530270833151925872915888263107080350435116244445972822132949957555221231229957568042978 572738012940399893876716047881377207991025392386390068007901896139525257801331726850963609787517204283814804267188 52435875175126190479447740508185965837690552500527637822603658699938581184513 8 16 = true.
Proof. vm_cast_no_check (eq_refl true). Qed.
