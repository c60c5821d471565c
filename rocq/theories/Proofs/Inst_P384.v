(** Generated by tools/geninst.py: computations about one shipped curve. *)
From Coq Require Import ZArith Bool List.
From Verif.Proofs Require Import InstP.
Import ListNotations.
Open Scope Z_scope.

Lemma noroot_P384 : noroot_check 39402006196394479212279040100143613805079739270465446667948293404245721771496870329047266088258938001861606973112319 0 (-3) 27580193559959705877849011840389048093056905856361568521428707301988689241309860865136260764883745107765439761230575 8 [23037766613497683937702734290281044719364893268180251583910224888989381657771069200037813904257325918671976092329602; 8235438212423615602427778915669574859600037698862346933589434399495169446996583974901273360826717582835190849638831; 12157362177932134139146813183752135342286725243554133716818896354380897714709611791313184492360272402950851405460538] = true.
Proof. vm_cast_no_check (eq_refl true). Qed.
Lemma order_P384 : wcheck 39402006196394479212279040100143613805079739270465446667948293404245721771496870329047266088258938001861606973112319 (-3) 27580193559959705877849011840389048093056905856361568521428707301988689241309860865136260764883745107765439761230575 26247035095799689268623156744566981891852923491109213387815615900925518854738050089022388053975719786650872476732087 8325710961489029985546751289520108179287853048861315594709205902480503199884419224438643760392947333078086511627871 39402006196394479212279040100143613805079739270465446667946905279627659399113263569398956308152294913554433653942643 8 16 = true.
Proof. vm_cast_no_check (eq_refl true). Qed.
