(** The parameters z of the SSWU maps of RFC 9380 on P-256, P-384 and P-521 are not squares. *)
From Coq Require Import ZArith Bool List.
From Verif.Proofs Require Import InstP.
Open Scope Z_scope.

Lemma nonsq_P256 : nonsq_check 115792089210356248762697446949407573530086143415290314195533631308867097853951 (-10) 8 = true.
Proof. vm_cast_no_check (eq_refl true). Qed.
Lemma nonsq_P384 : nonsq_check 39402006196394479212279040100143613805079739270465446667948293404245721771496870329047266088258938001861606973112319 (-12) 8 = true.
Proof. vm_cast_no_check (eq_refl true). Qed.
Lemma nonsq_P521 : nonsq_check 6864797660130609714981900799081393217269435300143305409394463459185543183397656052122559640661454554977296311391480858037121987999716643812574028291115057151 (-4) 8 = true.
Proof. vm_cast_no_check (eq_refl true). Qed.
