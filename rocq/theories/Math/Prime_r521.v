(** Generated by tools/genprimes.py: a primality certificate. *)
From Coq Require Import ZArith Znumtheory List.
From Verif.Math Require Import Pock.
From Verif.Proofs Require Import ECPrime.
Import ListNotations.
Open Scope Z_scope.

Lemma q_401 : prime 401.
Proof. apply (trial_prime 401 19). vm_compute. reflexivity. Qed.
Lemma q_1439 : prime 1439.
Proof. apply (trial_prime 1439 36). vm_compute. reflexivity. Qed.
Lemma r_2 : prime 87773402291.
Proof.
  apply (pock_prime 87773402291 577039 2 [(401, 1%positive); (1439, 1%positive)]).
  - vm_cast_no_check (eq_refl true).
  - in_list; [exact q_401|exact q_1439].
Qed.
Lemma r_3 : prime 96922550652204677.
Proof.
  apply (pock_prime 96922550652204677 87773402291 2 [(87773402291, 1%positive)]).
  - vm_cast_no_check (eq_refl true).
  - in_list; [exact r_2].
Qed.
Lemma r_4 : prime 78443331455438264163635659.
Proof.
  apply (pock_prime 78443331455438264163635659 96922550652204677 2 [(96922550652204677, 1%positive)]).
  - vm_cast_no_check (eq_refl true).
  - in_list; [exact r_3].
Qed.
Lemma r_5 : prime 124473225397390091545186818664938573836189.
Proof.
  apply (pock_prime 124473225397390091545186818664938573836189 78443331455438264163635659 2 [(78443331455438264163635659, 1%positive)]).
  - vm_cast_no_check (eq_refl true).
  - in_list; [exact r_4].
Qed.
Lemma r_6 : prime 5419592505157102644294146559863175234996067325935193.
Proof.
  apply (pock_prime 5419592505157102644294146559863175234996067325935193 124473225397390091545186818664938573836189 2 [(124473225397390091545186818664938573836189, 1%positive)]).
  - vm_cast_no_check (eq_refl true).
  - in_list; [exact r_5].
Qed.
Lemma r_7 : prime 220539638909501172320513163464293306658308675375415634788821363130934318787076263030517.
Proof.
  apply (ec_prime 220539638909501172320513163464293306658308675375415634788821363130934318787076263030517 166679267168893636734914984200970236427323815357152070464798699007417279178819192793592 0 218724074722727545754052720537956305671730693091743853925768456057566732202677711846247 74342013972880603118911588827927140551815858877773976414660104930846347434729548443732 5419592505157102644294146559863175234996067325935193 10 16).
  - vm_cast_no_check (eq_refl true).
  - exact r_6.
Qed.
Lemma r_8 : prime 19461718858925540679277508522554507196235428718205448262527704323936543957413910601222721449317651650982966616354732873261229759.
Proof.
  apply (ec_prime 19461718858925540679277508522554507196235428718205448262527704323936543957413910601222721449317651650982966616354732873261229759 18740229146486166845212874942538338341810665487662700464897290218711776185718504546532459881576452246079137679559561301745300644 14292594142067809309055993158131188972703711522394557045721532300455425225342640647899812442473681574412194888635421741837345594 3480721440668176104057289638406983433040135454180813653113214444714229555080545415483170000378032739385764485121300130294163561 12153701965260073251032378062850114892550092076684938548697698037069298568553523214429482474845282962181536762593864562983755955 220539638909501172320513163464293306658308675375415634788821363130934318787076263030517 10 16).
  - vm_cast_no_check (eq_refl true).
  - exact r_7.
Qed.
Lemma prime_r521 : prime 6864797660130609714981900799081393217269435300143305409394463459185543183397655394245057746333217197532963996371363321113864768612440380340372808892707005449.
Proof.
  apply (ec_prime 6864797660130609714981900799081393217269435300143305409394463459185543183397655394245057746333217197532963996371363321113864768612440380340372808892707005449 3661494077687657136347797061741422736970380907973959546901475620369438294055162519299366173728709751973815724417859471287830745341486500705451948807949139363 2001209633731898876277368989614784591306377757521039591023584566564292176890320947702634246780197204989342782797164272096006621977524245920484450807173265450 2760755751134066246894270685252158827755410629972771577738847406212777057225035201482090999138122392612901024671064023121510695761312526259050105370314236971 1607709494574201207922322429341011495329353185056984589944353410959929531123569140956758475493738963071465159850477417245840904746426340348279865349911151028 19461718858925540679277508522554507196235428718205448262527704323936543957413910601222721449317651650982966616354732873261229759 10 16).
  - vm_cast_no_check (eq_refl true).
  - exact r_8.
Qed.
