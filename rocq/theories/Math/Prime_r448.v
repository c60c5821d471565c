(** Generated by tools/genprimes.py: a primality certificate. *)
From Coq Require Import ZArith Znumtheory List.
From Verif.Math Require Import Pock.
From Verif.Proofs Require Import ECPrime.
Import ListNotations.
Open Scope Z_scope.

Lemma q_63913 : prime 63913.
Proof. apply (trial_prime 63913 251). vm_compute. reflexivity. Qed.
Lemma r_1 : prime 1118860979.
Proof.
  apply (pock_prime 1118860979 63913 2 [(63913, 1%positive)]).
  - vm_cast_no_check (eq_refl true).
  - in_list; [exact q_63913].
Qed.
Lemma r_2 : prime 2128073582059.
Proof.
  apply (pock_prime 2128073582059 1118860979 2 [(1118860979, 1%positive)]).
  - vm_cast_no_check (eq_refl true).
  - in_list; [exact r_1].
Qed.
Lemma r_3 : prime 110659826267069.
Proof.
  apply (pock_prime 110659826267069 2128073582059 2 [(2128073582059, 1%positive)]).
  - vm_cast_no_check (eq_refl true).
  - in_list; [exact r_2].
Qed.
Lemma r_4 : prime 992559009691069436925557.
Proof.
  apply (pock_prime 992559009691069436925557 110659826267069 2 [(110659826267069, 1%positive)]).
  - vm_cast_no_check (eq_refl true).
  - in_list; [exact r_3].
Qed.
Lemma r_5 : prime 575013740661392940681411635465878238806181.
Proof.
  apply (pock_prime 575013740661392940681411635465878238806181 992559009691069436925557 2 [(992559009691069436925557, 1%positive)]).
  - vm_cast_no_check (eq_refl true).
  - in_list; [exact r_4].
Qed.
Lemma r_6 : prime 2764921654546385458193406781160480653177524300794526333463.
Proof.
  apply (pock_prime 2764921654546385458193406781160480653177524300794526333463 575013740661392940681411635465878238806181 2 [(575013740661392940681411635465878238806181, 1%positive)]).
  - vm_cast_no_check (eq_refl true).
  - in_list; [exact r_5].
Qed.
Lemma r_7 : prime 89074202622657865205830778715736286741524277033093616589203331595747557313616682866925401833.
Proof.
  apply (ec_prime 89074202622657865205830778715736286741524277033093616589203331595747557313616682866925401833 81976017857670572089718908952576632508490883737176352910204855468538405378206846124375838123 54668972860428823366686755232388774468175351723574407232989192565466496402294506609613079821 77278520035266483036922473653498594430905975317892389479405215655272764610925183396025324089 21077246822590445002229161136294954689303827655836784149984441930843080308522147327697686638 2764921654546385458193406781160480653177524300794526333463 10 16).
  - vm_cast_no_check (eq_refl true).
  - exact r_6.
Qed.
Lemma prime_r448 : prime 181709681073901722637330951972001133588410340171829515070372549795146003961539585716195755291692375963310293709091662304773755859649779.
Proof.
  apply (ec_prime 181709681073901722637330951972001133588410340171829515070372549795146003961539585716195755291692375963310293709091662304773755859649779 88573538879675260254178693225943875484097997767750783275112119998997955747648078031746804233651371023305452679720318589905725673104813 72228519371587369768938593107556389934062081027322786327202585746465598820838334876799114561059651101443311114575142525325503986590242 95090916789660600189157013691218938370786638001719568453211092491555471453293716187299118945548563314619249146669212136611801136931249 83439247030491993580466398774209202427825989108961057658504911125177029874637837826514962009755700803635029287130341725856301028588803 89074202622657865205830778715736286741524277033093616589203331595747557313616682866925401833 10 16).
  - vm_cast_no_check (eq_refl true).
  - exact r_7.
Qed.
