(** Generated by tools/geninst.py: computations about one shipped curve. *)
From Coq Require Import ZArith Bool List.
From Verif.Proofs Require Import InstP.
Import ListNotations.
Open Scope Z_scope.

Lemma noroot_CURVE448 : noroot_check 726838724295606890549323807888004534353641360687318060281490199180612328166730772686396383698676545930088884461843637361053498018365439 156326 1 (-9) 8 [716144493036671870207473202020495909179498577067699702307105154073906791866555116560832673406836814462727491583700022189911803533648161; 490655332172728450315701562250907223768578418026160388902199243606053587900507800701174307410023059135746870316253673482570389685842604; 436223656262346402111979326307398885492878400974825533223497703360316764172075872223085892446678490127375499062813911775195515993880257] = true.
Proof. vm_cast_no_check (eq_refl true). Qed.
Lemma order_CURVE448 : mcheck 726838724295606890549323807888004534353641360687318060281490199180612328166730772686396383698676545930088884461843637361053498018365439 156326 3 5 355293926785568175264127502063783334808976399387714271831880898435169088786967410002932673765864550910142774147268105838985595290606362 181709681073901722637330951972001133588410340171829515070372549795146003961539585716195755291692375963310293709091662304773755859649779 8 16 = true.
Proof. vm_cast_no_check (eq_refl true). Qed.
