(** Generated by tools/geninst.py: computations about one shipped curve. *)
From Coq Require Import ZArith Bool List.
From Verif.Proofs Require Import InstP.
Import ListNotations.
Open Scope Z_scope.

Lemma noroot_SECP256K1_3ISO : noroot_check 115792089237316195423570985008687907853269984665640564039457584007908834671663 0 28734576633528757162648956269730739219262246272443394170905244663053633733939 1771 8 [33108211069619291381323019740140250048902086546019007754589112886640606487906; 65746272900734094794520533722246501181568940661915114760907887598982590548231; 57932575872155370804526763766574765373972278683901743254616891686846668300176] = true.
Proof. vm_cast_no_check (eq_refl true). Qed.
Lemma order_SECP256K1_3ISO : wcheck 115792089237316195423570985008687907853269984665640564039457584007908834671663 28734576633528757162648956269730739219262246272443394170905244663053633733939 1771 75295888890003590383366995344834012177557063699577440394299653383124903397514 82553647407850972504999846303729620951309077682374043495922869307182479212755 115792089237316195423570985008687907852837564279074904382605163141518161494337 8 16 = true.
Proof. vm_cast_no_check (eq_refl true). Qed.
