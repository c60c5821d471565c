(** C11-C13: bytes and texts of prime field elements. *)

From Coq Require Import ZArith Znumtheory Lia String Ascii Bool List.
From Verif.Math Require Import Zp.
From Verif.Spec Require Import Arith.
From Verif.Model Require Import Out BigInt PrimeField.
From Verif.Proofs Require Import FieldP FieldProps BytesP.
Import ListNotations.
Open Scope Z_scope.
From Verif.Proofs Require Import SerialProps.

(** size_bytes() bytes, never a panic, the base-256 digits of the residue; _le is the reverse *)
Theorem C11_to_bytes : forall p x, valid p x ->
  exists b, elt_to_bytes_be x = Ret b /\ elt_to_bytes_le x = Ret (rev b)
    /\ Z.of_nat (length b) = size_bytes (fp_new p) /\ Forall is_byte b /\ be_value b = val x
    /\ le_value (rev b) = val x.
Proof. exact c11_to_bytes. Qed.
Print Assumptions C11_to_bytes.

(** size_bytes is the number of bytes the residues modulo p need *)
Theorem C11_size_bytes : forall p, 0 < p -> byte_size p (size_bytes (fp_new p)).
Proof. exact c11_size_bytes. Qed.
Print Assumptions C11_size_bytes.

Theorem C11_round_trip : forall p x b, valid p x ->
  (elt_to_bytes_be x = Ret b -> fp_from_bytes_be (fp_new p) b = Ret (Ok x))
  /\ (elt_to_bytes_le x = Ret b -> fp_from_bytes_le (fp_new p) b = Ret (Ok x)).
Proof. exact c11_round_trip. Qed.
Print Assumptions C11_round_trip.

Theorem C11_injective : forall p x y, valid p x -> valid p y ->
  (elt_to_bytes_be x = elt_to_bytes_be y -> x = y) /\ (elt_to_bytes_le x = elt_to_bytes_le y -> x = y).
Proof. exact c11_injective. Qed.
Print Assumptions C11_injective.

Example C11_ex : elt_to_bytes_be (mkFpElt 258 (mkFp 65537)) = Ret [0; 1; 2]
  /\ elt_to_bytes_le (mkFpElt 258 (mkFp 65537)) = Ret [2; 1; 0]
  /\ size_bytes (mkFp 65537) = 3 /\ valid 65537 (mkFpElt 258 (mkFp 65537)).
Proof. exact c11_ex. Qed.

Theorem C12_from_bytes_total : forall p l, 0 < p ->
  (exists x, fp_from_bytes_be (fp_new p) l = Ret (Ok x) /\ fld x = fp_new p /\ residue p (be_value l) (val x))
  /\ (exists x, fp_from_bytes_le (fp_new p) l = Ret (Ok x) /\ fld x = fp_new p /\ residue p (le_value l) (val x)).
Proof. exact c12_from_bytes_total. Qed.
Print Assumptions C12_from_bytes_total.

Example C12_ex : fp_from_bytes_be (fp_new 53) [255; 1; 7] = Ret (Ok (mkFpElt 36 (mkFp 53)))
  /\ fp_from_bytes_le (fp_new 53) [] = Ret (Ok (mkFpElt 0 (mkFp 53)))
  /\ be_value [255; 1; 7] = 65536 * 255 + 256 + 7.
Proof. exact c12_ex. Qed.

(** the texts accepted are exactly the literals of the grammar, with the residue of their value;
    every other text panics *)
Theorem C13_from_str : forall p s, 0 < p ->
  (forall n, literal s n -> exists x, from_str (fp_new p) s = Ret x /\ fld x = fp_new p /\ residue p n (val x))
  /\ ((forall n, ~ literal s n) -> exists msg, from_str (fp_new p) s = Panic msg).
Proof. exact c13_from_str. Qed.
Print Assumptions C13_from_str.

(** the plain cases: digits, 0x/0o/0b digits, and each with a leading '-' *)
Theorem C13_plain_numbers : forall p r pre s n, 0 < p -> radix_text r pre -> numeral r s n ->
  (exists x, from_str (fp_new p) (pre ++ s) = Ret x /\ fld x = fp_new p /\ residue p n (val x))
  /\ (exists x, from_str (fp_new p) ("-" ++ pre ++ s) = Ret x /\ fld x = fp_new p /\ residue p (- n) (val x)).
Proof. exact c13_plain_numbers. Qed.
Print Assumptions C13_plain_numbers.

Theorem C13_empty_text : forall p, 0 < p -> exists x, from_str (fp_new p) "" = Ret x /\ val x = 0 /\ fld x = fp_new p.
Proof. exact c13_empty_text. Qed.
Print Assumptions C13_empty_text.

(** parsing the Display text of an element gives it back *)
Theorem C13_display_round_trip : forall p x, valid p x ->
  exists s, elt_show x = Ret s /\ numeral 10 s (val x) /\ from_str (fp_new p) s = Ret x.
Proof. exact c13_display_round_trip. Qed.
Print Assumptions C13_display_round_trip.

(** "malformed text never yields a value" fails for texts with two signs: they are accepted *)
Theorem C13_double_sign_refuted : forall p, 5 < p ->
  exists x y, from_str (fp_new p) "--5" = Ret x /\ val x = 5
    /\ from_str (fp_new p) "0x-5_" = Ret y /\ val y = p - 5.
Proof. exact c13_double_sign_refuted. Qed.
Print Assumptions C13_double_sign_refuted.

Example C13_ex : from_str (fp_new 53) "-0x1F" = Ret (mkFpElt 22 (mkFp 53))
  /\ from_str (fp_new 53) "1234" = Ret (mkFpElt 15 (mkFp 53))
  /\ from_str (fp_new 53) "0b12" = Panic "called `unwrap()` on an error value"
  /\ numeral 16 "1F" 31 /\ (forall n, ~ literal "0b12" n).
Proof. exact c13_ex. Qed.
