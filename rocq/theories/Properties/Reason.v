(** Why a text is refused: C13. *)

From Coq Require Import ZArith Lia String Ascii Bool List.
From Verif.Math Require Import Fld Zp Residue.
From Verif.Spec Require Import Arith Reasons.
From Verif.Model Require Import Out BigInt PrimeField.
From Verif.Proofs Require Import FieldP BytesP SerialProps.
Open Scope Z_scope.
From Verif.Proofs Require Import ReasonProps.

(** a refused text is refused while slicing exactly when the slice would cut a character, and while parsing otherwise *)
Theorem C13_panic_reason : forall p s msg, 0 < p -> from_str (fp_new p) s = Panic msg ->
  (cut_text s /\ msg = "byte index 2 is not a char boundary"%string)
  \/ (~ cut_text s /\ msg = "called `unwrap()` on an error value"%string).
Proof. exact c13_panic_reason. Qed.
Print Assumptions C13_panic_reason.

(** "1" followed by the two bytes of a character, and by a three-byte one *)
Example C13_reason_ex : from_str (fp_new 53) ("1" ++ String "195" (String "169" "")) = Panic "byte index 2 is not a char boundary"
  /\ cut_text ("1" ++ String "195" (String "191" ""))
  /\ from_str (fp_new 53) ("1" ++ String "195" (String "191" "")) = Panic "byte index 2 is not a char boundary"
  /\ from_str (fp_new 53) ("12" ++ String "195" (String "169" "")) = Panic "called `unwrap()` on an error value".
Proof. exact c13_reason_ex. Qed.
