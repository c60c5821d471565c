(** Texts in which the two bytes of a radix prefix would cut a character. *)
From Coq Require Import ZArith String Ascii Bool.

(** a UTF-8 continuation byte: 10xxxxxx *)
Definition continuation (c : ascii) : Prop := let (_, _, _, _, _, _, b6, b7) := c in b7 = true /\ b6 = false.
(** after an optional '-', position 2 is inside a character *)
Definition cut_text (s : string) : Prop :=
  exists pre c0 c1 c2 rest, s = (pre ++ String c0 (String c1 (String c2 rest)))%string
    /\ (pre = "-"%string \/ (pre = ""%string /\ c0 <> "-"%char)) /\ continuation c2.
