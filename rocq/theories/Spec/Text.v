(** What a decimal text is. *)
From Coq Require Import ZArith String Ascii.
From Verif.Spec Require Import Arith.
Open Scope Z_scope.

(** the usual decimal notation of n >= 0: digits 0-9 denoting n, no leading zero except in "0" *)
Definition decimal (s : string) (n : Z) : Prop :=
  numeral 10 s n /\ (forall t, s = String "0" t -> t = EmptyString).
