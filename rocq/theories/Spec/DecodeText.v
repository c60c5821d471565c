(** Why a decode fails: the text of the error for each kind of bad input, for the SEC1 forms and for the Edwards form. *)
From Coq Require Import ZArith List String.
From Verif.Spec Require Import Arith Curve.
Import ListNotations.
Open Scope Z_scope.

(** a tag, n bytes, and nothing or n bytes more *)
Definition framed (n : Z) (buf : list Z) (tag : Z) (xs ys : list Z) : Prop :=
  buf = tag :: xs ++ ys /\ Z.of_nat (List.length xs) = n /\ (ys = [] \/ Z.of_nat (List.length ys) = n).
(** the text for an input that is refused *)
Definition sec1_error (p n : Z) (buf : list Z) (m : string) : Prop :=
  (~ In (Z.of_nat (List.length buf)) [1; n + 1; 2 * n + 1] /\ m = "Wrong input buffer size."%string)
  \/ exists tag xs ys, framed n buf tag xs ys /\
     ((p <= be_value xs /\ m = "Invalid x coordinate"%string)
      \/ (be_value xs < p /\
          ((tag = 0 /\ m = "Point at infinity should just be a single zero byte"%string)
           \/ (((tag = 4 /\ ys = []) \/ ((tag = 2 \/ tag = 3) /\ ys <> [])) /\ m = "Invalid bytes for deserialization"%string)
           \/ (tag = 4 /\ ys <> [] /\ p <= be_value ys /\ m = "Invalid y coordinate"%string)
           \/ (~ In tag [0; 2; 3; 4] /\ m = "Invalid tag specified"%string)))).
(** the text of the panic, where [on] says which pairs are points of the curve *)
Definition sec1_panic (p n : Z) (on : Z -> Z -> Prop) (buf : list Z) (m : string) : Prop :=
  (List.length buf = 1%nat /\ m = "range end index out of range for slice"%string)
  \/ (m = "not valid point"%string
      /\ exists tag xs ys, framed n buf tag xs ys /\ be_value xs < p /\
         (((tag = 2 \/ tag = 3) /\ ys = [] /\ forall y, ~ on (be_value xs) y)
          \/ (tag = 4 /\ ys <> [] /\ be_value ys < p /\ ~ on (be_value xs) (be_value ys)))).

(** the Edwards form: the value y and the sign bit of a text of n bytes *)
Definition ed_error (p n : Z) (buf : list Z) (m : string) : Prop :=
  (Z.of_nat (List.length buf) <> n /\ m = "Wrong input buffer size."%string)
  \/ (Z.of_nat (List.length buf) = n /\ exists y s, le_value buf = y + s * 2 ^ (8 * n - 1) /\ 0 <= y < 2 ^ (8 * n - 1) /\ 0 <= s <= 1
      /\ ((p <= y /\ m = "Invalid y value chosen"%string)
          \/ (y < p /\ s = 1 /\ (p | y * y - 1) /\ m = "Failed decoding on square root"%string))).
