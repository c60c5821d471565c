(** Blinded evaluation between a client and a server that exchange bytes: what they run, and what is claimed of it.
    The operations are parameters, so that one definition serves all three kinds of curves. *)
From Coq Require Import ZArith String List.
From Verif.Spec Require Import Arith Curve Order Elements Wire.
From Verif.Model Require Import Out Scalar.
Open Scope Z_scope.
Open Scope out_scope.

Section WireBlind.
  Context {MP S : Type} (point : MP -> S -> Prop) (sum : S -> S -> S -> Prop) (zero : S) (r : Z)
    (mul : bool -> MP -> Scalar -> out MP) (eqb : MP -> MP -> out bool) (encode : MP -> bool -> out (list Z)) (decode : list Z -> out (io_result MP)).

  (** the client blinds P with b and sends the bytes; the server decodes, multiplies by its key k and sends bytes back;
      the client decodes them, multiplies by 1 / b and takes the bytes of the result. None when one of them refuses what it got.
      They may be built in different profiles (oc, oc') and send in different forms (c, c') *)
  Definition evaluate (oc oc' c c' d : bool) (P : MP) (b k : Scalar) : out (option (list Z)) :=
    B <- mul oc P b ;; mb <- encode B c ;; a <- finish mul encode decode oc' mb k c' ;;
    match a with
    | None => Ret None
    | Some me => i <- sc_u32_div 1 b ;; finish mul encode decode oc me i d
    end.

  (** the client ends with the bytes of k P, whatever the blinding *)
  Definition evaluates (g : S) : Prop :=
    forall oc oc' c c' d P A b k, point P A -> generated sum zero g r A -> A <> zero ->
    valid_scalar r b -> sk b <> 0 -> valid_scalar r k -> sk k <> 0 ->
    exists F out, mul oc P k = Ret F /\ encode F d = Ret out /\ evaluate oc oc' c c' d P b k = Ret (Some out).
  (** under one key the results on two points are the same bytes exactly when the points are equal;
      on one point, under two keys, exactly when the keys are *)
  Definition separates (g : S) : Prop :=
    forall oc oc' c c' d o1 o1' c1 c1' P A P1 A1 b k b1 k1 out out1,
    point P A -> generated sum zero g r A -> A <> zero -> point P1 A1 -> generated sum zero g r A1 -> A1 <> zero ->
    valid_scalar r b -> sk b <> 0 -> valid_scalar r k -> sk k <> 0 -> valid_scalar r b1 -> sk b1 <> 0 -> valid_scalar r k1 -> sk k1 <> 0 ->
    evaluate oc oc' c c' d P b k = Ret (Some out) -> evaluate o1 o1' c1 c1' d P1 b1 k1 = Ret (Some out1) ->
    (k = k1 -> (out = out1 <-> eqb P P1 = Ret true)) /\ (eqb P P1 = Ret true -> (out = out1 <-> k = k1)).
End WireBlind.
