(** Key agreement between two ends that exchange bytes: what they run, and what is claimed of it.
    The operations are parameters, so that one definition serves all three kinds of curves. *)
From Coq Require Import ZArith String List.
From Verif.Spec Require Import Arith Curve Order Elements.
From Verif.Model Require Import Out Scalar.
Import ListNotations.
Open Scope Z_scope.
Open Scope out_scope.

Section Wire.
  Context {MP S : Type} (point : MP -> S -> Prop) (sum : S -> S -> S -> Prop) (zero : S) (r : Z)
    (mul : bool -> MP -> Scalar -> out MP) (encode : MP -> bool -> out (list Z)) (decode : list Z -> out (io_result MP)).

  (** what one end does with the bytes it got and its key k: None when decode refuses them, else the bytes of the shared point *)
  Definition finish (oc : bool) (buf : list Z) (k : Scalar) (d : bool) : out (option (list Z)) :=
    Q <- decode buf ;; match Q with
                       | Ok Q => S <- mul oc Q k ;; s <- encode S d ;; Ret (Some s)
                       | Err _ => Ret None
                       end.
  (** the two ends: each multiplies the base point by its key, sends the bytes, and finishes with what it got.
      They may be built in different profiles (oc, oc') and send in different forms (c, c') *)
  Definition exchange (oc oc' c c' d : bool) (G : MP) (a b : Scalar) : out (option (list Z) * option (list Z)) :=
    A <- mul oc G a ;; B <- mul oc' G b ;; ma <- encode A c ;; mb <- encode B c' ;;
    s <- finish oc mb a d ;; t <- finish oc' ma b d ;; Ret (s, t).

  (** both ends hold the same bytes: those of the a b-fold multiple of the base point, which is not the identity *)
  Definition agrees (G : MP) (g : S) : Prop :=
    forall oc oc' c c' d a b, valid_scalar r a -> valid_scalar r b -> sk a <> 0 -> sk b <> 0 ->
    exists key C, exchange oc oc' c c' d G a b = Ret (Some key, Some key)
    /\ multiple sum zero g (Z.to_nat (sk a * sk b)) C /\ C <> zero /\ (exists P, point P C)
    /\ forall P, point P C -> encode P d = Ret key.
  (** the bytes are the same in two runs exactly when the products of the keys are the same modulo the order *)
  Definition key_exact (G : MP) : Prop :=
    forall oc oc' c c' d a b o1 o1' c1 c1' a1 b1 key key1,
    valid_scalar r a -> valid_scalar r b -> sk a <> 0 -> sk b <> 0 -> valid_scalar r a1 -> valid_scalar r b1 -> sk a1 <> 0 -> sk b1 <> 0 ->
    exchange oc oc' c c' d G a b = Ret (Some key, Some key) -> exchange o1 o1' c1 c1' d G a1 b1 = Ret (Some key1, Some key1) ->
    (key = key1 <-> (r | sk a * sk b - sk a1 * sk b1)).
  (** whatever bytes a peer sends, if they are accepted then different keys get different bytes, and none of them the identity *)
  Definition contributory (is_zero : MP -> bool) : Prop :=
    forall buf, Forall is_byte buf ->
    (forall oc k d, valid_scalar r k -> sk k <> 0 -> forall Q, decode buf = Ret (Ok Q) -> exists P s, mul oc Q k = Ret P /\ is_zero P = false
      /\ encode P d = Ret s /\ finish oc buf k d = Ret (Some s))
    /\ forall oc oc' k k' d s s', valid_scalar r k -> sk k <> 0 -> valid_scalar r k' -> sk k' <> 0 ->
       finish oc buf k d = Ret (Some s) -> finish oc' buf k' d = Ret (Some s') -> (s = s' <-> k = k').
  (** a peer can send bytes that are accepted, are not those of the identity, and with which the key 'small' gives the identity *)
  Definition not_contributory (small : Z) : Prop :=
    exists buf Q, Forall is_byte buf /\ decode buf = Ret (Ok Q) /\ ~ point Q zero
    /\ forall oc, exists P, mul oc Q (mkScalar small r) = Ret P /\ point P zero.
End Wire.
