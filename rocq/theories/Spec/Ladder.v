(** The sequence of point operations of double-and-add, read off the binary numeral of the scalar. *)
From Coq Require Import ZArith Bool List.
From Verif.Spec Require Import Arith.
From Verif.Model Require Import Out MulTrace.
Import ListNotations.
Open Scope Z_scope.

(** l is the binary numeral of n, most significant digit first *)
Definition numeral (n : Z) (l : list bool) : Prop := bits_value l = n /\ hd_error l = Some true.
(** a doubling per digit, followed by an addition if the digit is 1 *)
Definition operations (l : list bool) : list gop := flat_map (fun b : bool => if b then [Doubling; Addition] else [Doubling]) l.
(** dropping the record *)
Definition forget {A B : Type} (x : out (A * B)) : out A := bind x (fun r => Ret (fst r)).
(** how often an operation occurs *)
Fixpoint doublings (g : list gop) : Z := match g with [] => 0 | Doubling :: g => 1 + doublings g | Addition :: g => doublings g end.
Fixpoint additions (g : list gop) : Z := match g with [] => 0 | Doubling :: g => additions g | Addition :: g => 1 + additions g end.
(** the number of ones among the bits 0, ..., m-1 of n *)
Fixpoint ones (m : nat) (n : Z) : Z := match m with O => 0 | S m => (if Z.testbit n (Z.of_nat m) then 1 else 0) + ones m n end.
