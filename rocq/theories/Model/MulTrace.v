(** Scalar multiplication with a record of the point operations it performs: the loops of
    src/weierstrass/point.rs:193-202, src/montgomery/point.rs:105-114 and src/edwards/point.rs:94-103, as in
    WCurve.core_mul, MCurve.core_mul and ECurve.core_mul, with a list written beside the accumulator. *)
From Coq Require Import ZArith Bool List.
From Verif.Model Require Import Out BigInt PrimeField Scalar.
From Verif.Model Require WCurve MCurve ECurve.
Import ListNotations.
Open Scope Z_scope.
Open Scope out_scope.

Inductive gop := Doubling | Addition.

(** one round: [q = q.core_doubling()] or [q = &q + &q], then [if ki { q = q + self }] *)
Definition log_round {Pt : Type} (dbl : Pt -> out Pt) (add : Pt -> Pt -> out Pt) (P : Pt) (s : Pt * list gop) (ki : bool) : out (Pt * list gop) :=
  D <- dbl (fst s) ;;
  if ki then (R <- add D P ;; Ret (R, snd s ++ [Doubling; Addition])) else Ret (D, snd s ++ [Doubling]).
Definition log_mul {Pt : Type} (id : out Pt) (dbl : Pt -> out Pt) (add : Pt -> Pt -> out Pt) (oc : bool) (P : Pt) (k : Scalar) : out (Pt * list gop) :=
  q <- id ;;
  it <- iter_lr oc k ;;
  for_each (S (Z.to_nat (it_l it))) oc it (q, []) (log_round dbl add P).

(** weierstrass/point.rs:193-202 and 222-225 *)
Definition w_log_mul (oc : bool) (P : WCurve.Point) (k : Scalar) : out (WCurve.Point * list gop) :=
  do_if_eq (WCurve.c_r (WCurve.pe P) =? sr k)
    (log_mul (WCurve.identity (WCurve.pe P)) WCurve.core_doubling WCurve.pt_add oc P k) WCurve.ERR_MUL_OP.
(** montgomery/point.rs:105-114 and 137-140 *)
Definition m_log_mul (oc : bool) (P : MCurve.Point) (k : Scalar) : out (MCurve.Point * list gop) :=
  do_if_eq (MCurve.c_r (MCurve.pe P) =? sr k)
    (log_mul (MCurve.identity (MCurve.pe P)) (fun q => MCurve.pt_add q q) MCurve.pt_add oc P k) MCurve.ERR_MUL_OP.
(** edwards/point.rs:94-103 and 125-128 *)
Definition e_log_mul (oc : bool) (P : ECurve.Point) (k : Scalar) : out (ECurve.Point * list gop) :=
  do_if_eq (ECurve.c_r (ECurve.pe P) =? sr k)
    (log_mul (ECurve.identity (ECurve.pe P)) (fun q => ECurve.pt_add q q) ECurve.pt_add oc P k) ECurve.ERR_MUL_OP.
