(** An abstract field with decidable equality, used by the algebraic proofs. *)
From Coq Require Import Ring Field Setoid.

Record Fld := mkFld {
  car :> Type;
  F0 : car; F1 : car;
  Fadd : car -> car -> car; Fmul : car -> car -> car; Fsub : car -> car -> car;
  Fopp : car -> car; Fdiv : car -> car -> car; Finv : car -> car;
  Fth : field_theory F0 F1 Fadd Fmul Fsub Fopp Fdiv Finv (@eq car);
  Feqd : forall x y : car, {x = y} + {x <> y}
}.
Arguments F0 {_}. Arguments F1 {_}. Arguments Fadd {_}. Arguments Fmul {_}. Arguments Fsub {_}.
Arguments Fopp {_}. Arguments Fdiv {_}. Arguments Finv {_}. Arguments Feqd {_}.

Declare Scope fld_scope.
Delimit Scope fld_scope with F.
Infix "+" := Fadd : fld_scope.
Infix "*" := Fmul : fld_scope.
Infix "-" := Fsub : fld_scope.
Infix "/" := Fdiv : fld_scope.
Notation "- x" := (Fopp x) : fld_scope.
Notation "0" := F0 : fld_scope.
Notation "1" := F1 : fld_scope.
Notation "2" := (1 + 1)%F : fld_scope.
Notation "3" := (1 + 1 + 1)%F : fld_scope.
Bind Scope fld_scope with car.

Section Basics.
  Variable K : Fld.
  Add Field KF0 : (Fth K).
  Open Scope fld_scope.

  Lemma F_1_neq_0 : (1 : K) <> 0.
  Proof. exact (F_1_neq_0 (Fth K)). Qed.

  Lemma Fmul_integral (x y : K) : x * y = 0 -> x = 0 \/ y = 0.
  Proof.
    intro H. destruct (Feqd x 0) as [|Hx]; [left; assumption|right].
    transitivity ((x * y) / x); [field; assumption|]. rewrite H. field; assumption.
  Qed.

  Lemma Fmul_nonzero (x y : K) : x <> 0 -> y <> 0 -> x * y <> 0.
  Proof. intros Hx Hy H. destruct (Fmul_integral _ _ H); contradiction. Qed.

  Lemma Fsub_zero (x y : K) : x - y = 0 <-> x = y.
  Proof.
    split; intro H; [|rewrite H; ring].
    transitivity ((x - y) + y); [ring|]. rewrite H. ring.
  Qed.

  Lemma Fsub_nonzero (x y : K) : x <> y -> x - y <> 0.
  Proof. intros H E. apply H, Fsub_zero, E. Qed.

  Lemma Fcancel_l (c x y : K) : c <> 0 -> c * x = c * y -> x = y.
  Proof.
    intros Hc H. apply Fsub_zero.
    destruct (Fmul_integral c (x - y)) as [E|E]; [|contradiction|exact E].
    transitivity (c * x - c * y); [ring|]. rewrite H. ring.
  Qed.

  Lemma Fopp_zero (x : K) : - x = 0 -> x = 0.
  Proof. intro H. transitivity (- - x); [ring|]. rewrite H. ring. Qed.

  Lemma Fsqr_zero (x : K) : x * x = 0 -> x = 0.
  Proof. intro H. destruct (Fmul_integral _ _ H); assumption. Qed.

  Lemma Fsqr_eq (x y : K) : x * x = y * y -> x = y \/ x = - y.
  Proof.
    intro H. destruct (Fmul_integral (x - y) (x + y)) as [E|E].
    - transitivity (x * x - y * y); [ring|]. rewrite H. ring.
    - left. apply Fsub_zero, E.
    - right. transitivity ((x + y) - y); [ring|]. rewrite E. ring.
  Qed.

  Lemma Fdiv_mul (x y : K) : y <> 0 -> x / y * y = x.
  Proof. intro. field; assumption. Qed.

  Lemma Fdiv_eq_iff (x y z : K) : y <> 0 -> (x / y = z <-> x = z * y).
  Proof. intro H. split; intro E; [rewrite <- E|rewrite E]; field; assumption. Qed.

  Lemma opp_self_zero (y : K) : (2 : K) <> 0 -> y = - y -> y = 0.
  Proof.
    intros H2 H. destruct (Fmul_integral 2 y) as [E|E]; [|contradiction|exact E].
    transitivity (y - (- y)); [ring|]. rewrite <- H. ring.
  Qed.
End Basics.

(** side conditions left by [field] *)
Ltac fnz := repeat match goal with
  | |- _ /\ _ => split
  | |- _ <> _ => first [assumption | refine (Fmul_nonzero _ _ _ _ _)]
  end.
