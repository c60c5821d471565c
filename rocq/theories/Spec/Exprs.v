(** The calls a program makes to evaluate an expression of Spec/Arith.v. *)
From Coq Require Import ZArith.
From Verif.Spec Require Import Arith.
From Verif.Model Require Import Out BigInt PrimeField QuadField.
Open Scope Z_scope.

(** the calls a user's expression makes *)
Fixpoint run (F : Fp) (env : nat -> FpElt) (e : expr) : out FpElt :=
  match e with
  | EVar i => Ret (env i)
  | EInt n => elt F n
  | EAdd a b => bind (run F env a) (fun x => bind (run F env b) (fun y => add x y))
  | ESub a b => bind (run F env a) (fun x => bind (run F env b) (fun y => sub x y))
  | EMul a b => bind (run F env a) (fun x => bind (run F env b) (fun y => mul x y))
  | ENeg a => bind (run F env a) neg
  | ESqr a => bind (run F env a) (fun x => pow_u32 x 2)
  end.

(** the calls a user's expression makes *)
Fixpoint run2 (F : Fp2) (env : nat -> Fp2Elt) (e : expr) : out Fp2Elt :=
  match e with
  | EVar i => Ret (env i)
  | EInt n => elt2 F n
  | EAdd a b => bind (run2 F env a) (fun x => bind (run2 F env b) (fun y => add2 x y))
  | ESub a b => bind (run2 F env a) (fun x => bind (run2 F env b) (fun y => sub2 x y))
  | EMul a b => bind (run2 F env a) (fun x => bind (run2 F env b) (fun y => mul2 x y))
  | ENeg a => bind (run2 F env a) neg2
  | ESqr a => bind (run2 F env a) (fun x => pow_u32_2 x 2)
  end.
