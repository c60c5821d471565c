(** Powers of a + b i, and the exponent left when bit 31 of every 32-bit word is skipped. *)
From Coq Require Import ZArith.
From Verif.Spec Require Import Arith Elements.
From Verif.Model Require Import Out BigInt PrimeField QuadField.
Open Scope Z_scope.

(** (a + b i)^n over the integers *)
Fixpoint gpow (z : Z * Z) (n : nat) : Z * Z :=
  match n with
  | O => (1, 0)
  | S m => let w := gpow z m in (fst z * fst w - snd z * snd w, fst z * snd w + snd z * fst w)
  end.
(** r is the e-th power of x in Fp2::new(p) *)
Definition is_power (p : Z) (x : Fp2Elt) (e : Z) (r : Fp2Elt) : Prop :=
  valid2 p r /\ residue p (fst (gpow (gval x) (Z.to_nat e))) (val (re r))
  /\ residue p (snd (gpow (gval x) (Z.to_nat e))) (val (im r)).
(** k is e without its bits 31, 63, 95, ... and with the gaps closed *)
Definition skips_top_bits (e k : Z) : Prop :=
  0 <= k /\ forall n, 0 <= n -> Z.testbit k n = Z.testbit e (n + n / 31).
