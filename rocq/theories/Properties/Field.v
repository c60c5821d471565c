(** C01-C07, C10: the prime field. *)

From Coq Require Import ZArith Znumtheory Zpow_facts Lia String Bool List Ring Field.
From Verif.Math Require Import Fld Pow Zp Residue.
From Verif.Spec Require Import Arith.
From Verif.Model Require Import Out BigInt PrimeField.
From Verif.Proofs Require Import FieldP.
From Verif.Spec Require Export Elements Exprs.
Import ListNotations.
Open Scope Z_scope.
From Verif.Proofs Require Import FieldProps.

(** f.elt(n), also reached by every from(u8..i64), is the canonical residue of n *)
Theorem C01_elt_is_the_residue : forall p n, 0 < p ->
  exists x, elt (fp_new p) n = Ret x /\ from_int (fp_new p) n = Ret x
    /\ fld x = fp_new p /\ residue p n (val x).
Proof. exact c01_elt_is_the_residue. Qed.
Print Assumptions C01_elt_is_the_residue.

(** == on elements of one field is congruence of the integers they were made from *)
Theorem C01_elt_eq_iff_congruent : forall p n m, 0 < p ->
  exists x y, elt (fp_new p) n = Ret x /\ elt (fp_new p) m = Ret y
    /\ (fpelt_eqb x y = true <-> (p | n - m)).
Proof. exact c01_elt_eq_iff_congruent. Qed.
Print Assumptions C01_elt_eq_iff_congruent.

(** the only way to make elt panic is the modulus 0 *)
Theorem C01_elt_panics_iff_modulus_zero : forall p n, 0 <= p ->
  ((exists msg, elt (fp_new p) n = Panic msg) <-> p = 0).
Proof. exact c01_elt_panics_iff_modulus_zero. Qed.
Print Assumptions C01_elt_panics_iff_modulus_zero.

Theorem C01_zero_and_one : forall p, 0 < p ->
  exists z o, zero (fp_new p) = Ret z /\ one (fp_new p) = Ret o
    /\ fld z = fp_new p /\ fld o = fp_new p /\ residue p 0 (val z) /\ residue p 1 (val o).
Proof. exact c01_zero_and_one. Qed.
Print Assumptions C01_zero_and_one.

Example C01_ex : elt (fp_new 53) (-13) = Ret (mkFpElt 40 (mkFp 53)).
Proof. exact c01_ex. Qed.

(** every expression evaluates, to the canonical residue of the same integer expression *)
Theorem C02_expressions_are_modular : forall p env e, 0 < p -> (forall i, valid p (env i)) ->
  exists x, run (fp_new p) env e = Ret x /\ fld x = fp_new p
    /\ residue p (den (fun i => val (env i)) e) (val x).
Proof. exact c02_expressions_are_modular. Qed.
Print Assumptions C02_expressions_are_modular.

(** hence every identity of integer polynomials is an identity of field expressions under == *)
Theorem C02_ring_laws : forall p env e1 e2, 0 < p -> (forall i, valid p (env i)) ->
  (forall rho, den rho e1 = den rho e2) ->
  exists x y, run (fp_new p) env e1 = Ret x /\ run (fp_new p) env e2 = Ret y
    /\ fpelt_eqb x y = true.
Proof. exact c02_ring_laws. Qed.
Print Assumptions C02_ring_laws.

Example C02_ex :
  run (fp_new 53) (fun i => mkFpElt (Z.of_nat i) (mkFp 53))
    (ESub (EMul (EVar 7) (EVar 9)) (ESqr (EAdd (EVar 50) (ENeg (EInt 1000)))))
  = Ret (mkFpElt 47 (mkFp 53))
  /\ valid 53 (mkFpElt 50 (mkFp 53)) /\ (7 * 9 - (50 - 1000) * (50 - 1000) - 47) mod 53 = 0.
Proof. exact c02_ex. Qed.

(** dividing by a non-zero element and multiplying back gives the dividend *)
Theorem C03_div_mul : forall p a b, prime p -> valid p a -> valid p b -> val b <> 0 ->
  exists q, div a b = Ret q /\ valid p q /\ mul q b = Ret a.
Proof. exact c03_div_mul. Qed.
Print Assumptions C03_div_mul.

(** 1u32/b and b^-1i32 are the one and only inverse *)
Theorem C03_inverse : forall p b, prime p -> valid p b -> val b <> 0 ->
  exists i o, one (fp_new p) = Ret o /\ u32_div 1 b = Ret i /\ pow_i32 b (-1) = Ret i /\ valid p i
    /\ mul b i = Ret o /\ forall j, valid p j -> mul b j = Ret o -> j = i.
Proof. exact c03_inverse. Qed.
Print Assumptions C03_inverse.

(** division by zero does not panic: it gives 0 (for p = 2 it gives the dividend) *)
Theorem C03_div_by_zero : forall p a b, prime p -> valid p a -> valid p b -> val b = 0 ->
  exists q, div a b = Ret q /\ valid p q /\ (val q = if p =? 2 then val a else 0).
Proof. exact c03_div_by_zero. Qed.
Print Assumptions C03_div_by_zero.

(** the literals accepted by the u32 numerator, the i32 exponent and the u32 exponent *)
Theorem C03_literals : forall x k,
  (k <> 1 -> u32_div k x = Panic "numerator must be 1u32")
  /\ (k <> -1 -> pow_i32 x k = Panic "exponent must be -1i32")
  /\ (k <> 2 -> pow_u32 x k = Panic "exponent must be 2u32")
  /\ pow_u32 x 2 = mul x x.
Proof. exact c03_literals. Qed.
Print Assumptions C03_literals.

Example C03_ex : prime 7 /\ valid 7 (mkFpElt 3 (mkFp 7)) /\
  div (mkFpElt 4 (mkFp 7)) (mkFpElt 3 (mkFp 7)) = Ret (mkFpElt 6 (mkFp 7)) /\
  div (mkFpElt 4 (mkFp 7)) (mkFpElt 0 (mkFp 7)) = Ret (mkFpElt 0 (mkFp 7)).
Proof. exact c03_ex. Qed.

(** x ^ &BigUint is repeated multiplication, for any modulus *)
Theorem C04_pow_biguint : forall p x (e : nat), 0 < p -> valid p x ->
  exists y, pow_biguint x (Z.of_nat e) = Ret y /\ fld y = fp_new p
    /\ residue p (times (val x) e) (val y).
Proof. exact c04_pow_biguint. Qed.
Print Assumptions C04_pow_biguint.

(** x ^ &BigInt for x <> 0: the power for a non-negative exponent, ... *)
Theorem C04_pow_bigint_nonneg : forall p x (e : nat), prime p -> valid p x -> val x <> 0 ->
  exists y, pow_bigint x (Z.of_nat e) = Ret y /\ fld y = fp_new p
    /\ residue p (times (val x) e) (val y).
Proof. exact c04_pow_bigint_nonneg. Qed.
Print Assumptions C04_pow_bigint_nonneg.

(** ... and for any exponent of any sign a homomorphism: x^(e+f) = x^e * x^f, x^1 = x *)
Theorem C04_pow_bigint_hom : forall p x e f, prime p -> valid p x -> val x <> 0 ->
  exists y z w, pow_bigint x e = Ret y /\ pow_bigint x f = Ret z /\ pow_bigint x (e + f) = Ret w
    /\ mul y z = Ret w /\ pow_bigint x 1 = Ret x.
Proof. exact c04_pow_bigint_hom. Qed.
Print Assumptions C04_pow_bigint_hom.

(** the zero element with a BigInt exponent: 1 exactly when p-1 divides it, else 0 *)
Theorem C04_pow_bigint_zero : forall p x e, 1 < p -> valid p x -> val x = 0 ->
  exists y, pow_bigint x e = Ret y /\ valid p y
    /\ ((p - 1 | e) -> val y = 1) /\ (~ (p - 1 | e) -> val y = 0).
Proof. exact c04_pow_bigint_zero. Qed.
Print Assumptions C04_pow_bigint_zero.

(** so BigInt and BigUint exponents do not always agree: 0^(p-1), for every p > 1 *)
Theorem C04_pow_agreement_refuted : forall p, 1 < p ->
  exists x a b, valid p x /\ pow_biguint x (p - 1) = Ret a /\ pow_bigint x (p - 1) = Ret b
    /\ val a = 0 /\ val b = 1.
Proof. exact c04_pow_agreement_refuted. Qed.
Print Assumptions C04_pow_agreement_refuted.

Example C04_ex : pow_bigint (mkFpElt 3 (mkFp 7)) (-2) = Ret (mkFpElt 4 (mkFp 7))
  /\ pow_biguint (mkFpElt 3 (mkFp 7)) 100 = Ret (mkFpElt 4 (mkFp 7)).
Proof. exact c04_ex. Qed.

(** + - * : a panic exactly when the moduli differ *)
Theorem C05_mixing_panics : forall a b, 0 < modulus (fld a) -> 0 < modulus (fld b) ->
  forall op, In op [add; sub; mul] ->
  (modulus (fld a) <> modulus (fld b) -> op a b = Panic "elements of different fields")
  /\ (modulus (fld a) = modulus (fld b) -> exists c, op a b = Ret c).
Proof. exact c05_mixing_panics. Qed.
Print Assumptions C05_mixing_panics.

(** / : likewise (moduli above 1, as for every prime) *)
Theorem C05_mixing_division : forall a b, 1 < modulus (fld a) -> 1 < modulus (fld b) ->
  (modulus (fld a) <> modulus (fld b) -> div a b = Panic "elements of different fields")
  /\ (modulus (fld a) = modulus (fld b) -> exists c, div a b = Ret c).
Proof. exact c05_mixing_division. Qed.
Print Assumptions C05_mixing_division.

(** == never panics (it is a total boolean) and is false across fields *)
Theorem C05_eq_across_fields : forall a b, modulus (fld a) <> modulus (fld b) -> fpelt_eqb a b = false.
Proof. exact c05_eq_across_fields. Qed.
Print Assumptions C05_eq_across_fields.

Example C05_ex : add (mkFpElt 3 (mkFp 7)) (mkFpElt 3 (mkFp 11)) = Panic "elements of different fields"
  /\ div (mkFpElt 3 (mkFp 7)) (mkFpElt 3 (mkFp 11)) = Panic "elements of different fields"
  /\ mul (mkFpElt 3 (mkFp 7)) (mkFpElt 3 (mkFp 7)) = Ret (mkFpElt 2 (mkFp 7)).
Proof. exact c05_ex. Qed.

(** is_square is Euler's criterion and decides residuosity, for every prime *)
Theorem C06_is_square_decides : forall p x, prime p -> valid p x ->
  exists b, is_square x = Ret b /\ (b = true <-> square_mod p (val x)).
Proof. exact c06_is_square_decides. Qed.
Print Assumptions C06_is_square_decides.

Example C06_ex : is_square (mkFpElt 2 (mkFp 7)) = Ret true /\ is_square (mkFpElt 3 (mkFp 7)) = Ret false
  /\ valid 7 (mkFpElt 3 (mkFp 7)).
Proof. exact c06_ex. Qed.

(** sqrt never panics for p = 3 mod 4 or 5 mod 8 and returns a root of every square *)
Theorem C07_sqrt_is_a_root : forall p x, prime p -> sqrt_modulus p -> valid p x ->
  exists y, sqrt x = Ret y /\ valid p y /\ (square_mod p (val x) -> mul y y = Ret x).
Proof. exact c07_sqrt_is_a_root. Qed.
Print Assumptions C07_sqrt_is_a_root.

(** every other prime (2 and p = 1 mod 8): sqrt panics whatever the argument *)
Theorem C07_sqrt_other_primes_panic : forall p x, prime p -> ~ sqrt_modulus p -> fld x = fp_new p ->
  sqrt x = Panic "not implemented".
Proof. exact c07_sqrt_other_primes_panic. Qed.
Print Assumptions C07_sqrt_other_primes_panic.

Example C07_ex : sqrt (mkFpElt 2 (mkFp 7)) = Ret (mkFpElt 4 (mkFp 7))
  /\ sqrt (mkFpElt 10 (mkFp 13)) = Ret (mkFpElt 6 (mkFp 13))
  /\ sqrt (mkFpElt 2 (mkFp 17)) = Panic "not implemented"
  /\ sqrt_modulus 7 /\ sqrt_modulus 13 /\ ~ sqrt_modulus 17 /\ square_mod 13 10.
Proof. exact c07_ex. Qed.

Theorem C10_sgn0_is_parity : forall p x, valid p x ->
  sgn0 x = (if Z.even (val x) then 1 else -1).
Proof. exact c10_sgn0_is_parity. Qed.
Print Assumptions C10_sgn0_is_parity.

(** for odd p, negation flips the sign of every non-zero element *)
Theorem C10_sgn0_neg : forall p x, Z.odd p = true -> valid p x -> val x <> 0 ->
  exists y, neg x = Ret y /\ valid p y /\ sgn0 y = - sgn0 x.
Proof. exact c10_sgn0_neg. Qed.
Print Assumptions C10_sgn0_neg.

(** a square root is determined by its square and its sgn0 *)
Theorem C10_root_determined : forall p y z, prime p -> p <> 2 -> valid p y -> valid p z ->
  mul y y = mul z z -> sgn0 y = sgn0 z -> y = z.
Proof. exact c10_root_determined. Qed.
Print Assumptions C10_root_determined.

Example C10_ex : sgn0 (mkFpElt 4 (mkFp 7)) = 1 /\ neg (mkFpElt 4 (mkFp 7)) = Ret (mkFpElt 3 (mkFp 7))
  /\ sgn0 (mkFpElt 3 (mkFp 7)) = -1.
Proof. exact c10_ex. Qed.
