(** C67: a field object made with any modulus, and which operations tell whether it is prime. *)

From Coq Require Import ZArith Znumtheory Lia String Bool List.
From Verif.Math Require Import Zp Composite Composite5.
From Verif.Spec Require Import Arith.
From Verif.Model Require Import Out BigInt PrimeField.
From Verif.Proofs Require Import FieldP SmallP.
From Verif.Proofs Require FieldProps.
From Verif.Spec Require Export Elements Exprs.
Import ListNotations.
Open Scope Z_scope.
From Verif.Proofs Require Import ModulusProps.

(** Fp::new never looks whether its modulus is prime. Modulo 1 there is one element, it is both
    zero and one, and whatever needs an exponent modulo p - 1 panics *)
Theorem C67_modulus_one : exists z, zero (fp_new 1) = Ret z /\ one (fp_new 1) = Ret z
  /\ (forall x, valid 1 x -> x = z)
  /\ forall x e, valid 1 x -> (exists m, pow_bigint x e = Panic m) /\ (exists m, u32_div 1 x = Panic m)
       /\ (exists m, div x x = Panic m) /\ (exists m, is_square x = Panic m)
       /\ add x x = Ret z /\ mul x x = Ret z.
Proof. exact c67_modulus_one. Qed.
Print Assumptions C67_modulus_one.

(** one element at a time, for any modulus above 1: 1u32/b inverts b exactly when b^(n-1) = 1 modulo n *)
Theorem C67_inverse_of_an_element : forall n b, 1 < n -> valid n b ->
  exists i o, one (fp_new n) = Ret o /\ u32_div 1 b = Ret i /\ valid n i
    /\ (mul i b = Ret o <-> (n | val b ^ (n - 1) - 1)).
Proof. exact c67_inverse_of_an_element. Qed.
Print Assumptions C67_inverse_of_an_element.

(** all of them: division undoes multiplication for every non-zero divisor exactly when the modulus
    is prime *)
Theorem C67_division_iff_prime : forall n, 1 < n ->
  ((forall a b, valid n a -> valid n b -> val b <> 0 -> exists q, div a b = Ret q /\ mul q b = Ret a)
   <-> prime n).
Proof. exact c67_division_iff_prime. Qed.
Print Assumptions C67_division_iff_prime.

(** x ^ &BigInt turns sums of exponents into products for every non-zero x exactly when the modulus is
    prime *)
Theorem C67_powers_iff_prime : forall n, 1 < n ->
  ((forall x e f, valid n x -> val x <> 0 ->
      exists y z w, pow_bigint x e = Ret y /\ pow_bigint x f = Ret z /\ pow_bigint x (e + f) = Ret w
        /\ mul y z = Ret w)
   <-> prime n).
Proof. exact c67_powers_iff_prime. Qed.
Print Assumptions C67_powers_iff_prime.

(** is_square tells squares from the others exactly when the modulus is prime - or 4, where it
    happens to be right as well *)
Theorem C67_is_square_iff_prime_or_four : forall n, 1 < n ->
  ((forall x, valid n x -> exists b, is_square x = Ret b /\ (b = true <-> square_mod n (val x)))
   <-> prime n \/ n = 4).
Proof. exact c67_is_square_iff_prime_or_four. Qed.
Print Assumptions C67_is_square_iff_prime_or_four.

(** for n = 3 modulo 4, sqrt is right on every square exactly when b^n = b modulo n for every b: for
    the primes, and for the Carmichael numbers among the composite ones *)
Theorem C67_sqrt_iff : forall n, 0 < n -> n mod 4 = 3 ->
  ((forall x, valid n x -> square_mod n (val x) -> exists y, sqrt x = Ret y /\ mul y y = Ret x)
   <-> (forall b, (n | b ^ n - b))).
Proof. exact c67_sqrt_iff. Qed.
Print Assumptions C67_sqrt_iff.

(** 8911 = 7 * 19 * 67 passes for a prime modulus in sqrt: it is right on every square *)
Example C67_sqrt_ex : ~ prime 8911 /\ 8911 mod 4 = 3
  /\ (forall x, valid 8911 x -> square_mod 8911 (val x) -> exists y, sqrt x = Ret y /\ mul y y = Ret x)
  /\ div (mkFpElt 14 (mkFp 8911)) (mkFpElt 7 (mkFp 8911)) <> Ret (mkFpElt 2 (mkFp 8911))
  /\ is_square (mkFpElt 49 (mkFp 8911)) = Ret false.
Proof. exact c67_sqrt_ex. Qed.

(** for n = 5 modulo 8, sqrt is right on every square exactly when n is prime, or b^((n+1)/2) = b modulo n
    for every b, which happens for composite n only *)
Theorem C67_sqrt_iff_5mod8 : forall n, 0 < n -> n mod 8 = 5 ->
  ((forall x, valid n x -> square_mod n (val x) -> exists y, sqrt x = Ret y /\ mul y y = Ret x)
   <-> prime n \/ forall b, (n | b ^ ((n + 1) / 2) - b)).
Proof. exact c67_sqrt_iff_5mod8. Qed.
Print Assumptions C67_sqrt_iff_5mod8.

(** every other modulus: sqrt panics whatever the argument *)
Theorem C67_sqrt_other : forall n x, 0 < n -> ~ sqrt_modulus n -> fld x = fp_new n -> sqrt x = Panic "not implemented".
Proof. exact c67_sqrt_other. Qed.
Print Assumptions C67_sqrt_other.

(** 9585541 = 7 * 31 * 163 * 271: composite, 5 modulo 8, and sqrt is right on every square; modulo 21 it is not *)
Example C67_sqrt_5mod8_ex : ~ prime 9585541 /\ 9585541 mod 8 = 5
  /\ (forall x, valid 9585541 x -> square_mod 9585541 (val x) -> exists y, sqrt x = Ret y /\ mul y y = Ret x)
  /\ sqrt_modulus 21 /\ ~ (21 | 2 ^ ((21 + 1) / 2) - 2).
Proof. exact c67_sqrt_5mod8_ex. Qed.

(** modulo 21, sqrt(4) is no root of 4, 1/3 is no inverse of 3, and 1/8 inverts 8 *)
Example C67_ex : sqrt (mkFpElt 4 (mkFp 21)) = Ret (mkFpElt 6 (mkFp 21))
  /\ mul (mkFpElt 6 (mkFp 21)) (mkFpElt 6 (mkFp 21)) = Ret (mkFpElt 15 (mkFp 21))
  /\ u32_div 1 (mkFpElt 3 (mkFp 21)) = Ret (mkFpElt 3 (mkFp 21))
  /\ mul (mkFpElt 3 (mkFp 21)) (mkFpElt 3 (mkFp 21)) = Ret (mkFpElt 9 (mkFp 21))
  /\ u32_div 1 (mkFpElt 8 (mkFp 21)) = Ret (mkFpElt 8 (mkFp 21))
  /\ mul (mkFpElt 8 (mkFp 21)) (mkFpElt 8 (mkFp 21)) = Ret (mkFpElt 1 (mkFp 21))
  /\ is_square (mkFpElt 4 (mkFp 21)) = Ret false
  /\ is_square (mkFpElt 2 (mkFp 4)) = Ret false /\ is_square (mkFpElt 1 (mkFp 4)) = Ret true.
Proof. exact c67_ex. Qed.
