(** C15, C16, C53, C54: division, square-root constants, operand checks, integers, trait
    identities and the constant cache of the quadratic extension. *)

From Coq Require Import ZArith Znumtheory Lia String Bool List Ring Field.
From Verif.Math Require Import Fld Pow Zp Residue Quad.
From Verif.Spec Require Import Arith.
From Verif.Model Require Import Out BigInt PrimeField QuadField FieldExtras.
From Verif.Proofs Require Import FieldP FieldProps BytesP SerialProps QuadProps.
Import ListNotations.
Open Scope Z_scope.
From Verif.Proofs Require Import QuadEdgeProps.

(** a / b multiplies by b, not by its conjugate: the value of a/b times b's norm is a*b *)
Theorem C15_division_value : forall p a b, prime p -> p mod 4 = 3 -> valid2 p a -> valid2 p b ->
  (val (re b) <> 0 \/ val (im b) <> 0) ->
  exists q, div2 a b = Ret q /\ valid2 p q
    /\ let n := val (re b) * val (re b) + val (im b) * val (im b) in
       (val (re q) * n) mod p = (val (re a) * val (re b) - val (im a) * val (im b)) mod p
       /\ (val (im q) * n) mod p = (val (re a) * val (im b) + val (im a) * val (re b)) mod p.
Proof. exact c15_division_value. Qed.
Print Assumptions C15_division_value.

(** so a / b is the quotient exactly when b is in the base field (or a is 0) *)
Theorem C15_division_correct_iff : forall p a b, prime p -> p mod 4 = 3 -> valid2 p a -> valid2 p b ->
  (val (re b) <> 0 \/ val (im b) <> 0) ->
  exists q c, div2 a b = Ret q /\ mul2 q b = Ret c
    /\ (fp2elt_eqb c a = true <-> ((val (re a) = 0 /\ val (im a) = 0) \/ val (im b) = 0)).
Proof. exact c15_division_correct_iff. Qed.
Print Assumptions C15_division_correct_iff.

(** dividing by zero gives zero, no panic *)
Theorem C15_division_by_zero : forall p a, 2 < p -> valid2 p a ->
  exists z, zero2 (fp2_new p) = Ret z /\ div2 a z = Ret z.
Proof. exact c15_division_by_zero. Qed.
Print Assumptions C15_division_by_zero.

Example C15_division_ex :
  let e := fun a b => mkFp2Elt (mkFpElt a (mkFp 7)) (mkFpElt b (mkFp 7)) (mkFp2 (mkFp 7)) in
  div2 (e 1 0) (e 0 1) = Ret (e 0 1) /\ mul2 (e 0 1) (e 0 1) = Ret (e 6 0)
  /\ div2 (e 4 5) (e 2 0) = Ret (e 2 6) /\ mul2 (e 2 6) (e 2 0) = Ret (e 4 5).
Proof. exact c15_division_ex. Qed.

(** they exist exactly for p = 3 mod 4: (p-3)/4 and (p-1)/2 *)
Theorem C16_sqrt_constants : forall p, 0 <= p ->
  (p mod 4 = 3 -> exists c1 c2, calc_sqrt_precmp2 (fp2_new p) = Ret (c1, c2) /\ 4 * c1 + 3 = p /\ 2 * c2 + 1 = p)
  /\ (p mod 4 <> 3 -> calc_sqrt_precmp2 (fp2_new p) = Panic "not implemented").
Proof. exact c16_sqrt_constants. Qed.
Print Assumptions C16_sqrt_constants.

(** sqrt always stops at the same message *)
Theorem C16_sqrt_message_refuted : forall p x, 0 <= p -> fld2 x = fp2_new p -> sqrt2 x = Panic "not implemented".
Proof. exact c16_sqrt_message_refuted. Qed.
Print Assumptions C16_sqrt_message_refuted.

Example C16_constants_ex : calc_sqrt_precmp2 (fp2_new 103) = Ret (25, 51)
  /\ calc_sqrt_precmp2 (fp2_new 13) = Panic "not implemented".
Proof. exact c16_constants_ex. Qed.

(** + - * / of elements of two quadratic fields panic, of one field they do not *)
Theorem C53_mixing : forall p q a b, 1 < p -> 1 < q -> valid2 p a -> valid2 q b ->
  forall op, In op [add2; sub2; mul2; div2] ->
  (p <> q -> op a b = Panic "elements of different fields")
  /\ (p = q -> exists c, op a b = Ret c /\ valid2 p c).
Proof. exact c53_mixing. Qed.
Print Assumptions C53_mixing.

(** == is false across fields and decides equality of both coordinates within one *)
Theorem C53_equality : forall p q a b, valid2 p a -> valid2 q b ->
  (fp2elt_eqb a b = true <-> p = q /\ val (re a) = val (re b) /\ val (im a) = val (im b)).
Proof. exact c53_equality. Qed.
Print Assumptions C53_equality.

(** x^e only for e = 2u32 and e = -1i32, k/x only for k = 1u32 *)
Theorem C53_operand_guards : forall x k,
  (k <> 1 -> u32_div2 k x = Panic "numerator must be 1u32")
  /\ (k <> -1 -> pow_i32_2 x k = Panic "exponent must be -1i32")
  /\ (k <> 2 -> pow_u32_2 x k = Panic "exponent must be 2u32")
  /\ pow_u32_2 x 2 = mul2 x x /\ pow_i32_2 x (-1) = u32_div2 1 x.
Proof. exact c53_operand_guards. Qed.
Print Assumptions C53_operand_guards.

(** integers of any sign and size become (k mod p) + 0 i; zero() and one() are those of 0 and 1 *)
Theorem C53_integers : forall p k, 0 < p -> exists x, from_int2 (fp2_new p) k = Ret x /\ valid2 p x
  /\ residue p k (val (re x)) /\ val (im x) = 0
  /\ (k = 0 -> zero2 (fp2_new p) = Ret x /\ is_zero2 x = true)
  /\ (k = 1 -> 1 < p -> one2 (fp2_new p) = Ret x /\ is_one2 x = true).
Proof. exact c53_integers. Qed.
Print Assumptions C53_integers.

(** the trait constructors zero() and one() (no receiver) return nothing: each panics, as not implemented *)
Theorem C53_trait_constructors_refuted :
  ((forall x, fpelt_trait_zero <> Ret x) /\ (forall x, fpelt_trait_one <> Ret x)
   /\ (forall x, fp2elt_trait_zero <> Ret x) /\ (forall x, fp2elt_one <> Ret x))
  /\ fpelt_trait_zero = Panic "not implemented" /\ fpelt_trait_one = Panic "not implemented"
  /\ fp2elt_trait_zero = Panic "not implemented" /\ fp2elt_one = Panic "not implemented".
Proof. exact c53_trait_constructors_refuted. Qed.
Print Assumptions C53_trait_constructors_refuted.

(** set_zero, set_one turn any element into its field's zero and one; is_zero, is_one tell them *)
Theorem C53_set_identities : forall p x, 1 < p -> valid p x ->
  zero (fp_new p) = Ret (set_zero x) /\ one (fp_new p) = Ret (set_one x)
  /\ (is_zero x = true <-> x = set_zero x) /\ (is_one x = true <-> x = set_one x).
Proof. exact c53_set_identities. Qed.
Print Assumptions C53_set_identities.

Theorem C53_set_identities_quadratic : forall p x, 1 < p -> valid2 p x ->
  zero2 (fp2_new p) = Ret (set_zero2 x) /\ one2 (fp2_new p) = Ret (set_one2 x)
  /\ (is_zero2 x = true <-> x = set_zero2 x) /\ (is_one2 x = true <-> x = set_one2 x).
Proof. exact c53_set_identities_quadratic. Qed.
Print Assumptions C53_set_identities_quadratic.

(** with modulus 1 set_one leaves the value 1, which is not the one() of that ring *)
Theorem C53_set_one_modulus_one_refuted : forall x, fld x = fp_new 1 ->
  exists o, one (fp_new 1) = Ret o /\ fpelt_eqb (set_one x) o = false /\ is_one o = false.
Proof. exact c53_set_one_modulus_one_refuted. Qed.
Print Assumptions C53_set_one_modulus_one_refuted.

(** get_modulus gives back the modulus the field was made with; cmov picks by the flag *)
Theorem C53_accessors : forall p, get_modulus (fp_new p) = p /\ get_modulus2 (fp2_new p) = p
  /\ forall x y : Fp2Elt, cmov x y true = y /\ cmov x y false = x.
Proof. exact c53_accessors. Qed.
Print Assumptions C53_accessors.

Example C53_ex :
  let e := fun p a b => mkFp2Elt (mkFpElt a (mkFp p)) (mkFpElt b (mkFp p)) (mkFp2 (mkFp p)) in
  add2 (e 7 1 2) (e 11 1 2) = Panic "elements of different fields" /\ valid2 7 (e 7 1 2) /\ valid2 11 (e 11 1 2)
  /\ div2 (e 7 1 2) (e 11 1 2) = Panic "elements of different fields"
  /\ from_int2 (fp2_new 7) (-1) = Ret (e 7 6 0) /\ set_one2 (e 7 3 4) = e 7 1 0 /\ is_one2 (e 7 1 1) = false.
Proof. exact c53_ex. Qed.

(** every call of every sequence answers as a fresh field would, the panic for p <> 3 mod 4
    included; the cell is free again after each; what it holds afterwards is decided by p *)
Theorem C54_cache_transparent : forall p n, 0 <= p ->
  let h := get_history2 (cell2_new p) (S n) in
  snd h = repeat (calc_sqrt_precmp2 (fp2_new p)) (S n) /\ q_borrowed (fst h) = false
  /\ (p mod 4 = 3 -> exists c1 c2, q_cache (fst h) = Some (c1, c2) /\ 4 * c1 + 3 = p /\ 2 * c2 + 1 = p)
  /\ (p mod 4 <> 3 -> q_cache (fst h) = None /\ Forall (fun r => r = Panic "not implemented") (snd h)).
Proof. exact c54_cache_transparent. Qed.
Print Assumptions C54_cache_transparent.

Example C54_ex : get_history2 (cell2_new 103) 2 = (mkCell2 (fp2_new 103) (Some (25, 51)) false, [Ret (25, 51); Ret (25, 51)])
  /\ get_history2 (cell2_new 13) 2 = (cell2_new 13, [Panic "not implemented"; Panic "not implemented"]).
Proof. exact c54_ex. Qed.
