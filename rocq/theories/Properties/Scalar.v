(** C20-C22: scalars. *)

From Coq Require Import ZArith Znumtheory Lia String Bool List.
From Verif.Math Require Import Zp.
From Verif.Spec Require Import Arith.
From Verif.Model Require Import Out BigInt PrimeField Scalar.
From Verif.Proofs Require Import FieldP FieldProps BytesP.
From Verif.Spec Require Export Elements.
Import ListNotations.
Open Scope Z_scope.
From Verif.Proofs Require Import ScalarProps.

Theorem C20_new_scalar : forall r k, 0 < r ->
  exists a, scalar_new k r = Ret a /\ sr a = r /\ residue r k (sk a).
Proof. exact c20_new_scalar. Qed.
Print Assumptions C20_new_scalar.

Theorem C20_scalar_ring : forall r a b, 0 < r -> sr a = r -> sr b = r ->
  (exists c, sc_add a b = Ret c /\ sr c = r /\ residue r (sk a + sk b) (sk c))
  /\ (exists c, sc_sub a b = Ret c /\ sr c = r /\ residue r (sk a - sk b) (sk c))
  /\ (exists c, sc_mul a b = Ret c /\ sr c = r /\ residue r (sk a * sk b) (sk c))
  /\ (exists c, sc_neg a = Ret c /\ sr c = r /\ residue r (- sk a) (sk c)).
Proof. exact c20_scalar_ring. Qed.
Print Assumptions C20_scalar_ring.

(** (a/b)*b == a, and 1u32/b is the inverse, for prime order and b <> 0 *)
Theorem C20_scalar_division : forall r a b, prime r -> valid_scalar r a -> valid_scalar r b -> sk b <> 0 ->
  exists q i, sc_div a b = Ret q /\ valid_scalar r q /\ sc_mul q b = Ret a
    /\ sc_u32_div 1 b = Ret i /\ valid_scalar r i /\ (r | sk i * sk b - 1).
Proof. exact c20_scalar_division. Qed.
Print Assumptions C20_scalar_division.

(** scalars of different orders: panic in every operator, never otherwise *)
Theorem C20_scalar_mixing : forall a b op, 0 < sr a -> 0 < sr b -> In op [sc_add; sc_sub; sc_mul] ->
  (sr a <> sr b -> op a b = Panic "elements of different groups")
  /\ (sr a = sr b -> exists c, op a b = Ret c).
Proof. exact c20_scalar_mixing. Qed.
Print Assumptions C20_scalar_mixing.

(** division adds one panic: the divisor's order 1 (BigInt::modpow with exponent -1) *)
Theorem C20_scalar_div_mixing : forall a b, 0 < sr a -> 0 < sr b ->
  ((exists c, sc_div a b = Ret c) <-> (sr a = sr b /\ sr b <> 1)).
Proof. exact c20_scalar_div_mixing. Qed.
Print Assumptions C20_scalar_div_mixing.

(** an integer other than 1 over a scalar: refused with its own text, whatever the scalar; 1 over a scalar: the power
    of exponent r-2, for every order above 1; scalars of different orders: refused by / with the text of the other operators *)
Theorem C20_scalar_refusals : forall a b k,
  (k <> 1 -> sc_u32_div k b = Panic "numerator must be 1u32")
  /\ (1 < sr b -> exists c, sc_u32_div 1 b = Ret c /\ sr c = sr b /\ residue (sr b) (sk b ^ (sr b - 2)) (sk c))
  /\ (0 < sr a -> 1 < sr b -> sr a <> sr b -> sc_div a b = Panic "elements of different groups").
Proof. exact c20_scalar_refusals. Qed.
Print Assumptions C20_scalar_refusals.

Example C20_refusals_ex : sc_u32_div 2 (mkScalar 4 7) = Panic "numerator must be 1u32"
  /\ sc_u32_div 1 (mkScalar 4 7) = Ret (mkScalar 2 7)
  /\ sc_div (mkScalar 5 7) (mkScalar 4 11) = Panic "elements of different groups".
Proof. exact c20_refusals_ex. Qed.

Example C20_ex : scalar_new (-3) 7 = Ret (mkScalar 4 7) /\ valid_scalar 7 (mkScalar 4 7)
  /\ sc_div (mkScalar 5 7) (mkScalar 4 7) = Ret (mkScalar 3 7)
  /\ sc_add (mkScalar 5 7) (mkScalar 4 11) = Panic "elements of different groups".
Proof. exact c20_ex. Qed.

Theorem C21_scalar_bytes : forall r a, valid_scalar r a ->
  exists b, sc_to_bytes_be a = Ret b /\ sc_to_bytes_le a = Ret (rev b)
    /\ byte_size r (Z.of_nat (length b)) /\ Z.of_nat (length b) = (bits r + 7) / 8
    /\ Forall is_byte b /\ be_value b = sk a /\ le_value (rev b) = sk a.
Proof. exact c21_scalar_bytes. Qed.
Print Assumptions C21_scalar_bytes.

Theorem C21_scalar_bytes_injective : forall r a b, valid_scalar r a -> valid_scalar r b ->
  sc_to_bytes_be a = sc_to_bytes_be b -> a = b.
Proof. exact c21_scalar_bytes_injective. Qed.
Print Assumptions C21_scalar_bytes_injective.

Example C21_ex : sc_to_bytes_be (mkScalar 5 257) = Ret [0; 5] /\ valid_scalar 257 (mkScalar 5 257).
Proof. exact c21_ex. Qed.

(** k <> 0: iter_lr yields the binary numeral of k (leading digit 1) and ends, iter_rl its reverse *)
Theorem C22_iterators : forall oc a, 0 < sk a -> bits (sk a) < 2 ^ 64 ->
  exists l, bits_value l = sk a /\ hd_error l = Some true
    /\ bind (iter_lr oc a) (drain oc) = Ret l /\ bind (iter_rl a) (drain oc) = Ret (rev l).
Proof. exact c22_iterators. Qed.
Print Assumptions C22_iterators.

(** k = 0: iter_rl ends at once; iter_lr panics with overflow checks, ends at once without *)
Theorem C22_iterators_zero : forall oc r,
  bind (iter_rl (mkScalar 0 r)) (drain oc) = Ret []
  /\ bind (iter_lr oc (mkScalar 0 r)) (drain oc)
     = if oc then Panic "attempt to subtract with overflow" else Ret [].
Proof. exact c22_iterators_zero. Qed.
Print Assumptions C22_iterators_zero.

Theorem C22_iter_lr_never_panics_refuted : exists a msg, valid_scalar 7 a /\ iter_lr true a = Panic msg.
Proof. exact c22_iter_lr_never_panics_refuted. Qed.
Print Assumptions C22_iter_lr_never_panics_refuted.

(** a finished iterator stays finished *)
Theorem C22_iterators_fused : forall oc it it', next oc it = Ret (None, it') -> it' = it.
Proof. exact c22_iterators_fused. Qed.
Print Assumptions C22_iterators_fused.

Example C22_ex : bind (iter_lr true (mkScalar 6 101)) (drain true) = Ret [true; true; false]
  /\ bind (iter_rl (mkScalar (2 ^ 33 + 1) (2 ^ 61))) (drain true)
     = Ret (true :: repeat false 32 ++ [true])
  /\ bits (2 ^ 33 + 1) < 2 ^ 64.
Proof. exact c22_ex. Qed.
