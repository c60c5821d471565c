(** C14-C19: the quadratic extension field. *)

From Coq Require Import ZArith Znumtheory Lia String Bool List Ring Field.
From Verif.Math Require Import Fld Pow Zp Residue Quad.
From Verif.Spec Require Import Arith.
From Verif.Model Require Import Out BigInt PrimeField QuadField.
From Verif.Proofs Require Import FieldP FieldProps BytesP SerialProps.
From Verif.Spec Require Export Elements Exprs.
Import ListNotations.
Open Scope Z_scope.
From Verif.Proofs Require Import QuadProps.

(** every expression evaluates, to the residues of the same Gaussian-integer expression *)
Theorem C14_expressions_are_gaussian : forall p env e, 0 < p -> (forall i, valid2 p (env i)) ->
  exists x, run2 (fp2_new p) env e = Ret x /\ fld2 x = fp2_new p /\ valid2 p x
    /\ residue p (fst (gden (fun i => gval (env i)) e)) (val (re x))
    /\ residue p (snd (gden (fun i => gval (env i)) e)) (val (im x)).
Proof. exact c14_expressions_are_gaussian. Qed.
Print Assumptions C14_expressions_are_gaussian.

(** identities of Gaussian integers are identities of field expressions under == *)
Theorem C14_ring_laws : forall p env e1 e2, 0 < p -> (forall i, valid2 p (env i)) ->
  (forall rho, gden rho e1 = gden rho e2) ->
  exists x y, run2 (fp2_new p) env e1 = Ret x /\ run2 (fp2_new p) env e2 = Ret y
    /\ fp2elt_eqb x y = true.
Proof. exact c14_ring_laws. Qed.
Print Assumptions C14_ring_laws.

Example C14_ex : let i := mkFp2Elt (mkFpElt 0 (mkFp 7)) (mkFpElt 1 (mkFp 7)) (mkFp2 (mkFp 7)) in
  run2 (fp2_new 7) (fun _ => i) (EMul (EVar 0) (EAdd (EVar 0) (EInt 3)))
  = Ret (mkFp2Elt (mkFpElt 6 (mkFp 7)) (mkFpElt 3 (mkFp 7)) (mkFp2 (mkFp 7))) /\ valid2 7 i.
Proof. exact c14_ex. Qed.

(** the inverse the code computes is right exactly for the elements of the base field *)
Theorem C15_inverse_correct_iff_real : forall p b, prime p -> p mod 4 = 3 -> valid2 p b ->
  (val (re b) <> 0 \/ val (im b) <> 0) ->
  exists i e o, u32_div2 1 b = Ret i /\ mul2 b i = Ret e /\ one2 (fp2_new p) = Ret o
    /\ (fp2elt_eqb e o = true <-> val (im b) = 0).
Proof. exact c15_inverse_correct_iff_real. Qed.
Print Assumptions C15_inverse_correct_iff_real.

(** so inversion is wrong: already 1/i in every such field *)
Theorem C15_inversion_refuted : forall p, prime p -> p mod 4 = 3 ->
  exists b i e o, valid2 p b /\ u32_div2 1 b = Ret i /\ mul2 b i = Ret e /\ one2 (fp2_new p) = Ret o
    /\ fp2elt_eqb e o = false.
Proof. exact c15_inversion_refuted. Qed.
Print Assumptions C15_inversion_refuted.

Example C15_ex : let b := mkFp2Elt (mkFpElt 3 (mkFp 7)) (mkFpElt 0 (mkFp 7)) (mkFp2 (mkFp 7)) in
  u32_div2 1 b = Ret (mkFp2Elt (mkFpElt 5 (mkFp 7)) (mkFpElt 0 (mkFp 7)) (mkFp2 (mkFp 7)))
  /\ valid2 7 b /\ 7 mod 4 = 3.
Proof. exact c15_ex. Qed.

(** every power and every square root panics *)
Theorem C16_powers_and_sqrt_refuted : forall x e,
  pow_biguint2 x e = Panic "not implemented"
  /\ (exists msg, pow_bigint2 x e = Panic msg)
  /\ (exists msg, sqrt2 x = Panic msg).
Proof. exact c16_powers_and_sqrt_refuted. Qed.
Print Assumptions C16_powers_and_sqrt_refuted.

(** even with a working one(), the word loop drops bit 31 of every 32-bit word of the exponent:
    2^31 is treated as 0 *)
Theorem C16_exponent_bit_lost_refuted : forall p, 0 < p -> forall x, valid2 p x ->
  exists o, one2 (fp2_new p) = Ret o /\ pow_words (rev (to_u32_digits (2 ^ 31))) x o = Ret o.
Proof. exact c16_exponent_bit_lost_refuted. Qed.
Print Assumptions C16_exponent_bit_lost_refuted.

Example C16_ex : calc_sqrt_precmp2 (fp2_new 7) = Ret (1, 3).
Proof. exact c16_ex. Qed.

(** is_square is residuosity for every non-zero element, and false at 0 *)
Theorem C17_is_square2_decides : forall p x, prime p -> p mod 4 = 3 -> valid2 p x ->
  exists r, is_square2 x = Ret r
    /\ (r = true <-> ((val (re x) <> 0 \/ val (im x) <> 0) /\ gsquare_mod p (val (re x)) (val (im x)))).
Proof. exact c17_is_square2_decides. Qed.
Print Assumptions C17_is_square2_decides.

(** unlike the prime field, zero is reported as a non-square although 0 = 0*0 *)
Theorem C17_zero_is_square_refuted : forall p, prime p -> p mod 4 = 3 ->
  exists z, zero2 (fp2_new p) = Ret z /\ mul2 z z = Ret z /\ is_square2 z = Ret false.
Proof. exact c17_zero_is_square_refuted. Qed.
Print Assumptions C17_zero_is_square_refuted.

Example C17_ex : let x := mkFp2Elt (mkFpElt 0 (mkFp 7)) (mkFpElt 1 (mkFp 7)) (mkFp2 (mkFp 7)) in
  let y := mkFp2Elt (mkFpElt 1 (mkFp 7)) (mkFpElt 2 (mkFp 7)) (mkFp2 (mkFp 7)) in
  is_square2 x = Ret true /\ valid2 7 x /\ gsquare_mod 7 0 1 /\ is_square2 y = Ret false.
Proof. exact c17_ex. Qed.

(** sgn0 is 1 when both parts are even, else -1 *)
Theorem C18_sgn0_value : forall p x, valid2 p x ->
  sgn0_2 x = (if Z.even (val (re x)) && Z.even (val (im x)) then 1 else -1).
Proof. exact c18_sgn0_value. Qed.
Print Assumptions C18_sgn0_value.

(** for odd p negation flips it exactly unless both parts are non-zero with different parities *)
Theorem C18_sgn0_neg_iff : forall p x, Z.odd p = true -> valid2 p x -> (val (re x) <> 0 \/ val (im x) <> 0) ->
  exists y, neg2 x = Ret y /\ valid2 p y /\
    (sgn0_2 y = - sgn0_2 x <->
     ~ (val (re x) <> 0 /\ val (im x) <> 0 /\ Z.even (val (re x)) <> Z.even (val (im x)))).
Proof. exact c18_sgn0_neg_iff. Qed.
Print Assumptions C18_sgn0_neg_iff.

Theorem C18_sgn0_neg_refuted : forall p, Z.odd p = true -> 1 < p ->
  exists x y, valid2 p x /\ val (re x) <> 0 /\ neg2 x = Ret y /\ sgn0_2 y = -1 /\ sgn0_2 x = -1.
Proof. exact c18_sgn0_neg_refuted. Qed.
Print Assumptions C18_sgn0_neg_refuted.

Example C18_ex : sgn0_2 (mkFp2Elt (mkFpElt 2 (mkFp 7)) (mkFpElt 4 (mkFp 7)) (mkFp2 (mkFp 7))) = 1
  /\ valid2 7 (mkFp2Elt (mkFpElt 2 (mkFp 7)) (mkFpElt 4 (mkFp 7)) (mkFp2 (mkFp 7))).
Proof. exact c18_ex. Qed.

Theorem C19_to_bytes_length : forall p x, valid2 p x ->
  exists b c, elt2_to_bytes_be x = Ret b /\ elt2_to_bytes_le x = Ret c
    /\ Z.of_nat (length b) = size_bytes2 (fp2_new p) /\ Z.of_nat (length c) = size_bytes2 (fp2_new p)
    /\ Forall is_byte b /\ Forall is_byte c.
Proof. exact c19_to_bytes_length. Qed.
Print Assumptions C19_to_bytes_length.

Theorem C19_wrong_length : forall p l, Z.of_nat (length l) <> size_bytes2 (fp2_new p) ->
  fp2_from_bytes_be (fp2_new p) l = Ret (Err "wrong size")
  /\ fp2_from_bytes_le (fp2_new p) l = Ret (Err "wrong size").
Proof. exact c19_wrong_length. Qed.
Print Assumptions C19_wrong_length.

Theorem C19_round_trip : forall p x b, valid2 p x ->
  (elt2_to_bytes_be x = Ret b -> fp2_from_bytes_be (fp2_new p) b = Ret (Ok x))
  /\ (elt2_to_bytes_le x = Ret b -> fp2_from_bytes_le (fp2_new p) b = Ret (Ok x)).
Proof. exact c19_round_trip. Qed.
Print Assumptions C19_round_trip.

(** on the right length the answer is always Ok of the residues of the two halves *)
Theorem C19_from_bytes_right_length : forall p a b, 0 < p ->
  Z.of_nat (length a) = size_bytes (fp_new p) -> Z.of_nat (length b) = size_bytes (fp_new p) ->
  exists x, fp2_from_bytes_be (fp2_new p) (a ++ b) = Ret (Ok x) /\ valid2 p x
    /\ residue p (be_value a) (val (re x)) /\ residue p (be_value b) (val (im x)).
Proof. exact c19_from_bytes_right_length. Qed.
Print Assumptions C19_from_bytes_right_length.

Example C19_ex : let x := mkFp2Elt (mkFpElt 258 (mkFp 65537)) (mkFpElt 3 (mkFp 65537)) (mkFp2 (mkFp 65537)) in
  elt2_to_bytes_be x = Ret [0; 1; 2; 0; 0; 3] /\ valid2 65537 x
  /\ fp2_from_bytes_be (fp2_new 65537) [0; 1; 2; 0; 0; 3] = Ret (Ok x)
  /\ fp2_from_bytes_be (fp2_new 65537) [0; 1; 2] = Ret (Err "wrong size").
Proof. exact c19_ex. Qed.
