(** C68: the power loop and the square root of Fp2, were Fp2Elt::one() to return the field's one. *)

From Coq Require Import ZArith Znumtheory Lia String Bool List Ring Field.
From Verif.Math Require Import Fld Pow Zp Residue Quad Gauss Limb Pock Prime_p256 Prime_p384 Prime_p521 Prime_p448 Prime_pbls Prime_psecp.
From Verif.Spec Require Import Arith Elements Gauss.
From Verif.Spec Require Instances.
From Verif.Model Require Import Out BigInt PrimeField QuadField.
From Verif.Proofs Require Import FieldP FieldProps BytesP QuadProps.
Import ListNotations.
Open Scope Z_scope.
From Verif.Proofs Require Import PowLoopProps.

(** what the loop computes, from the field's one: x to the exponent with the top bit of every word skipped *)
Theorem C68_power_loop : forall p x e, 0 < p -> valid2 p x -> 0 <= e ->
  exists o k r, one2 (fp2_new p) = Ret o /\ skips_top_bits e k
    /\ pow_biguint2_from (Ret o) x e = Ret r /\ pow_bigint2_from (Ret o) x e = Ret r /\ is_power p x k r.
Proof. exact c68_power_loop. Qed.
Print Assumptions C68_power_loop.

(** that exponent is the right one exactly below 2^31 *)
Theorem C68_exponent_right_iff : forall e k, 0 <= e -> skips_top_bits e k -> (k = e <-> e < 2 ^ 31).
Proof. exact c68_exponent_right_iff. Qed.
Print Assumptions C68_exponent_right_iff.

(** with exact powers, the formulas of sqrt return a root of every square *)
Theorem C68_sqrt_formula : forall p pw x, prime p -> p mod 4 = 3 -> valid2 p x ->
  (forall y e, valid2 p y -> 0 <= e <= (p - 1) / 2 -> exists r, pw y e = Ret r /\ is_power p y e r) ->
  exists r, sqrt2_using pw x = Ret r /\ valid2 p r
    /\ (mul2 r r = Ret x <-> gsquare_mod p (val (re x)) (val (im x))).
Proof. exact c68_sqrt_formula. Qed.
Print Assumptions C68_sqrt_formula.

(** so, below 2^32, sqrt would be right as soon as one() returned the field's one *)
Theorem C68_sqrt_below_2_32 : forall p x, prime p -> p mod 4 = 3 -> p < 2 ^ 32 -> valid2 p x ->
  exists o r, one2 (fp2_new p) = Ret o /\ sqrt2_using (pow_bigint2_from (Ret o)) x = Ret r /\ valid2 p r
    /\ (mul2 r r = Ret x <-> gsquare_mod p (val (re x)) (val (im x))).
Proof. exact c68_sqrt_below_2_32. Qed.
Print Assumptions C68_sqrt_below_2_32.

(** from 2^32 on it would not: the root of 1 comes out as 2 to the shortened exponent *)
Theorem C68_sqrt_of_one : forall p, prime p -> p mod 4 = 3 ->
  exists o k r, one2 (fp2_new p) = Ret o /\ skips_top_bits ((p - 1) / 2) k
    /\ sqrt2_using (pow_bigint2_from (Ret o)) o = Ret r /\ valid2 p r
    /\ residue p (2 ^ k) (val (re r)) /\ val (im r) = 0 /\ (mul2 r r = Ret o <-> (p | 4 ^ k - 1)).
Proof. exact c68_sqrt_of_one. Qed.
Print Assumptions C68_sqrt_of_one.

(** 1 would get a wrong root in the field of every shipped modulus that is 3 mod 4, and already at 2^32 + 15 *)
Theorem C68_sqrt_large_refuted : forall p,
  In p [2 ^ 32 + 15; Verif.Spec.Instances.w_p Verif.Spec.Instances.std_P256; Verif.Spec.Instances.w_p Verif.Spec.Instances.std_P384;
        Verif.Spec.Instances.w_p Verif.Spec.Instances.std_P521; Verif.Spec.Instances.w_p Verif.Spec.Instances.std_SECP256K1;
        Verif.Spec.Instances.w_p Verif.Spec.Instances.std_BLS12381G1; Verif.Spec.Instances.m_p Verif.Spec.Instances.std_CURVE448] ->
  prime p /\ p mod 4 = 3 /\ exists o r, one2 (fp2_new p) = Ret o /\ valid2 p o
    /\ sqrt2_using (pow_bigint2_from (Ret o)) o = Ret r /\ mul2 r r <> Ret o.
Proof. exact c68_sqrt_large_refuted. Qed.
Print Assumptions C68_sqrt_large_refuted.

(** modulo 103, with a working one(): the root of 3 + 4 i is 2 + i; the exponent 2^31 + 5 is read as 5 *)
Example C68_ex : let F := fp2_new 103 in let e a b := mkFp2Elt (mkFpElt a (mkFp 103)) (mkFpElt b (mkFp 103)) F in
  sqrt2_using (pow_bigint2_from (one2 F)) (e 3 4) = Ret (e 2 1)
  /\ sqrt2 (e 3 4) = Panic "not implemented"
  /\ pow_bigint2_from (one2 F) (e 2 1) 5 = Ret (e 65 41)
  /\ pow_bigint2_from (one2 F) (e 2 1) (2 ^ 31 + 5) = Ret (e 65 41)
  /\ pow_bigint2_from (one2 F) (e 2 1) (2 ^ 32 + 5) = Ret (e 17 67)
  /\ skips_top_bits (2 ^ 31 + 5) 5.
Proof. exact c68_ex. Qed.
