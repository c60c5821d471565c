(** C71: the operators written once per way of passing the operands compute the same in every form. *)

From Coq Require Import ZArith Znumtheory Lia String Bool List.
From Verif.Spec Require Import Arith Elements Curve.
From Verif.Model Require Import Out BigInt PrimeField QuadField Scalar OpForms.
From Verif.Model Require WCurve MCurve ECurve.
From Verif.Spec Require WPoints MPoints EPoints.
From Verif.Math Require Import Zp.
From Verif.Proofs Require Import FieldP FieldProps QuadProps.
From Verif.Proofs Require SerialProps DisplayProps QuadEdgeProps WeierProps MontProps EdwProps.
Import ListNotations.
Open Scope Z_scope.
From Verif.Proofs Require Import OpFormsProps.

(** in each of the four forms a + b is the residue of the sum, and a panic across fields *)
Theorem C71_fp : forall w p q a b, 0 < p -> valid p a -> valid q b ->
  (p = q -> exists x, fp_add_form w a b = Ret x /\ valid p x /\ residue p (val a + val b) (val x))
  /\ (p <> q -> fp_add_form w a b = Panic "elements of different fields").
Proof. exact c71_fp. Qed.
Print Assumptions C71_fp.

Theorem C71_fp2 : forall w p q a b, 0 < p -> valid2 p a -> valid2 q b ->
  (p = q -> exists x, fp2_add_form w a b = Ret x /\ valid2 p x
    /\ residue p (val (re a) + val (re b)) (val (re x)) /\ residue p (val (im a) + val (im b)) (val (im x)))
  /\ (p <> q -> fp2_add_form w a b = Panic "elements of different fields").
Proof. exact c71_fp2. Qed.
Print Assumptions C71_fp2.

(** k * P with the scalar on the left, in each of the three forms, is the k-fold sum of P; a scalar of another order
    panics as it does on the right *)
Theorem C71_weier : forall w oc e P A k, WPoints.weier e -> WPoints.wpoint e P A -> 0 <= sk k < sr k ->
  (sr k = WCurve.c_r e -> Z.log2 (WCurve.c_r e) < 2 ^ 63 -> (oc = true -> sk k <> 0) ->
   exists R, w_scalar_mul w oc k P = Ret R
     /\ forall C, WPoints.wpoint e R C <-> multiple (WPoints.wsum e) Infinity A (Z.to_nat (sk k)) C)
  /\ (sr k <> WCurve.c_r e -> w_scalar_mul w oc k P = Panic "Scalar don't match with point").
Proof. exact c71_weier. Qed.
Print Assumptions C71_weier.

Theorem C71_mont : forall w oc e P A k, MPoints.mont e -> MPoints.mpoint e P A -> 0 <= sk k < sr k ->
  (sr k = MCurve.c_r e -> Z.log2 (MCurve.c_r e) < 2 ^ 63 -> (oc = true -> sk k <> 0) ->
   exists R, m_scalar_mul w oc k P = Ret R
     /\ forall C, MPoints.mpoint e R C <-> multiple (MPoints.msum e) Infinity A (Z.to_nat (sk k)) C)
  /\ (sr k <> MCurve.c_r e -> m_scalar_mul w oc k P = Panic "Scalar don't match with point").
Proof. exact c71_mont. Qed.
Print Assumptions C71_mont.

Theorem C71_edw : forall w oc e P A k, EPoints.edw e -> EPoints.epoint e P A -> 0 <= sk k < sr k ->
  (sr k = ECurve.c_r e -> Z.log2 (ECurve.c_r e) < 2 ^ 63 -> (oc = true -> sk k <> 0) ->
   exists R, e_scalar_mul w oc k P = Ret R
     /\ forall C, EPoints.epoint e R C <-> multiple (EPoints.esum e) (0, 1) A (Z.to_nat (sk k)) C)
  /\ (sr k <> ECurve.c_r e -> e_scalar_mul w oc k P = Panic "Scalar don't match with point").
Proof. exact c71_edw. Qed.
Print Assumptions C71_edw.

(** n.lift(&f) is the residue of n in f, for machine integers and for written numbers; into Fp2 it is n + 0 i *)
Theorem C71_lift : forall p n, 0 < p ->
  (exists x, lift_int n (fp_new p) = Ret x /\ valid p x /\ residue p n (val x))
  /\ (exists x, lift_int2 n (fp2_new p) = Ret x /\ valid2 p x /\ residue p n (val (re x)) /\ val (im x) = 0)
  /\ (forall r pre s, radix_text r pre -> numeral r s n ->
        (exists x, lift_str (pre ++ s)%string (fp_new p) = Ret x /\ fld x = fp_new p /\ residue p n (val x))
        /\ (exists x, lift_str ("-" ++ pre ++ s)%string (fp_new p) = Ret x /\ fld x = fp_new p /\ residue p (- n) (val x)))
  /\ (forall l r a b, literal l a -> literal r b ->
        exists x, lift_str2 (l ++ "," ++ r)%string (fp2_new p) = Ret x /\ valid2 p x /\ residue p a (val (re x)) /\ residue p b (val (im x))).
Proof. exact c71_lift. Qed.
Print Assumptions C71_lift.

Example C71_ex : forall w, fp_add_form w (mkFpElt 40 (fp_new 53)) (mkFpElt 20 (fp_new 53)) = Ret (mkFpElt 7 (fp_new 53)).
Proof. exact c71_ex. Qed.
