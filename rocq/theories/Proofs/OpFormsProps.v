(** C71: the operators written once per way of passing the operands compute the same in every form. *)
From Coq Require Import ZArith Znumtheory Lia String Bool List.
From Verif.Spec Require Import Arith Elements Curve.
From Verif.Model Require Import Out BigInt PrimeField QuadField Scalar OpForms.
From Verif.Model Require WCurve MCurve ECurve.
From Verif.Spec Require WPoints MPoints EPoints.
From Verif.Math Require Import Zp.
From Verif.Proofs Require Import FieldP FieldProps QuadProps.
From Verif.Proofs Require SerialProps DisplayProps QuadEdgeProps WeierProps MontProps EdwProps.
Import ListNotations.
Open Scope Z_scope.

Lemma fp_add_form_add w a b : fp_add_form w a b = add a b.
Proof. destruct w; reflexivity. Qed.
Lemma fp2_add_form_add w a b : fp2_add_form w a b = add2 a b.
Proof. destruct w; reflexivity. Qed.

(** *** C71 *)
(** in each of the four forms a + b is the residue of the sum, and a panic across fields *)
Lemma c71_fp : forall w p q a b, 0 < p -> valid p a -> valid q b ->
  (p = q -> exists x, fp_add_form w a b = Ret x /\ valid p x /\ residue p (val a + val b) (val x))
  /\ (p <> q -> fp_add_form w a b = Panic "elements of different fields").
Proof.
  intros w p q a b Hp Va Vb. rewrite fp_add_form_add. split; intro E.
  - subst q. rewrite (valid_inv _ _ Va), (valid_inv _ _ Vb), add_fe by lia. rewrite <- of_Z_add.
    eexists. split; [reflexivity|]. rewrite <- (valid_inv _ _ Va), <- (valid_inv _ _ Vb).
    split; [apply valid_fe, Hp|]. apply mod_residue, Hp.
  - destruct Va as [Ea _], Vb as [Eb _]. unfold add. rewrite Ea, Eb. unfold fp_eqb. cbn [modulus].
    rewrite (proj2 (Z.eqb_neq p q) E). reflexivity.
Qed.
Lemma c71_fp2 : forall w p q a b, 0 < p -> valid2 p a -> valid2 q b ->
  (p = q -> exists x, fp2_add_form w a b = Ret x /\ valid2 p x
    /\ residue p (val (re a) + val (re b)) (val (re x)) /\ residue p (val (im a) + val (im b)) (val (im x)))
  /\ (p <> q -> fp2_add_form w a b = Panic "elements of different fields").
Proof.
  intros w p q a b Hp Va Vb. rewrite fp2_add_form_add. split; intro E.
  - subst q. rewrite (valid2_ex _ _ Va), (valid2_ex _ _ Vb), add2_ge by lia. rewrite <- !of_Z_add.
    eexists. split; [reflexivity|]. rewrite <- (valid2_ex _ _ Va), <- (valid2_ex _ _ Vb).
    split; [apply valid2_ge, Hp|]. split; apply mod_residue, Hp.
  - destruct Va as [Ea _], Vb as [Eb _]. unfold add2. rewrite Ea, Eb. unfold fp2_eqb, fp_eqb. cbn.
    rewrite (proj2 (Z.eqb_neq p q) E). reflexivity.
Qed.
(** k * P with the scalar on the left, in each of the three forms, is the k-fold sum of P; a scalar of another order
    panics as it does on the right *)
Lemma c71_weier : forall w oc e P A k, WPoints.weier e -> WPoints.wpoint e P A -> 0 <= sk k < sr k ->
  (sr k = WCurve.c_r e -> Z.log2 (WCurve.c_r e) < 2 ^ 63 -> (oc = true -> sk k <> 0) ->
   exists R, w_scalar_mul w oc k P = Ret R
     /\ forall C, WPoints.wpoint e R C <-> multiple (WPoints.wsum e) Infinity A (Z.to_nat (sk k)) C)
  /\ (sr k <> WCurve.c_r e -> w_scalar_mul w oc k P = Panic "Scalar don't match with point").
Proof.
  intros w oc e P A k W HP Hk. split; intro E.
  - intros H63 H0. replace (w_scalar_mul w oc k P) with (WCurve.pt_mul oc P k) by (destruct w; reflexivity).
    apply (WeierProps.c26_scalar_multiplication oc e P A k W HP); [|exact H63|exact H0]. split; [exact E|lia].
  - replace (w_scalar_mul w oc k P) with (WCurve.pt_mul oc P k) by (destruct w; reflexivity).
    destruct HP as (Ee & _). unfold WCurve.pt_mul. rewrite Ee.
    replace (_ =? _) with false by (symmetry; apply Z.eqb_neq; congruence). reflexivity.
Qed.
Lemma c71_mont : forall w oc e P A k, MPoints.mont e -> MPoints.mpoint e P A -> 0 <= sk k < sr k ->
  (sr k = MCurve.c_r e -> Z.log2 (MCurve.c_r e) < 2 ^ 63 -> (oc = true -> sk k <> 0) ->
   exists R, m_scalar_mul w oc k P = Ret R
     /\ forall C, MPoints.mpoint e R C <-> multiple (MPoints.msum e) Infinity A (Z.to_nat (sk k)) C)
  /\ (sr k <> MCurve.c_r e -> m_scalar_mul w oc k P = Panic "Scalar don't match with point").
Proof.
  intros w oc e P A k W HP Hk. split; intro E.
  - intros H63 H0. replace (m_scalar_mul w oc k P) with (MCurve.pt_mul oc P k) by (destruct w; reflexivity).
    apply (MontProps.c34_scalar_multiplication oc e P A k W HP); [|exact H63|exact H0]. split; [exact E|lia].
  - replace (m_scalar_mul w oc k P) with (MCurve.pt_mul oc P k) by (destruct w; reflexivity).
    destruct HP as (Ee & _). unfold MCurve.pt_mul. rewrite Ee.
    replace (_ =? _) with false by (symmetry; apply Z.eqb_neq; congruence). reflexivity.
Qed.
Lemma c71_edw : forall w oc e P A k, EPoints.edw e -> EPoints.epoint e P A -> 0 <= sk k < sr k ->
  (sr k = ECurve.c_r e -> Z.log2 (ECurve.c_r e) < 2 ^ 63 -> (oc = true -> sk k <> 0) ->
   exists R, e_scalar_mul w oc k P = Ret R
     /\ forall C, EPoints.epoint e R C <-> multiple (EPoints.esum e) (0, 1) A (Z.to_nat (sk k)) C)
  /\ (sr k <> ECurve.c_r e -> e_scalar_mul w oc k P = Panic "Scalar don't match with point").
Proof.
  intros w oc e P A k W HP Hk. split; intro E.
  - intros H63 H0. replace (e_scalar_mul w oc k P) with (ECurve.pt_mul oc P k) by (destruct w; reflexivity).
    apply (EdwProps.c37_scalar_multiplication oc e P A k W HP); [|exact H63|exact H0]. split; [exact E|lia].
  - replace (e_scalar_mul w oc k P) with (ECurve.pt_mul oc P k) by (destruct w; reflexivity).
    destruct HP as (Ee & _). unfold ECurve.pt_mul. rewrite Ee.
    replace (_ =? _) with false by (symmetry; apply Z.eqb_neq; congruence). reflexivity.
Qed.
(** n.lift(&f) is the residue of n in f, for machine integers and for written numbers; into Fp2 it is n + 0 i *)
Lemma c71_lift : forall p n, 0 < p ->
  (exists x, lift_int n (fp_new p) = Ret x /\ valid p x /\ residue p n (val x))
  /\ (exists x, lift_int2 n (fp2_new p) = Ret x /\ valid2 p x /\ residue p n (val (re x)) /\ val (im x) = 0)
  /\ (forall r pre s, radix_text r pre -> numeral r s n ->
        (exists x, lift_str (pre ++ s)%string (fp_new p) = Ret x /\ fld x = fp_new p /\ residue p n (val x))
        /\ (exists x, lift_str ("-" ++ pre ++ s)%string (fp_new p) = Ret x /\ fld x = fp_new p /\ residue p (- n) (val x)))
  /\ (forall l r a b, literal l a -> literal r b ->
        exists x, lift_str2 (l ++ "," ++ r)%string (fp2_new p) = Ret x /\ valid2 p x /\ residue p a (val (re x)) /\ residue p b (val (im x))).
Proof.
  intros p n Hp. split; [|split; [|split]].
  - exists (fe (of_Z p n)). unfold lift_int. rewrite from_int_fe by lia. split; [reflexivity|].
    split; [apply valid_fe, Hp|apply mod_residue, Hp].
  - destruct (QuadEdgeProps.c53_integers p n Hp) as (x & E & V & R & I & _). exists x. auto.
  - intros r pre s. apply SerialProps.c13_plain_numbers, Hp.
  - intros l r a b. exact (proj1 (DisplayProps.c52_quadratic_reading p _ Hp) l r a b eq_refl).
Qed.
Example c71_ex : forall w, fp_add_form w (mkFpElt 40 (fp_new 53)) (mkFpElt 20 (fp_new 53)) = Ret (mkFpElt 7 (fp_new 53)).
Proof. intros []; reflexivity. Qed.
