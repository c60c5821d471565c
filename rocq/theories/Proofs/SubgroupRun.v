(** Proofs for C60: tests of membership in the group generated by the base point, on each kind of curve. *)
From Coq Require Import ZArith Znumtheory Lia String Ascii Bool List.
From Verif.Math Require Import FinGroup.
From Verif.Spec Require Import Arith Curve Order.
From Verif.Spec Require Instances.
From Verif.Model Require Import Out BigInt PrimeField Scalar CurveExtras.
From Verif.Model Require Instances.
From Verif.Model Require WCurve MCurve ECurve.
From Verif.Proofs Require Import FieldProps ScalarProps ScLaw ScLawProps Subgroup OrderRun.
From Verif.Proofs Require WeierProps MontProps EdwProps InstProps OrderProps.
From Verif.Spec Require Export Shipped Membership.
Import Spec.Instances Model.Instances.
Import ListNotations.
Open Scope Z_scope.

Ltac done_vm := vm_compute; reflexivity.
Lemma order_to_scalar r : 0 < r -> scalar_new r r = Ret (mkScalar 0 r).
Proof.
  intro H. unfold scalar_new, mod_floor. destruct (Z.eqb_spec r 0); [lia|]. cbn [bind]. rewrite Z.mod_same by lia. reflexivity.
Qed.

(** *** Weierstrass curves *)
Lemma w_member_of X s h : w_shipped X s -> 0 <= h -> Z.gcd h (w_r s) = 1 ->
  (exists e, X = Ret e /\ clears (WPoints.won e) (WPoints.wsum e) Infinity (Affine (w_gx s) (w_gy s)) h (w_r s)) -> w_member_test X s.
Proof.
  intros (e & HX & Ep & _ & _ & Er & _ & _ & Pr & (W & _ & _ & L & _) & MG & _ & HG & HM) h0 Hg (e' & HX' & HC). rewrite HX in HX'. injection HX' as <-.
  assert (r1 : 1 < w_r s) by (destruct Pr; lia). rewrite <- Er in *.
  exists e, (mkScalar (WCurve.c_r e - 1) (WCurve.c_r e)). split; [exact HX|]. split; [apply small_scalar; unfold w_get_order; lia|].
  intros oc P A HP. rewrite <- Er. pose proof (weier_laws e W L) as HL. open_laws HL LW.
  apply (l_point LW) in HG. destruct HG as (G' & EG & HG). rewrite EG in *.
  apply (member_test LW MG G' HG r1 (proj2 (HM (Z.to_nat (WCurve.c_r e))) ltac:(rewrite Z2Nat.id by lia; apply Z.divide_refl)) h h0 Hg oc P A HP).
  apply HC. apply HP.
Qed.
Lemma w_order_scalar_of X s : w_shipped X s -> w_order_scalar X.
Proof.
  intros (e & HX & Ep & _ & _ & Er & _ & _ & Pr & (W & _ & _ & L & _) & MG & _ & HG & HM). assert (r1 : 1 < w_r s) by (destruct Pr; lia). rewrite <- Er in *.
  exists e, (mkScalar 0 (WCurve.c_r e)). split; [exact HX|]. split; [apply order_to_scalar; unfold w_get_order; lia|].
  intros P A HP. split; [|exact (WeierProps.c26_zero_scalar_panics e P A W HP)].
  pose proof (weier_laws e W L) as HL. open_laws HL LW. destruct (order_scalar LW r1 P A HP) as (Z0 & E & HZ).
  exists Z0. split; [exact E|]. split; [exact HZ|]. destruct (WeierProps.c27_is_zero e Z0 _ W HZ) as (_ & _ & _ & H & _). apply H. reflexivity.
Qed.
Lemma w_fooled_of X s A q : w_shipped X s -> 0 <= q -> Z.gcd q (w_r s) = 1 -> A <> Infinity ->
  (forall e, X = Ret e -> WPoints.weier e -> modulus (WCurve.c_f e) = w_p s -> (exists P, WPoints.wpoint e P A) /\ multiple (WPoints.wsum e) Infinity A (Z.to_nat q) Infinity) -> w_order_fooled X s A.
Proof.
  intros HS Hq Hg NZ H. pose proof (w_order_scalar_of X s HS) as (e & k & HX & Ek & HO). destruct HS as (e_ & HX_ & Ep & _ & _ & Er & _ & _ & Pr & (W & _ & _ & L & _) & MG & _ & HG & HM). rewrite HX in HX_. injection HX_ as <-.
  destruct (H e HX W Ep) as ((P & HP) & M). destruct (HO P A HP) as ((Z0 & EZ & _ & HZ) & _).
  assert (r1 : 1 < w_r s) by (destruct Pr; lia). rewrite <- Er in *.
  exists e, k, P, Z0. split; [exact HX|]. split; [exact Ek|]. split; [exact HP|]. split; [exact EZ|]. split; [exact HZ|]. rewrite <- Er.
  pose proof (weier_laws e W L) as HL. open_laws HL LW. apply (l_point LW) in HG. destruct HG as (G' & EG & HG). rewrite EG in *.
  exact (not_generated LW MG G' HG r1 (proj2 (HM (Z.to_nat (WCurve.c_r e))) ltac:(rewrite Z2Nat.id by lia; apply Z.divide_refl)) P A q HP Hq Hg M NZ).
Qed.

(** *** Montgomery curves *)
Lemma m_member_of X s h : m_shipped X s -> 0 <= h -> Z.gcd h (m_r s) = 1 ->
  (exists e, X = Ret e /\ clears (MPoints.mon e) (MPoints.msum e) Infinity (Affine (m_gx s) (m_gy s)) h (m_r s)) -> m_member_test X s.
Proof.
  intros (e & HX & Ep & _ & _ & _ & Er & _ & _ & Pr & (W & _ & _ & L & _) & MG & _ & HG & HM) h0 Hg (e' & HX' & HC). rewrite HX in HX'. injection HX' as <-.
  assert (r1 : 1 < m_r s) by (destruct Pr; lia). rewrite <- Er in *.
  exists e, (mkScalar (MCurve.c_r e - 1) (MCurve.c_r e)). split; [exact HX|]. split; [apply small_scalar; unfold m_get_order; lia|].
  intros oc P A HP. rewrite <- Er. pose proof (mont_laws e W L) as HL. open_laws HL LW.
  apply (l_point LW) in HG. destruct HG as (G' & EG & HG). rewrite EG in *.
  apply (member_test LW MG G' HG r1 (proj2 (HM (Z.to_nat (MCurve.c_r e))) ltac:(rewrite Z2Nat.id by lia; apply Z.divide_refl)) h h0 Hg oc P A HP).
  apply HC. apply HP.
Qed.
Lemma m_order_scalar_of X s : m_shipped X s -> m_order_scalar X.
Proof.
  intros (e & HX & Ep & _ & _ & _ & Er & _ & _ & Pr & (W & _ & _ & L & _) & MG & _ & HG & HM). assert (r1 : 1 < m_r s) by (destruct Pr; lia). rewrite <- Er in *.
  exists e, (mkScalar 0 (MCurve.c_r e)). split; [exact HX|]. split; [apply order_to_scalar; unfold m_get_order; lia|].
  intros P A HP. split; [|exact (MontProps.c34_zero_scalar_panics e P A W HP)].
  pose proof (mont_laws e W L) as HL. open_laws HL LW. destruct (order_scalar LW r1 P A HP) as (Z0 & E & HZ).
  exists Z0. split; [exact E|]. split; [exact HZ|]. destruct (MontProps.c27_mont_is_zero e Z0 _ W HZ) as (_ & _ & _ & H & _). apply H. reflexivity.
Qed.
Lemma m_fooled_of X s A q : m_shipped X s -> 0 <= q -> Z.gcd q (m_r s) = 1 -> A <> Infinity ->
  (forall e, X = Ret e -> MPoints.mont e -> modulus (MCurve.c_f e) = m_p s -> (exists P, MPoints.mpoint e P A) /\ multiple (MPoints.msum e) Infinity A (Z.to_nat q) Infinity) -> m_order_fooled X s A.
Proof.
  intros HS Hq Hg NZ H. pose proof (m_order_scalar_of X s HS) as (e & k & HX & Ek & HO). destruct HS as (e_ & HX_ & Ep & _ & _ & _ & Er & _ & _ & Pr & (W & _ & _ & L & _) & MG & _ & HG & HM). rewrite HX in HX_. injection HX_ as <-.
  destruct (H e HX W Ep) as ((P & HP) & M). destruct (HO P A HP) as ((Z0 & EZ & _ & HZ) & _).
  assert (r1 : 1 < m_r s) by (destruct Pr; lia). rewrite <- Er in *.
  exists e, k, P, Z0. split; [exact HX|]. split; [exact Ek|]. split; [exact HP|]. split; [exact EZ|]. split; [exact HZ|]. rewrite <- Er.
  pose proof (mont_laws e W L) as HL. open_laws HL LW. apply (l_point LW) in HG. destruct HG as (G' & EG & HG). rewrite EG in *.
  exact (not_generated LW MG G' HG r1 (proj2 (HM (Z.to_nat (MCurve.c_r e))) ltac:(rewrite Z2Nat.id by lia; apply Z.divide_refl)) P A q HP Hq Hg M NZ).
Qed.

(** *** Edwards curves *)
Lemma e_member_of X s h : e_shipped X s -> 0 <= h -> Z.gcd h (e_r s) = 1 ->
  (exists e, X = Ret e /\ clears (EPoints.eon e) (EPoints.esum e) (0, 1) (e_gx s, e_gy s) h (e_r s)) -> e_member_test X s.
Proof.
  intros (e & HX & Ep & _ & _ & Er & _ & _ & Pr & (W & _ & _ & L & _) & MG & _ & HG & HM) h0 Hg (e' & HX' & HC). rewrite HX in HX'. injection HX' as <-.
  assert (r1 : 1 < e_r s) by (destruct Pr; lia). rewrite <- Er in *.
  exists e, (mkScalar (ECurve.c_r e - 1) (ECurve.c_r e)). split; [exact HX|]. split; [apply small_scalar; unfold e_get_order; lia|].
  intros oc P A HP. rewrite <- Er. pose proof (edw_laws e W L) as HL. open_laws HL LW.
  apply (l_point LW) in HG. destruct HG as (G' & EG & HG). rewrite EG in *.
  apply (member_test LW MG G' HG r1 (proj2 (HM (Z.to_nat (ECurve.c_r e))) ltac:(rewrite Z2Nat.id by lia; apply Z.divide_refl)) h h0 Hg oc P A HP).
  apply HC. apply HP.
Qed.
Lemma e_order_scalar_of X s : e_shipped X s -> e_order_scalar X.
Proof.
  intros (e & HX & Ep & _ & _ & Er & _ & _ & Pr & (W & _ & _ & L & _) & MG & _ & HG & HM). assert (r1 : 1 < e_r s) by (destruct Pr; lia). rewrite <- Er in *.
  exists e, (mkScalar 0 (ECurve.c_r e)). split; [exact HX|]. split; [apply order_to_scalar; unfold e_get_order; lia|].
  intros P A HP. split; [|exact (EdwProps.c37_zero_scalar_panics e P A W HP)].
  pose proof (edw_laws e W L) as HL. open_laws HL LW. destruct (order_scalar LW r1 P A HP) as (Z0 & E & HZ).
  exists Z0. split; [exact E|]. split; [exact HZ|]. apply (EdwProps.c38_is_zero e Z0 _ W HZ). reflexivity.
Qed.
Lemma e_fooled_of X s A q : e_shipped X s -> 0 <= q -> Z.gcd q (e_r s) = 1 -> A <> (0, 1) ->
  (forall e, X = Ret e -> EPoints.edw e -> modulus (ECurve.c_f e) = e_p s -> (exists P, EPoints.epoint e P A) /\ multiple (EPoints.esum e) (0, 1) A (Z.to_nat q) (0, 1)) -> e_order_fooled X s A.
Proof.
  intros HS Hq Hg NZ H. pose proof (e_order_scalar_of X s HS) as (e & k & HX & Ek & HO). destruct HS as (e_ & HX_ & Ep & _ & _ & Er & _ & _ & Pr & (W & _ & _ & L & _) & MG & _ & HG & HM). rewrite HX in HX_. injection HX_ as <-.
  destruct (H e HX W Ep) as ((P & HP) & M). destruct (HO P A HP) as ((Z0 & EZ & _ & HZ) & _).
  assert (r1 : 1 < e_r s) by (destruct Pr; lia). rewrite <- Er in *.
  exists e, k, P, Z0. split; [exact HX|]. split; [exact Ek|]. split; [exact HP|]. split; [exact EZ|]. split; [exact HZ|]. rewrite <- Er.
  pose proof (edw_laws e W L) as HL. open_laws HL LW. apply (l_point LW) in HG. destruct HG as (G' & EG & HG). rewrite EG in *.
  exact (not_generated LW MG G' HG r1 (proj2 (HM (Z.to_nat (ECurve.c_r e))) ltac:(rewrite Z2Nat.id by lia; apply Z.divide_refl)) P A q HP Hq Hg M NZ).
Qed.
