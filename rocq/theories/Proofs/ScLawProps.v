(** C56: laws of scalar multiplication, on all three kinds of curves. *)
From Coq Require Import ZArith Znumtheory Lia String Bool List.
From Verif.Math Require Import Fld Zp RCB FinGroup Edwards MontAdd.
From Verif.Spec Require Import Arith Curve.
From Verif.Model Require Import Out BigInt PrimeField Scalar.
From Verif.Proofs Require Import SmallP FieldProps ScalarProps CurveP OrderP ScLaw.
From Verif.Model Require WCurve MCurve ECurve.
From Verif.Proofs Require WeierP MontP EdwP WeierProps MontProps EdwProps.
From Verif.Math Require Import ECGroup.
Import ListNotations.
Open Scope Z_scope.

Lemma weier_laws e : WPoints.weier e -> Z.log2 (WCurve.c_r e) < 2 ^ 63 ->
  exists (T : Type) (on : T -> Prop) add opp zero rep enc,
    laws (WPoints.wpoint e) (WPoints.wsum e) Infinity (WCurve.c_r e) WCurve.pt_mul WCurve.pt_add WCurve.pt_sub WCurve.pt_neg WCurve.pt_eqb on add opp zero rep enc.
Proof.
  intros W L. destruct (WeierProps.weier_open _ W) as (p & Hp & Hp2 & a & b & ef & ea & eb & NR & WP & WS & WM & WO).
  exists (pt (ZpF p Hp)), (on (ZpF p Hp) F0 a b), (padd (ZpF p Hp) F0 a), (popp (ZpF p Hp)), (Inf (ZpF p Hp)), (WeierP.wrep p Hp a b e), (ap p Hp). split.
  - exact (cgroup p Hp Hp2 F0 a b (nonsing _ a b NR)).
  - intros P A H. apply H.
  - intros P Q A B. apply (WeierP.add_wrep p Hp Hp2 a b e ea eb NR).
  - intros P Q A B. apply (WeierP.sub_wrep p Hp Hp2 a b e ea eb NR).
  - intros P A. apply (WeierP.neg_wrep p Hp Hp2 a b e ea eb).
  - intros oc P A k H V N. rewrite mul_nmul. destruct V as (Er & Hk). destruct (Z.eq_dec (sk k) 0) as [E|NE].
    + destruct oc; [destruct (N eq_refl E)|]. destruct k as [k r0]. cbn [sk sr] in *. subst k.
      destruct (WeierP.mul_zero_wrep p Hp Hp2 a b e ef ea eb false P _ r0 H Er) as (R & HR & ->). eauto.
    + apply (WeierP.mul_wrep p Hp Hp2 a b e ef ea eb NR oc P _ k H Er ltac:(lia) (WeierProps.bits_small _ _ Hk L)).
  - intros P Q A B. apply (WeierP.eqb_wrep p Hp Hp2 a b e).
  - exact WP.
  - intros A n C O. rewrite mul_nmul. apply WM, O.
  - apply ap_inj.
  - reflexivity.
Qed.
Lemma mont_laws e : MPoints.mont e -> Z.log2 (MCurve.c_r e) < 2 ^ 63 ->
  exists (T : Type) (on : T -> Prop) add opp zero rep enc,
    laws (MPoints.mpoint e) (MPoints.msum e) Infinity (MCurve.c_r e) MCurve.pt_mul MCurve.pt_add MCurve.pt_sub MCurve.pt_neg MCurve.pt_eqb on add opp zero rep enc.
Proof.
  intros W L. destruct (MontProps.mont_open _ W) as (p & Hp & Hp2 & a & b & s & ef & ea & eb & es & b1 & NS & NR & WP & WS & WM & WO & WU).
  exists (pt (ZpF p Hp)), (on (ZpF p Hp) a F1 F0), (padd (ZpF p Hp) a F1), (popp (ZpF p Hp)), (Inf (ZpF p Hp)), (MontP.wrep p Hp a e), (ap p Hp). split.
  - exact (cgroup p Hp Hp2 a F1 F0 (MontAdd.mont_nonsing _ a s NS NR)).
  - intros P A H. apply H.
  - intros P Q A B. apply (MontP.add_wrep p Hp Hp2 a b s e ea eb es b1 NS NR).
  - intros P Q A B. apply (MontP.sub_wrep p Hp Hp2 a b s e ea eb es b1 NS NR).
  - intros P A. apply (MontP.neg_wrep p Hp Hp2 a b e ea eb b1).
  - intros oc P A k H V N. rewrite mul_nmul. destruct V as (Er & Hk). destruct (Z.eq_dec (sk k) 0) as [E|NE].
    + destruct oc; [destruct (N eq_refl E)|]. destruct k as [k r0]. cbn [sk sr] in *. subst k.
      destruct (MontP.mul_zero_wrep p Hp Hp2 a b e ef ea eb b1 false P _ r0 H Er) as (R & HR & ->). eauto.
    + apply (MontP.mul_wrep p Hp Hp2 a b s e ef ea eb es b1 NS NR oc P _ k H Er ltac:(lia) (WeierProps.bits_small _ _ Hk L)).
  - intros P Q A B. apply (MontP.eqb_wrep p Hp Hp2 a e).
  - exact WP.
  - intros A n C O. rewrite mul_nmul. apply WM, O.
  - apply ap_inj.
  - reflexivity.
Qed.
Lemma edw_laws e : EPoints.edw e -> Z.log2 (ECurve.c_r e) < 2 ^ 63 ->
  exists (T : Type) (on : T -> Prop) add opp zero rep enc,
    laws (EPoints.epoint e) (EPoints.esum e) (0, 1) (ECurve.c_r e) ECurve.pt_mul ECurve.pt_add ECurve.pt_sub ECurve.pt_neg ECurve.pt_eqb on add opp zero rep enc.
Proof.
  intros W L. destruct (EdwProps.edw_open _ W) as (p & Hp & Hp2 & a & d & ef & ea & ed & AS & AN & DN & WP & WS & WM & WO & WU).
  exists (ZpF p Hp * ZpF p Hp)%type, (Edwards.eon (ZpF p Hp) a d), (eadd (ZpF p Hp) a d), (eopp (ZpF p Hp)), (ezero (ZpF p Hp)), (EdwP.wrep p Hp a d e), (EdwP.zz p Hp). split.
  - exact (egrp p Hp Hp2 a d AS DN).
  - intros P A H. apply H.
  - intros P Q A B. apply (EdwP.add_wrep p Hp Hp2 a d e ea ed AS DN).
  - intros P Q A B. apply (EdwP.sub_wrep p Hp Hp2 a d e ea ed AS DN).
  - intros P A. apply (EdwP.neg_wrep p Hp Hp2 a d e ea ed).
  - intros oc P A k H V N. rewrite mul_enmul. destruct V as (Er & Hk). destruct (Z.eq_dec (sk k) 0) as [E|NE].
    + destruct oc; [destruct (N eq_refl E)|]. destruct k as [k r0]. cbn [sk sr] in *. subst k.
      destruct (EdwP.mul_zero_wrep p Hp Hp2 a d e ef ea ed false P _ r0 H Er) as (R & HR & ->). eauto.
    + apply (EdwP.mul_wrep p Hp Hp2 a d e ef ea ed AS DN oc P _ k H Er ltac:(lia) (WeierProps.bits_small _ _ Hk L)).
  - intros P Q A B. apply (EdwP.eqb_wrep p Hp Hp2 a d e).
  - exact WP.
  - intros A n C O. rewrite mul_enmul. apply WM, O.
  - apply EdwP.zz_inj.
  - apply EdwP.zz_zero, Hp2.
Qed.
Ltac open_laws H LW := destruct H as (T & on & add & opp & zero & rep & enc & LW).
Ltac pt_laws LW H := apply (l_point LW) in H; destruct H as (? & ? & H).

(** *** Weierstrass curves *)
(** both ends of a key agreement compute the same point: l (k P) == k (l P), for every point and either overflow behaviour *)
Lemma c56_agreement : forall e oc oc' P A k l, WPoints.weier e -> Z.log2 (WCurve.c_r e) < 2 ^ 63 -> WPoints.wpoint e P A -> valid_scalar (WCurve.c_r e) k -> valid_scalar (WCurve.c_r e) l ->
  (oc = true \/ oc' = true -> sk k <> 0 /\ sk l <> 0) ->
  WPoints.same (bind (WCurve.pt_mul oc P k) (fun X => WCurve.pt_mul oc' X l)) (bind (WCurve.pt_mul oc' P l) (fun X => WCurve.pt_mul oc X k)).
Proof.
  intros e oc oc' P A k l W H64 HP Vk Vl N. open_laws (weier_laws e W H64) LW. pt_laws LW HP.
  refine (law_agree _ _ _ _ (l_grp LW) _ _ _ _ (l_on LW) (l_mul LW) (l_eqb LW) oc oc' P _ k l HP Vk Vl N).
Qed.
(** k (P + Q) == k P + k Q, k (P - Q) == k P - k Q, k (-P) == -(k P) *)
Lemma c56_distributes : forall e oc oc' P Q A B k, WPoints.weier e -> Z.log2 (WCurve.c_r e) < 2 ^ 63 -> WPoints.wpoint e P A -> WPoints.wpoint e Q B -> valid_scalar (WCurve.c_r e) k -> (oc = true \/ oc' = true -> sk k <> 0) ->
  WPoints.same (bind (WCurve.pt_add P Q) (fun X => WCurve.pt_mul oc X k)) (bind (WCurve.pt_mul oc' P k) (fun X => bind (WCurve.pt_mul oc' Q k) (fun Y => WCurve.pt_add X Y)))
  /\ WPoints.same (bind (WCurve.pt_sub P Q) (fun X => WCurve.pt_mul oc X k)) (bind (WCurve.pt_mul oc' P k) (fun X => bind (WCurve.pt_mul oc' Q k) (fun Y => WCurve.pt_sub X Y)))
  /\ WPoints.same (bind (WCurve.pt_neg P) (fun X => WCurve.pt_mul oc X k)) (bind (WCurve.pt_mul oc' P k) WCurve.pt_neg).
Proof.
  intros e oc oc' P Q A B k W H64 HP HQ V N. open_laws (weier_laws e W H64) LW. pt_laws LW HP. pt_laws LW HQ.
  refine (law_distr _ _ _ _ (l_grp LW) _ _ _ _ _ _ _ (l_on LW) (l_add LW) (l_sub LW) (l_neg LW) (l_mul LW) (l_eqb LW) oc oc' P Q _ _ k HP HQ V N).
Qed.
(** points equal for == have multiples equal for == *)
Lemma c56_congruence : forall e oc oc' P Q A B k, WPoints.weier e -> Z.log2 (WCurve.c_r e) < 2 ^ 63 -> WPoints.wpoint e P A -> WPoints.wpoint e Q B -> valid_scalar (WCurve.c_r e) k -> (oc = true \/ oc' = true -> sk k <> 0) ->
  WCurve.pt_eqb P Q = Ret true -> WPoints.same (WCurve.pt_mul oc P k) (WCurve.pt_mul oc' Q k).
Proof.
  intros e oc oc' P Q A B k W H64 HP HQ V N. open_laws (weier_laws e W H64) LW. pt_laws LW HP. pt_laws LW HQ.
  refine (law_congr _ opp _ _ _ _ _ (l_mul LW) (l_eqb LW) oc oc' P Q _ _ k HP HQ V N).
Qed.
(** scalars whose sum or product stays below r act on every point, inside the subgroup of the base point or not *)
Lemma c56_small_scalars : forall e oc P A k l, WPoints.weier e -> Z.log2 (WCurve.c_r e) < 2 ^ 63 -> WPoints.wpoint e P A -> valid_scalar (WCurve.c_r e) k -> valid_scalar (WCurve.c_r e) l -> (oc = true -> sk k <> 0 /\ sk l <> 0) ->
  (sk k + sk l < WCurve.c_r e -> WPoints.same (bind (WCurve.pt_mul oc P k) (fun X => bind (WCurve.pt_mul oc P l) (fun Y => WCurve.pt_add X Y))) (bind (sc_add k l) (fun m => WCurve.pt_mul oc P m)))
  /\ (sk k * sk l < WCurve.c_r e -> WPoints.same (bind (WCurve.pt_mul oc P k) (fun X => WCurve.pt_mul oc X l)) (bind (sc_mul k l) (fun m => WCurve.pt_mul oc P m))).
Proof.
  intros e oc P A k l W H64 HP Vk Vl N. open_laws (weier_laws e W H64) LW. pt_laws LW HP.
  refine (law_small _ _ _ _ (l_grp LW) _ _ _ _ _ (l_on LW) (l_add LW) (l_mul LW) (l_eqb LW) oc P _ k l HP Vk Vl N).
Qed.
(** on points killed by r: differences and opposites of scalars; for prime r, (1/k)(k P) == P and (l/k)(k P) == l P *)
Lemma c56_killed : forall e P A k l, WPoints.weier e -> Z.log2 (WCurve.c_r e) < 2 ^ 63 -> WPoints.wpoint e P A -> multiple (WPoints.wsum e) Infinity A (Z.to_nat (WCurve.c_r e)) Infinity -> valid_scalar (WCurve.c_r e) k -> valid_scalar (WCurve.c_r e) l ->
  WPoints.same (bind (WCurve.pt_mul false P k) (fun X => bind (WCurve.pt_mul false P l) (fun Y => WCurve.pt_sub X Y))) (bind (sc_sub k l) (fun m => WCurve.pt_mul false P m))
  /\ WPoints.same (bind (WCurve.pt_mul false P k) WCurve.pt_neg) (bind (sc_neg k) (fun m => WCurve.pt_mul false P m))
  /\ (prime (WCurve.c_r e) -> sk k <> 0 ->
      WPoints.same (bind (sc_u32_div 1 k) (fun i => bind (WCurve.pt_mul false P k) (fun X => WCurve.pt_mul false X i))) (Ret P)
      /\ WPoints.same (bind (sc_div l k) (fun q => bind (WCurve.pt_mul false P k) (fun X => WCurve.pt_mul false X q))) (WCurve.pt_mul false P l)).
Proof.
  intros e P A k l W H64 HP HO Vk Vl. open_laws (weier_laws e W H64) LW. pt_laws LW HP. subst A.
  apply (l_mult LW) in HO; [|exact ((l_on LW) _ _ HP)]. rewrite <- (l_zero LW) in HO. apply (l_inj LW) in HO. symmetry in HO.
  refine (law_killed _ _ _ _ (l_grp LW) _ _ _ _ _ _ (l_on LW) (l_sub LW) (l_neg LW) (l_mul LW) (l_eqb LW) P _ k l HP HO Vk Vl).
Qed.

(** *** Montgomery curves *)
(** both ends of a key agreement compute the same point: l (k P) == k (l P), for every point and either overflow behaviour *)
Lemma c56_mont_agreement : forall e oc oc' P A k l, MPoints.mont e -> Z.log2 (MCurve.c_r e) < 2 ^ 63 -> MPoints.mpoint e P A -> valid_scalar (MCurve.c_r e) k -> valid_scalar (MCurve.c_r e) l ->
  (oc = true \/ oc' = true -> sk k <> 0 /\ sk l <> 0) ->
  MPoints.same (bind (MCurve.pt_mul oc P k) (fun X => MCurve.pt_mul oc' X l)) (bind (MCurve.pt_mul oc' P l) (fun X => MCurve.pt_mul oc X k)).
Proof.
  intros e oc oc' P A k l W H64 HP Vk Vl N. open_laws (mont_laws e W H64) LW. pt_laws LW HP.
  refine (law_agree _ _ _ _ (l_grp LW) _ _ _ _ (l_on LW) (l_mul LW) (l_eqb LW) oc oc' P _ k l HP Vk Vl N).
Qed.
(** k (P + Q) == k P + k Q, k (P - Q) == k P - k Q, k (-P) == -(k P) *)
Lemma c56_mont_distributes : forall e oc oc' P Q A B k, MPoints.mont e -> Z.log2 (MCurve.c_r e) < 2 ^ 63 -> MPoints.mpoint e P A -> MPoints.mpoint e Q B -> valid_scalar (MCurve.c_r e) k -> (oc = true \/ oc' = true -> sk k <> 0) ->
  MPoints.same (bind (MCurve.pt_add P Q) (fun X => MCurve.pt_mul oc X k)) (bind (MCurve.pt_mul oc' P k) (fun X => bind (MCurve.pt_mul oc' Q k) (fun Y => MCurve.pt_add X Y)))
  /\ MPoints.same (bind (MCurve.pt_sub P Q) (fun X => MCurve.pt_mul oc X k)) (bind (MCurve.pt_mul oc' P k) (fun X => bind (MCurve.pt_mul oc' Q k) (fun Y => MCurve.pt_sub X Y)))
  /\ MPoints.same (bind (MCurve.pt_neg P) (fun X => MCurve.pt_mul oc X k)) (bind (MCurve.pt_mul oc' P k) MCurve.pt_neg).
Proof.
  intros e oc oc' P Q A B k W H64 HP HQ V N. open_laws (mont_laws e W H64) LW. pt_laws LW HP. pt_laws LW HQ.
  refine (law_distr _ _ _ _ (l_grp LW) _ _ _ _ _ _ _ (l_on LW) (l_add LW) (l_sub LW) (l_neg LW) (l_mul LW) (l_eqb LW) oc oc' P Q _ _ k HP HQ V N).
Qed.
(** points equal for == have multiples equal for == *)
Lemma c56_mont_congruence : forall e oc oc' P Q A B k, MPoints.mont e -> Z.log2 (MCurve.c_r e) < 2 ^ 63 -> MPoints.mpoint e P A -> MPoints.mpoint e Q B -> valid_scalar (MCurve.c_r e) k -> (oc = true \/ oc' = true -> sk k <> 0) ->
  MCurve.pt_eqb P Q = Ret true -> MPoints.same (MCurve.pt_mul oc P k) (MCurve.pt_mul oc' Q k).
Proof.
  intros e oc oc' P Q A B k W H64 HP HQ V N. open_laws (mont_laws e W H64) LW. pt_laws LW HP. pt_laws LW HQ.
  refine (law_congr _ opp _ _ _ _ _ (l_mul LW) (l_eqb LW) oc oc' P Q _ _ k HP HQ V N).
Qed.
(** scalars whose sum or product stays below r act on every point, inside the subgroup of the base point or not *)
Lemma c56_mont_small_scalars : forall e oc P A k l, MPoints.mont e -> Z.log2 (MCurve.c_r e) < 2 ^ 63 -> MPoints.mpoint e P A -> valid_scalar (MCurve.c_r e) k -> valid_scalar (MCurve.c_r e) l -> (oc = true -> sk k <> 0 /\ sk l <> 0) ->
  (sk k + sk l < MCurve.c_r e -> MPoints.same (bind (MCurve.pt_mul oc P k) (fun X => bind (MCurve.pt_mul oc P l) (fun Y => MCurve.pt_add X Y))) (bind (sc_add k l) (fun m => MCurve.pt_mul oc P m)))
  /\ (sk k * sk l < MCurve.c_r e -> MPoints.same (bind (MCurve.pt_mul oc P k) (fun X => MCurve.pt_mul oc X l)) (bind (sc_mul k l) (fun m => MCurve.pt_mul oc P m))).
Proof.
  intros e oc P A k l W H64 HP Vk Vl N. open_laws (mont_laws e W H64) LW. pt_laws LW HP.
  refine (law_small _ _ _ _ (l_grp LW) _ _ _ _ _ (l_on LW) (l_add LW) (l_mul LW) (l_eqb LW) oc P _ k l HP Vk Vl N).
Qed.
(** on points killed by r: differences and opposites of scalars; for prime r, (1/k)(k P) == P and (l/k)(k P) == l P *)
Lemma c56_mont_killed : forall e P A k l, MPoints.mont e -> Z.log2 (MCurve.c_r e) < 2 ^ 63 -> MPoints.mpoint e P A -> multiple (MPoints.msum e) Infinity A (Z.to_nat (MCurve.c_r e)) Infinity -> valid_scalar (MCurve.c_r e) k -> valid_scalar (MCurve.c_r e) l ->
  MPoints.same (bind (MCurve.pt_mul false P k) (fun X => bind (MCurve.pt_mul false P l) (fun Y => MCurve.pt_sub X Y))) (bind (sc_sub k l) (fun m => MCurve.pt_mul false P m))
  /\ MPoints.same (bind (MCurve.pt_mul false P k) MCurve.pt_neg) (bind (sc_neg k) (fun m => MCurve.pt_mul false P m))
  /\ (prime (MCurve.c_r e) -> sk k <> 0 ->
      MPoints.same (bind (sc_u32_div 1 k) (fun i => bind (MCurve.pt_mul false P k) (fun X => MCurve.pt_mul false X i))) (Ret P)
      /\ MPoints.same (bind (sc_div l k) (fun q => bind (MCurve.pt_mul false P k) (fun X => MCurve.pt_mul false X q))) (MCurve.pt_mul false P l)).
Proof.
  intros e P A k l W H64 HP HO Vk Vl. open_laws (mont_laws e W H64) LW. pt_laws LW HP. subst A.
  apply (l_mult LW) in HO; [|exact ((l_on LW) _ _ HP)]. rewrite <- (l_zero LW) in HO. apply (l_inj LW) in HO. symmetry in HO.
  refine (law_killed _ _ _ _ (l_grp LW) _ _ _ _ _ _ (l_on LW) (l_sub LW) (l_neg LW) (l_mul LW) (l_eqb LW) P _ k l HP HO Vk Vl).
Qed.

(** *** Edwards curves *)
(** both ends of a key agreement compute the same point: l (k P) == k (l P), for every point and either overflow behaviour *)
Lemma c56_edw_agreement : forall e oc oc' P A k l, EPoints.edw e -> Z.log2 (ECurve.c_r e) < 2 ^ 63 -> EPoints.epoint e P A -> valid_scalar (ECurve.c_r e) k -> valid_scalar (ECurve.c_r e) l ->
  (oc = true \/ oc' = true -> sk k <> 0 /\ sk l <> 0) ->
  EPoints.same (bind (ECurve.pt_mul oc P k) (fun X => ECurve.pt_mul oc' X l)) (bind (ECurve.pt_mul oc' P l) (fun X => ECurve.pt_mul oc X k)).
Proof.
  intros e oc oc' P A k l W H64 HP Vk Vl N. open_laws (edw_laws e W H64) LW. pt_laws LW HP.
  refine (law_agree _ _ _ _ (l_grp LW) _ _ _ _ (l_on LW) (l_mul LW) (l_eqb LW) oc oc' P _ k l HP Vk Vl N).
Qed.
(** k (P + Q) == k P + k Q, k (P - Q) == k P - k Q, k (-P) == -(k P) *)
Lemma c56_edw_distributes : forall e oc oc' P Q A B k, EPoints.edw e -> Z.log2 (ECurve.c_r e) < 2 ^ 63 -> EPoints.epoint e P A -> EPoints.epoint e Q B -> valid_scalar (ECurve.c_r e) k -> (oc = true \/ oc' = true -> sk k <> 0) ->
  EPoints.same (bind (ECurve.pt_add P Q) (fun X => ECurve.pt_mul oc X k)) (bind (ECurve.pt_mul oc' P k) (fun X => bind (ECurve.pt_mul oc' Q k) (fun Y => ECurve.pt_add X Y)))
  /\ EPoints.same (bind (ECurve.pt_sub P Q) (fun X => ECurve.pt_mul oc X k)) (bind (ECurve.pt_mul oc' P k) (fun X => bind (ECurve.pt_mul oc' Q k) (fun Y => ECurve.pt_sub X Y)))
  /\ EPoints.same (bind (ECurve.pt_neg P) (fun X => ECurve.pt_mul oc X k)) (bind (ECurve.pt_mul oc' P k) ECurve.pt_neg).
Proof.
  intros e oc oc' P Q A B k W H64 HP HQ V N. open_laws (edw_laws e W H64) LW. pt_laws LW HP. pt_laws LW HQ.
  refine (law_distr _ _ _ _ (l_grp LW) _ _ _ _ _ _ _ (l_on LW) (l_add LW) (l_sub LW) (l_neg LW) (l_mul LW) (l_eqb LW) oc oc' P Q _ _ k HP HQ V N).
Qed.
(** points equal for == have multiples equal for == *)
Lemma c56_edw_congruence : forall e oc oc' P Q A B k, EPoints.edw e -> Z.log2 (ECurve.c_r e) < 2 ^ 63 -> EPoints.epoint e P A -> EPoints.epoint e Q B -> valid_scalar (ECurve.c_r e) k -> (oc = true \/ oc' = true -> sk k <> 0) ->
  ECurve.pt_eqb P Q = Ret true -> EPoints.same (ECurve.pt_mul oc P k) (ECurve.pt_mul oc' Q k).
Proof.
  intros e oc oc' P Q A B k W H64 HP HQ V N. open_laws (edw_laws e W H64) LW. pt_laws LW HP. pt_laws LW HQ.
  refine (law_congr _ opp _ _ _ _ _ (l_mul LW) (l_eqb LW) oc oc' P Q _ _ k HP HQ V N).
Qed.
(** scalars whose sum or product stays below r act on every point, inside the subgroup of the base point or not *)
Lemma c56_edw_small_scalars : forall e oc P A k l, EPoints.edw e -> Z.log2 (ECurve.c_r e) < 2 ^ 63 -> EPoints.epoint e P A -> valid_scalar (ECurve.c_r e) k -> valid_scalar (ECurve.c_r e) l -> (oc = true -> sk k <> 0 /\ sk l <> 0) ->
  (sk k + sk l < ECurve.c_r e -> EPoints.same (bind (ECurve.pt_mul oc P k) (fun X => bind (ECurve.pt_mul oc P l) (fun Y => ECurve.pt_add X Y))) (bind (sc_add k l) (fun m => ECurve.pt_mul oc P m)))
  /\ (sk k * sk l < ECurve.c_r e -> EPoints.same (bind (ECurve.pt_mul oc P k) (fun X => ECurve.pt_mul oc X l)) (bind (sc_mul k l) (fun m => ECurve.pt_mul oc P m))).
Proof.
  intros e oc P A k l W H64 HP Vk Vl N. open_laws (edw_laws e W H64) LW. pt_laws LW HP.
  refine (law_small _ _ _ _ (l_grp LW) _ _ _ _ _ (l_on LW) (l_add LW) (l_mul LW) (l_eqb LW) oc P _ k l HP Vk Vl N).
Qed.
(** on points killed by r: differences and opposites of scalars; for prime r, (1/k)(k P) == P and (l/k)(k P) == l P *)
Lemma c56_edw_killed : forall e P A k l, EPoints.edw e -> Z.log2 (ECurve.c_r e) < 2 ^ 63 -> EPoints.epoint e P A -> multiple (EPoints.esum e) (0, 1) A (Z.to_nat (ECurve.c_r e)) (0, 1) -> valid_scalar (ECurve.c_r e) k -> valid_scalar (ECurve.c_r e) l ->
  EPoints.same (bind (ECurve.pt_mul false P k) (fun X => bind (ECurve.pt_mul false P l) (fun Y => ECurve.pt_sub X Y))) (bind (sc_sub k l) (fun m => ECurve.pt_mul false P m))
  /\ EPoints.same (bind (ECurve.pt_mul false P k) ECurve.pt_neg) (bind (sc_neg k) (fun m => ECurve.pt_mul false P m))
  /\ (prime (ECurve.c_r e) -> sk k <> 0 ->
      EPoints.same (bind (sc_u32_div 1 k) (fun i => bind (ECurve.pt_mul false P k) (fun X => ECurve.pt_mul false X i))) (Ret P)
      /\ EPoints.same (bind (sc_div l k) (fun q => bind (ECurve.pt_mul false P k) (fun X => ECurve.pt_mul false X q))) (ECurve.pt_mul false P l)).
Proof.
  intros e P A k l W H64 HP HO Vk Vl. open_laws (edw_laws e W H64) LW. pt_laws LW HP. subst A.
  apply (l_mult LW) in HO; [|exact ((l_on LW) _ _ HP)]. rewrite <- (l_zero LW) in HO. apply (l_inj LW) in HO. symmetry in HO.
  refine (law_killed _ _ _ _ (l_grp LW) _ _ _ _ _ _ (l_on LW) (l_sub LW) (l_neg LW) (l_mul LW) (l_eqb LW) P _ k l HP HO Vk Vl).
Qed.

(** examples on the small curves; on E7 every point is killed by r, on E19 and E29 the point chosen is not *)
Lemma small7 k : 0 <= k < 11 -> valid_scalar (WCurve.c_r WeierProps.E7) (mkScalar k 11).
Proof. intro H. split; [reflexivity|exact H]. Qed.
Example c56_ex : WPoints.weier WeierProps.E7 /\ WPoints.wpoint WeierProps.E7 (WeierProps.pt7 1 1 1) (Affine 1 1) /\ prime (WCurve.c_r WeierProps.E7)
  /\ valid_scalar (WCurve.c_r WeierProps.E7) (mkScalar 7 11) /\ valid_scalar (WCurve.c_r WeierProps.E7) (mkScalar 4 11)
  /\ bind (WCurve.pt_mul true (WeierProps.pt7 1 1 1) (mkScalar 7 11)) (fun X => WCurve.pt_mul true X (mkScalar 4 11)) = Ret (WeierProps.pt7 1 2 5)
  /\ bind (WCurve.pt_mul true (WeierProps.pt7 1 1 1) (mkScalar 4 11)) (fun X => WCurve.pt_mul true X (mkScalar 7 11)) = Ret (WeierProps.pt7 2 4 3)
  /\ WCurve.pt_eqb (WeierProps.pt7 1 2 5) (WeierProps.pt7 2 4 3) = Ret true
  /\ sc_u32_div 1 (mkScalar 7 11) = Ret (mkScalar 8 11)
  /\ multiple (WPoints.wsum WeierProps.E7) Infinity (Affine 1 1) (Z.to_nat (WCurve.c_r WeierProps.E7)) Infinity.
Proof.
  split; [exact WeierProps.weier7|]. split; [exact WeierProps.gen7|]. split; [apply prime_small; reflexivity|]. do 2 (split; [apply small7; lia|]).
  do 4 (split; [vm_compute; reflexivity|]). exact (proj2 (proj2 (proj2 (proj2 (proj2 WeierProps.c26_ex))))).
Qed.
Example c56_mont_ex : MPoints.mont MontProps.E19 /\ MPoints.mpoint MontProps.E19 (MontProps.pt19 12 2 2) (Affine 6 1)
  /\ bind (MCurve.pt_mul true (MontProps.pt19 12 2 2) (mkScalar 3 5)) (fun X => MCurve.pt_mul true X (mkScalar 4 5)) = Ret (MontProps.pt19 8 4 12)
  /\ bind (MCurve.pt_mul true (MontProps.pt19 12 2 2) (mkScalar 4 5)) (fun X => MCurve.pt_mul true X (mkScalar 3 5)) = Ret (MontProps.pt19 14 7 2).
Proof. split; [exact MontProps.mont19|]. split; [exact MontProps.other19|]. vm_compute. auto. Qed.
(** scalars that wrap around do not act on every point: on E19, 3P + 4P differs from (3 + 4 mod 5) P *)
Lemma c56_mont_wrapping_scalars_refuted : exists e P A k l L M, MPoints.mont e /\ MPoints.mpoint e P A /\ valid_scalar (MCurve.c_r e) k /\ valid_scalar (MCurve.c_r e) l
  /\ bind (MCurve.pt_mul true P k) (fun X => bind (MCurve.pt_mul true P l) (fun Y => MCurve.pt_add X Y)) = Ret L
  /\ bind (sc_add k l) (fun m => MCurve.pt_mul true P m) = Ret M /\ MCurve.pt_eqb L M = Ret false.
Proof.
  exists MontProps.E19, (MontProps.pt19 12 2 2), (Affine 6 1), (mkScalar 3 5), (mkScalar 4 5). do 2 eexists.
  split; [exact MontProps.mont19|]. split; [exact MontProps.other19|]. do 2 (split; [split; [reflexivity|cbn; lia]|]).
  do 2 (split; [vm_compute; reflexivity|]). vm_compute. reflexivity.
Qed.
Example c56_edw_ex : EPoints.edw EdwProps.E29 /\ EPoints.epoint EdwProps.E29 (EdwProps.pt29 6 10 1 2) (3, 5)
  /\ bind (ECurve.pt_mul true (EdwProps.pt29 6 10 1 2) (mkScalar 3 7)) (fun X => ECurve.pt_mul true X (mkScalar 4 7)) = Ret (EdwProps.pt29 12 23 25 18)
  /\ bind (ECurve.pt_mul true (EdwProps.pt29 6 10 1 2) (mkScalar 4 7)) (fun X => ECurve.pt_mul true X (mkScalar 3 7)) = Ret (EdwProps.pt29 8 25 7 12).
Proof. split; [exact EdwProps.edw29|]. split; [exact EdwProps.other29|]. vm_compute. auto. Qed.
