(** The addition formulas on any nonsingular curve: C66. *)
From Coq Require Import ZArith Znumtheory Lia String Bool List.
From Verif.Math Require Import Fld Zp Residue RCB MontAdd ECGroup Excep.
From Verif.Spec Require Import Arith Curve WPoints MPoints EPoints Exceptions.
From Verif.Model Require Import Out BigInt PrimeField Scalar.
From Verif.Model Require WCurve MCurve ECurve.
From Verif.Proofs Require Import FieldP FieldProps CurveP SmallP ExcepP.
From Verif.Proofs Require EdOddP.
From Verif.Proofs Require WeierP MontP EdwP WeierProps MontProps EdwProps.
Import ListNotations.
Open Scope Z_scope.

Ltac open_w H := destruct (weier_any_open _ H) as (p & Hp & Hp2 & a & b & ef & ea & eb & NS & WP & WS & WM & WW).
Ltac open_m H := destruct (mont_any_open _ H) as (p & Hp & Hp2 & a & b & s & ef & ea & eb & es & b1 & NS & WP & WS & WM & WW).
Ltac open_p WP H :=
  let HH := fresh in pose proof H as HH; apply WP in HH;
  let R := fresh "R" in let A' := fresh "A'" in destruct HH as (A' & -> & R).
Lemma ordinate_ap p Hp (D : pt (ZpF p Hp)) (y : ZpF p Hp) : ordinate (ap p Hp D) (zv y) <-> ord (ZpF p Hp) D y.
Proof.
  destruct D as [|u v]; cbn; split; [intros [x E]; discriminate E|intros []| |].
  - intros [x E]. apply Zp_eq. pose proof (f_equal (fun q => match q with Affine _ y => y | Infinity => 0 end) E) as G. exact G.
  - intros ->. exists (zv u). reflexivity.
Qed.
Lemma w_null_ap e p Hp : WCurve.c_f e = mkFp p -> forall P, w_null e P <-> wnull p Hp e P.
Proof. intros ef P. unfold w_null, wnull. rewrite ef. reflexivity. Qed.
Lemma m_null_ap e p Hp : MCurve.c_f e = mkFp p -> forall P, m_null e P <-> mnull p Hp e P.
Proof. intros ef P. unfold m_null, mnull. rewrite ef. reflexivity. Qed.

(** *** Weierstrass *)
(** the sum of P and Q is the sum of the points, unless P - Q has order 2: then it is (0, 0, 0) *)
Lemma c66_addition : forall e P Q A B, weier_any e -> wpoint e P A -> wpoint e Q B ->
  exists R D, WCurve.pt_add P Q = Ret R /\ wsum e A (negative (modulus (WCurve.c_f e)) B) D
    /\ (ordinate D 0 -> w_null e R) /\ (~ ordinate D 0 -> forall C, wpoint e R C <-> wsum e A B C).
Proof.
  intros e P Q A B W HP HQ. open_w W. open_p WP HP. open_p WP HQ.
  destruct (add_any p Hp Hp2 a b e ea eb NS P Q _ _ R R0) as (T & E & H).
  exists T, (ap p Hp (padd _ F0 a A' (popp _ A'0))). split; [exact E|].
  rewrite ef. cbn [modulus]. rewrite <- (neg_ap p Hp). split; [apply WS; [apply R|apply on_popp, R0|reflexivity]|].
  change 0 with (zv (F0 : ZpF p Hp)). rewrite ordinate_ap, (w_null_ap e p Hp ef).
  destruct H as [[O N]|[O H]]; split; intro HO; try contradiction; [exact N|].
  intro C. rewrite WS by apply R || apply R0. apply (WeierProps.wrep_iff _ _ _ _ _ _ _ WP H).
Qed.
(** doubling has no exception *)
Lemma c66_doubling : forall e P A, weier_any e -> wpoint e P A ->
  exists R, WCurve.core_doubling P = Ret R /\ forall C, wpoint e R C <-> wsum e A A C.
Proof.
  intros e P A W HP. open_w W. open_p WP HP.
  destruct (double_any p Hp Hp2 a b e ea eb NS P _ R) as (T & E & H). exists T. split; [exact E|].
  intro C. rewrite WS by apply R. apply (WeierProps.wrep_iff _ _ _ _ _ _ _ WP H).
Qed.
Lemma w_spoiled_ap e p Hp (Hp2 : 2 < p) a b A k : WCurve.c_f e = mkFp p ->
  (forall A B C, on (ZpF p Hp) F0 a b A -> on (ZpF p Hp) F0 a b B ->
        (wsum e (ap p Hp A) (ap p Hp B) C <-> C = ap p Hp (padd (ZpF p Hp) F0 a A B))) ->
  (forall A n C, on (ZpF p Hp) F0 a b A ->
        (multiple (wsum e) Infinity (ap p Hp A) n C <-> C = ap p Hp (nmul p Hp F0 a n A))) ->
  on (ZpF p Hp) F0 a b A -> (w_spoiled e (ap p Hp A) k <-> spoils (wbad p Hp a A) k).
Proof.
  intros ef WS WM O. unfold w_spoiled. apply spoils_ext. intros m Hm. unfold wbad.
  rewrite <- ordinate_ap. rewrite ef. cbn [modulus]. rewrite <- (neg_ap p Hp). split.
  - intros (M & D & HM & HD & HO). apply WM in HM; [|exact O]. subst M.
    apply WS in HD; [|apply (on_nmul p Hp Hp2), O|apply on_popp, O]. subst D. exact HO.
  - intro HO. eexists _, _. split; [apply WM; [exact O|reflexivity]|].
    split; [apply WS; [apply (on_nmul p Hp Hp2), O|apply on_popp, O|reflexivity]|exact HO].
Qed.
(** k P is the k-fold sum, unless an addition on the way meets a difference of order 2: then it is (0, 0, 0) *)
Lemma c66_multiplication : forall oc e P A k, weier_any e -> wpoint e P A -> sr k = WCurve.c_r e -> 0 < sk k -> bits (sk k) < 2 ^ 64 ->
  exists R, WCurve.pt_mul oc P k = Ret R
    /\ (w_spoiled e A (sk k) -> w_null e R)
    /\ (~ w_spoiled e A (sk k) -> forall C, wpoint e R C <-> multiple (wsum e) Infinity A (Z.to_nat (sk k)) C).
Proof.
  intros oc e P A k W HP Er Hk H64. open_w W. open_p WP HP.
  destruct (mul_any p Hp Hp2 a b e ef ea eb NS oc P _ k R Er Hk H64) as (T & E & H). exists T. split; [exact E|].
  rewrite (w_spoiled_ap e p Hp Hp2 a b A' (sk k) ef WS WM) by apply R. rewrite (w_null_ap e p Hp ef).
  destruct H as [[O N]|[O H]]; split; intro HO; try contradiction; [exact N|].
  intro C. rewrite WM by apply R. apply (WeierProps.wrep_iff _ _ _ _ _ _ _ WP H).
Qed.
(** a point of odd order never meets the exception, whatever the order of the curve *)
Lemma c66_odd_order : forall oc e P A k n, weier_any e -> wpoint e P A -> sr k = WCurve.c_r e -> 0 < sk k -> bits (sk k) < 2 ^ 64 ->
  Nat.Odd n -> multiple (wsum e) Infinity A n Infinity ->
  exists R, WCurve.pt_mul oc P k = Ret R
    /\ forall C, wpoint e R C <-> multiple (wsum e) Infinity A (Z.to_nat (sk k)) C.
Proof.
  intros oc e P A k n W HP Er Hk H64 Hn HO.
  destruct (c66_multiplication oc e P A k W HP Er Hk H64) as (R & E & _ & H). exists R. split; [exact E|]. apply H. clear R E H.
  open_w W. open_p WP HP. rewrite (w_spoiled_ap e p Hp Hp2 a b A' (sk k) ef WS WM) by apply R.
  intros (i & m & _ & _ & _ & B). apply WM in HO; [|apply R].
  assert (N : nmul p Hp F0 a n A' = Inf _).
  { destruct (nmul p Hp F0 a n A'); [reflexivity|discriminate HO]. }
  exact (odd_diff p Hp Hp2 F0 a b (disc_nonsing _ a b NS) A' n _ (proj2 (proj2 R)) Hn N B).
Qed.
(** (0, 0, 0) absorbs every operation, compares equal to every point, is no point and not the identity *)
Lemma c66_no_point : forall oc e N P A k, weier_any e -> w_null e N -> wpoint e P A ->
  sr k = WCurve.c_r e -> 0 < sk k -> bits (sk k) < 2 ^ 64 ->
  WCurve.pt_add N P = Ret N /\ WCurve.pt_add P N = Ret N /\ WCurve.pt_sub N P = Ret N /\ WCurve.pt_sub P N = Ret N
  /\ WCurve.pt_add N N = Ret N /\ WCurve.pt_neg N = Ret N /\ WCurve.pt_mul oc N k = Ret N
  /\ WCurve.pt_eqb N P = Ret true /\ WCurve.pt_eqb P N = Ret true
  /\ WCurve.pt_is_zero N = false /\ forall B, ~ wpoint e N B.
Proof.
  intros oc e N P A k W HN HP Er Hk H64. open_w W. open_p WP HP. apply (w_null_ap e p Hp ef) in HN.
  pose proof (neg_null p Hp Hp2 a b e ea eb N HN) as Neg.
  destruct (WeierP.neg_wrep p Hp Hp2 a b e ea eb P _ R) as (P' & EP & RP).
  split; [exact (add_null_l p Hp Hp2 a b e ea eb N P _ HN (or_introl R))|].
  split; [exact (add_null_r p Hp Hp2 a b e ea eb P N _ HN R)|].
  split; [unfold WCurve.pt_sub; rewrite EP; exact (add_null_l p Hp Hp2 a b e ea eb N P' _ HN (or_introl RP))|].
  split; [unfold WCurve.pt_sub; rewrite Neg; exact (add_null_r p Hp Hp2 a b e ea eb P N _ HN R)|].
  split; [exact (add_null_l p Hp Hp2 a b e ea eb N N (Inf _) HN (or_intror HN))|].
  split; [exact Neg|].
  split; [exact (mul_null p Hp Hp2 a b e ef ea eb NS oc N k HN Er Hk H64)|].
  destruct (eqb_null_l p Hp Hp2 a b e N P _ HN (or_introl R)) as [E1 E2].
  split; [exact E1|]. split; [exact E2|]. split; [exact (is_zero_null p Hp e N HN)|].
  intros B HB. apply WP in HB as (B' & _ & RB). exact (null_no p Hp a b e N B' HN RB).
Qed.
(** the condition on the curve under which C24 is stated is necessary: without it some sum is wrong *)
Lemma c66_condition : forall e, weier_any e ->
  (weier e <-> forall P Q A B, wpoint e P A -> wpoint e Q B ->
     exists R, WCurve.pt_add P Q = Ret R /\ forall C, wpoint e R C <-> wsum e A B C).
Proof.
  intros e W. split; [intros H P Q A B; apply WeierProps.c24_addition, H|]. intro H. open_w W. apply WW. intros x E.
  assert (O : on (ZpF p Hp) F0 a b (Aff _ x F0)) by exact (flat_on _ a b x E).
  pose proof (WeierP.wrep_mk p Hp a b e x F0 F1 _ (WeierP.rep_one _ x F0) O) as RP.
  destruct (WeierP.identity_wrep p Hp Hp2 a b e ef ea eb) as (I & _ & RI).
  destruct (H (WCurve.mkPoint e (WeierP.mk p Hp x F0 F1)) I (ap p Hp (Aff _ x F0)) (ap p Hp (Inf _))) as (R & ER & HR);
    [apply WP; eauto|apply WP; eauto|].
  destruct (add_any p Hp Hp2 a b e ea eb NS _ I _ _ RP RI) as (T & ET & [[_ N]|[N _]]).
  - rewrite ET in ER. assert (T = R) by congruence. subst T.
    specialize (HR (ap p Hp (Aff _ x F0))). destruct HR as [_ HR].
    assert (HW : wpoint e R (ap p Hp (Aff _ x F0))).
    { apply HR. apply WS; [exact O|exact Logic.I|]. rewrite padd_inf_r. reflexivity. }
    apply WP in HW as (B' & _ & RB). exact (null_no p Hp a b e R B' N RB).
  - apply N. cbn [popp]. rewrite padd_inf_r. reflexivity.
Qed.

(** *** Montgomery *)
Lemma c66_mont_addition : forall e P Q A B, mont_any e -> mpoint e P A -> mpoint e Q B ->
  exists R D, MCurve.pt_add P Q = Ret R /\ msum e A (negative (modulus (MCurve.c_f e)) B) D
    /\ (ordinate D (val (MCurve.c_s e)) -> m_null e R)
    /\ (~ ordinate D (val (MCurve.c_s e)) -> forall C, mpoint e R C <-> msum e A B C).
Proof.
  intros e P Q A B W HP HQ. open_m W. open_p WP HP. open_p WP HQ.
  destruct (m_add_any p Hp Hp2 a b s e ea eb es b1 NS P Q _ _ R R0) as (T & E & H).
  exists T, (ap p Hp (padd _ a F1 A' (popp _ A'0))). split; [exact E|].
  rewrite ef, es. cbn [modulus val fe]. rewrite <- (neg_ap p Hp). split; [apply WS; [apply R|apply on_popp, R0|reflexivity]|].
  rewrite ordinate_ap, (m_null_ap e p Hp ef).
  destruct H as [[O N]|[O H]]; split; intro HO; try contradiction; [exact N|].
  intro C. rewrite WS by apply R || apply R0. apply (MontProps.wrep_iff _ _ _ _ _ _ WP H).
Qed.
(** adding a point to itself has no exception, whatever s *)
Lemma c66_mont_doubling : forall e P A, mont_any e -> mpoint e P A ->
  exists R, MCurve.pt_add P P = Ret R /\ forall C, mpoint e R C <-> msum e A A C.
Proof.
  intros e P A W HP. open_m W. open_p WP HP.
  destruct (m_double_any p Hp Hp2 a b s e ea eb es b1 NS P _ R) as (T & E & H). exists T. split; [exact E|].
  intro C. rewrite WS by apply R. apply (MontProps.wrep_iff _ _ _ _ _ _ WP H).
Qed.
Lemma m_spoiled_ap e p Hp (Hp2 : 2 < p) a (s : ZpF p Hp) A k : MCurve.c_f e = mkFp p -> MCurve.c_s e = fe s ->
  (forall A B C, on (ZpF p Hp) a F1 F0 A -> on (ZpF p Hp) a F1 F0 B ->
        (msum e (ap p Hp A) (ap p Hp B) C <-> C = ap p Hp (padd (ZpF p Hp) a F1 A B))) ->
  (forall A n C, on (ZpF p Hp) a F1 F0 A ->
        (multiple (msum e) Infinity (ap p Hp A) n C <-> C = ap p Hp (nmul p Hp a F1 n A))) ->
  on (ZpF p Hp) a F1 F0 A -> (m_spoiled e (ap p Hp A) k <-> spoils (mbad p Hp a s A) k).
Proof.
  intros ef es WS WM O. unfold m_spoiled. apply spoils_ext. intros m Hm. unfold mbad.
  rewrite <- ordinate_ap. rewrite ef, es. cbn [modulus val fe]. rewrite <- (neg_ap p Hp). split.
  - intros (M & D & HM & HD & HO). apply WM in HM; [|exact O]. subst M.
    apply WS in HD; [|apply (on_nmul p Hp Hp2), O|apply on_popp, O]. subst D. exact HO.
  - intro HO. eexists _, _. split; [apply WM; [exact O|reflexivity]|].
    split; [apply WS; [apply (on_nmul p Hp Hp2), O|apply on_popp, O|reflexivity]|exact HO].
Qed.
Lemma c66_mont_multiplication : forall oc e P A k, mont_any e -> mpoint e P A -> sr k = MCurve.c_r e -> 0 < sk k -> bits (sk k) < 2 ^ 64 ->
  exists R, MCurve.pt_mul oc P k = Ret R
    /\ (m_spoiled e A (sk k) -> m_null e R)
    /\ (~ m_spoiled e A (sk k) -> forall C, mpoint e R C <-> multiple (msum e) Infinity A (Z.to_nat (sk k)) C).
Proof.
  intros oc e P A k W HP Er Hk H64. open_m W. open_p WP HP.
  destruct (m_mul_any p Hp Hp2 a b s e ef ea eb es b1 NS oc P _ k R Er Hk H64) as (T & E & H). exists T. split; [exact E|].
  rewrite (m_spoiled_ap e p Hp Hp2 a s A' (sk k) ef es WS WM) by apply R. rewrite (m_null_ap e p Hp ef).
  destruct H as [[O N]|[O H]]; split; intro HO; try contradiction; [exact N|].
  intro C. rewrite WM by apply R. apply (MontProps.wrep_iff _ _ _ _ _ _ WP H).
Qed.
Lemma c66_mont_no_point : forall oc e N P A k, mont_any e -> m_null e N -> mpoint e P A ->
  sr k = MCurve.c_r e -> 0 < sk k -> bits (sk k) < 2 ^ 64 ->
  MCurve.pt_add N P = Ret N /\ MCurve.pt_add P N = Ret N /\ MCurve.pt_sub N P = Ret N /\ MCurve.pt_sub P N = Ret N
  /\ MCurve.pt_add N N = Ret N /\ MCurve.pt_neg N = Ret N /\ MCurve.pt_mul oc N k = Ret N
  /\ MCurve.pt_eqb N P = Ret true /\ MCurve.pt_eqb P N = Ret true
  /\ MCurve.pt_is_zero N = false /\ forall B, ~ mpoint e N B.
Proof.
  intros oc e N P A k W HN HP Er Hk H64. open_m W. open_p WP HP. apply (m_null_ap e p Hp ef) in HN.
  pose proof (m_neg_null p Hp Hp2 a b e ea eb b1 N HN) as Neg.
  destruct (MontP.neg_wrep p Hp Hp2 a b e ea eb b1 P _ R) as (P' & EP & RP).
  split; [exact (m_add_null_l p Hp Hp2 a b s e ea eb es b1 N P _ HN (or_introl R))|].
  split; [exact (m_add_null_r p Hp Hp2 a b s e ea eb es b1 P N _ HN R)|].
  split; [unfold MCurve.pt_sub; rewrite EP; exact (m_add_null_l p Hp Hp2 a b s e ea eb es b1 N P' _ HN (or_introl RP))|].
  split; [unfold MCurve.pt_sub; rewrite Neg; exact (m_add_null_r p Hp Hp2 a b s e ea eb es b1 P N _ HN R)|].
  split; [exact (m_add_null_l p Hp Hp2 a b s e ea eb es b1 N N (Inf _) HN (or_intror HN))|].
  split; [exact Neg|].
  split; [exact (m_mul_null p Hp Hp2 a b s e ef ea eb es b1 NS oc N k HN Er Hk H64)|].
  destruct (m_eqb_null_l p Hp Hp2 a e N P _ HN (or_introl R)) as [E1 E2].
  split; [exact E1|]. split; [exact E2|]. split; [exact (m_is_zero_null p Hp e N HN)|].
  intros B HB. apply WP in HB as (B' & _ & RB). exact (m_null_no p Hp a b e eb b1 N B' HN RB).
Qed.
(** the sums are right for all points exactly when no point of the curve has ordinate s *)
Lemma c66_mont_condition : forall e, mont_any e ->
  (mont e <-> forall P Q A B, mpoint e P A -> mpoint e Q B ->
     exists R, MCurve.pt_add P Q = Ret R /\ forall C, mpoint e R C <-> msum e A B C).
Proof.
  intros e W. split; [intros H P Q A B; apply MontProps.c33_addition, H|]. intro H. open_m W. apply WW. intros x E.
  assert (O : on (ZpF p Hp) a F1 F0 (Aff _ x s)) by exact (tall_on _ a s x E).
  pose proof (MontP.wrep_mk p Hp a e x s F1 _ (WeierP.rep_one _ x s) O) as RP.
  destruct (MontP.identity_wrep p Hp Hp2 a b e ef ea eb b1) as (I & _ & RI).
  destruct (H (MCurve.mkPoint e (MontP.mk p Hp x s F1)) I (ap p Hp (Aff _ x s)) (ap p Hp (Inf _))) as (R & ER & HR);
    [apply WP; eauto|apply WP; eauto|].
  destruct (m_add_any p Hp Hp2 a b s e ea eb es b1 NS _ I _ _ RP RI) as (T & ET & [[_ N]|[N _]]).
  - rewrite ET in ER. assert (T = R) by congruence. subst T.
    specialize (HR (ap p Hp (Aff _ x s))). destruct HR as [_ HR].
    assert (HW : mpoint e R (ap p Hp (Aff _ x s))).
    { apply HR. apply WS; [exact O|exact Logic.I|]. rewrite padd_inf_r. reflexivity. }
    apply WP in HW as (B' & _ & RB). exact (m_null_no p Hp a b e eb b1 R B' N RB).
  - apply N. cbn [popp]. rewrite padd_inf_r. reflexivity.
Qed.

(** *** Edwards *)
(** on any curve the sum is computed without a panic; it is the sum where the addition law is defined, and no
    point (third coordinate 0) where it is not *)
Lemma c66_edw_addition : forall e P Q A B, edw_any e -> epoint e P A -> epoint e Q B ->
  exists R, ECurve.pt_add P Q = Ret R
    /\ (e_undefined e A B -> val (ECurve.pz (ECurve.pc R)) = 0 /\ forall C, ~ epoint e R C)
    /\ (~ e_undefined e A B -> forall C, epoint e R C <-> esum e A B C).
Proof.
  intros e P Q A B W HP HQ. destruct (edw_any_open _ W) as (p & Hp & Hp2 & a & d & ef & ea & ed & WP).
  open_p WP HP. open_p WP HQ.
  destruct (e_add_any p Hp Hp2 a d e ea ed P Q _ _ R R0) as (T & E & HU & HD). exists T. split; [exact E|].
  rewrite (edu_zz p Hp Hp2 d e ef ed). split; intro U.
  - destruct (HU U) as (X & Y & V & ->). split; [reflexivity|]. intros C (_ & _ & _ & _ & _ & (N & _) & _). apply N. reflexivity.
  - specialize (HD U). intro C. unfold esum. rewrite ef, ea, ed. cbn [modulus val fe].
    rewrite (e_sum_any p Hp Hp2 a d _ _ U). rewrite WP. split; [|intros ->; eauto].
    intros (C' & -> & RC). f_equal. eapply EdwProps.wrep_fun; eassumption.
Qed.

(** whatever a and d are, operations on points and on what comes out of them never panic *)
Lemma c66_edw_total : forall oc e P Q k, edw_any e -> e_tuple e P -> e_tuple e Q ->
  (exists R, ECurve.pt_add P Q = Ret R /\ e_tuple e R) /\ (exists R, ECurve.pt_sub P Q = Ret R /\ e_tuple e R)
  /\ (exists R, ECurve.pt_neg P = Ret R /\ e_tuple e R)
  /\ (sr k = ECurve.c_r e -> 0 < sk k -> bits (sk k) < 2 ^ 64 -> exists R, ECurve.pt_mul oc P k = Ret R /\ e_tuple e R)
  /\ forall S A, epoint e S A -> e_tuple e S.
Proof.
  intros oc e P Q k W HP HQ. destruct (edw_any_open _ W) as (p & Hp & Hp2 & a & d & ef & ea & ed & WP).
  assert (I : forall S, e_tuple e S <-> EdOddP.tup p Hp a d e S) by exact (EdOddP.tup_iff p Hp Hp2 a d e ef ea ed).
  assert (X : forall o : out ECurve.Point, (exists R, o = Ret R /\ EdOddP.tup p Hp a d e R) -> exists R, o = Ret R /\ e_tuple e R).
  { intros o (R & E & H). exists R. split; [exact E|]. apply I, H. }
  apply I in HP. apply I in HQ. split; [|split; [|split; [|split]]].
  - apply X. exact (EdOddP.tup_add p Hp Hp2 a d e ea ed P Q HP HQ).
  - apply X. unfold ECurve.pt_sub. destruct (EdOddP.tup_neg p Hp Hp2 a d e ea ed Q HQ) as (N & -> & HN). cbn [bind].
    exact (EdOddP.tup_add p Hp Hp2 a d e ea ed P N HP HN).
  - apply X. exact (EdOddP.tup_neg p Hp Hp2 a d e ea ed P HP).
  - intros Er Hk H64. apply X. exact (EdOddP.tup_mul p Hp Hp2 a d e ef ea ed oc P k HP Er Hk H64).
  - intros S A HS. apply I. apply WP in HS. destruct HS as (A' & _ & R). exact (EdOddP.wrep_tup p Hp a d e S A' R).
Qed.
(** every sum of two points is right exactly when the curve is complete or all its points lie on the axes *)
Lemma c66_edw_condition : forall e, edw_any e -> ~ (modulus (ECurve.c_f e) | val (ECurve.c_a e)) -> ~ (modulus (ECurve.c_f e) | val (ECurve.c_d e)) ->
  ((forall P Q A B, epoint e P A -> epoint e Q B -> exists R C, ECurve.pt_add P Q = Ret R /\ epoint e R C /\ esum e A B C)
   <-> edw e \/ forall x y, eon e (x, y) -> x = 0 \/ y = 0).
Proof.
  intros e W NA ND. pose proof W as W0. destruct W0 as (_ & _ & Va & Vd).
  assert (Q1 : (forall P Q A B, epoint e P A -> epoint e Q B -> exists R C, ECurve.pt_add P Q = Ret R /\ epoint e R C /\ esum e A B C)
    <-> forall P Q A B, epoint e P A -> epoint e Q B -> ~ e_undefined e A B).
  { split.
    - intros H P Q A B HP HQ U. destruct (H P Q A B HP HQ) as (R & C & E & RC & _).
      destruct (c66_edw_addition e P Q A B W HP HQ) as (R' & E' & N & _). rewrite E in E'. injection E' as <-.
      exact (proj2 (N U) C RC).
    - intros H P Q A B HP HQ. destruct (c66_edw_addition e P Q A B W HP HQ) as (R & E & _ & Y). specialize (Y (H P Q A B HP HQ)).
      destruct (edw_any_open _ W) as (p & Hp & Hp2 & a & d & ef & ea & ed & WP). pose proof (H P Q A B HP HQ) as U. open_p WP HP. open_p WP HQ.
      rewrite (edu_zz p Hp Hp2 d e ef ed) in U.
      exists R, (EdwP.zz p Hp (Edwards.eadd (ZpF p Hp) a d A' A'0)). split; [exact E|].
      assert (S : esum e (EdwP.zz p Hp A') (EdwP.zz p Hp A'0) (EdwP.zz p Hp (Edwards.eadd (ZpF p Hp) a d A' A'0))).
      { unfold esum. rewrite ef, ea, ed. cbn [modulus val fe]. apply (e_sum_any p Hp Hp2 a d _ _ U). reflexivity. }
      split; [apply Y; exact S|exact S]. }
  rewrite Q1. clear Q1. pose proof W as W1. destruct W1 as (_ & Hq2 & _). destruct (edw_any_open _ W) as (p & Hp & Hp2 & a & d & ef & ea & ed & WP).
  rewrite ef, ea in NA. rewrite ef, ed in ND. cbn [modulus val fe] in NA, ND.
  pose proof (EdOddP.div_nz p Hp a NA) as Na. pose proof (EdOddP.div_nz p Hp d ND) as Nd.
  assert (Q2 : (forall P Q A B, epoint e P A -> epoint e Q B -> ~ e_undefined e A B)
    <-> forall A B, Edwards.eon (ZpF p Hp) a d A -> Edwards.eon (ZpF p Hp) a d B -> ~ edu p Hp d A B).
  { split.
    - intros H A B OA OB. rewrite <- (edu_zz p Hp Hp2 d e ef ed).
      assert (X : forall A, Edwards.eon (ZpF p Hp) a d A -> exists P, epoint e P (EdwP.zz p Hp A)).
      { intros [x y] O. exists (ECurve.mkPoint e (EdwP.mk p Hp x y (Fmul x y) F1)). apply WP. exists (x, y). split; [reflexivity|].
        apply EdwP.wrep_mk; [apply (EdwP.erep_one (ZpF p Hp))|exact O]. }
      destruct (X A OA) as [P HP], (X B OB) as [Q HQ]. exact (H P Q _ _ HP HQ).
    - intros H P Q A B HP HQ. open_p WP HP. open_p WP HQ. rewrite (edu_zz p Hp Hp2 d e ef ed). apply H; [apply R|apply R0]. }
  rewrite Q2, (EdOddP.all_defined p Hp Hp2 a d Na Nd). clear Q2.
  assert (Q3 : edw e <-> is_sq p Hp a /\ ~ is_sq p Hp d).
  { unfold edw. rewrite ea, ed, ef in *. cbn [modulus val fe] in *. rewrite <- !(EdOddP.sq_div p Hp Hp2). split.
    - intros (_ & _ & _ & _ & _ & S & N). split; [exact S|]. intros [s E]. exact (N s E).
    - intros [S N]. do 4 (split; [assumption|]). split; [exact NA|]. split; [exact S|]. intros s E. apply N. exists s. exact E. }
  rewrite Q3. assert (Q4 : (forall x y, eon e (x, y) -> x = 0 \/ y = 0) <-> forall x y : ZpF p Hp, Edwards.eon (ZpF p Hp) a d (x, y) -> Fmul x y = F0).
  { unfold eon. rewrite ea, ed, ef. cbn [modulus val fe]. split.
    - intros H x y O. apply (EdwP.eon_zz p Hp Hp2) in O. destruct (H _ _ O) as [Z|Z].
      + assert (x = F0) as -> by (apply Zp_eq; exact Z). apply (EdOddP.mul_0_l (ZpF p Hp)).
      + assert (y = F0) as -> by (apply Zp_eq; exact Z). apply (EdOddP.mul_0_r (ZpF p Hp)).
    - intros H x y O. destruct (EdwP.on_unzz p Hp Hp2 a d _ O) as ([u v] & E & OO).
      pose proof (f_equal fst E) as E1. pose proof (f_equal snd E) as E2. cbn [fst snd EdwP.zz] in E1, E2. rewrite E1, E2.
      destruct (Fmul_integral (ZpF p Hp) u v (H u v OO)) as [-> | ->]; [left|right]; reflexivity. }
  rewrite Q4. reflexivity.
Qed.
(** the points of odd order: every sum is defined, of odd order, and computed *)
Lemma c66_edw_odd_sums : forall e P Q A B m n, edw_smooth e -> epoint e P A -> epoint e Q B ->
  Nat.Odd m -> multiple (esum e) (0, 1) A m (0, 1) -> Nat.Odd n -> multiple (esum e) (0, 1) B n (0, 1) ->
  exists R C, ECurve.pt_add P Q = Ret R /\ epoint e R C /\ esum e A B C /\ multiple (esum e) (0, 1) C (m * n) (0, 1).
Proof.
  intros e P Q A B m n (W & NA & ND & NS) HP HQ Om Mm On Mn. destruct (edw_any_open _ W) as (p & Hp & Hp2 & a & d & ef & ea & ed & WP).
  open_p WP HP. open_p WP HQ. rewrite ef, ea in NA. rewrite ef, ed in ND. rewrite ef, ea, ed in NS. unfold esum in *. rewrite ef, ea, ed in Mm, Mn |- *. cbn [modulus val fe] in *.
  pose proof (EdOddP.div_nz p Hp a NA) as Na. pose proof (EdOddP.div_nz p Hp d ND) as Nd.
  assert (Nad : a <> d) by (intros ->; apply NS; rewrite Z.sub_diag; exists 0; reflexivity).
  destruct (EdOddP.order_beta p Hp Hp2 a d Nad e ef ed A' m (proj2 (proj2 R)) Mm) as (E1 & B1 & AB1).
  destruct (EdOddP.order_beta p Hp Hp2 a d Nad e ef ed A'0 n (proj2 (proj2 R0)) Mn) as (E2 & B2 & AB2).
  rewrite <- AB1, <- AB2. rewrite <- AB1 in R. rewrite <- AB2 in R0.
  set (M := EdOdd.beta _ _ _ A') in *. set (N := EdOdd.beta _ _ _ A'0) in *. clearbody M N. clear HP HQ.
  assert (O1 : EdOddP.odd p Hp a d M) by (exists m; split; assumption).
  assert (O2 : EdOddP.odd p Hp a d N) by (exists n; split; assumption).
  destruct (EdOddP.odd_pt_add p Hp Hp2 a d Na Nd Nad e ea ed P Q M N B1 B2 O1 O2 R R0) as (T & ET & HT).
  destruct (EdOddP.odd_law p Hp Hp2 a d Na Nd Nad M N B1 B2 O1 O2) as [U EA].
  eexists T, _. split; [exact ET|]. split; [apply WP; eexists; split; [reflexivity|exact HT]|]. split.
  - apply (e_sum_any p Hp Hp2 a d _ _ U). rewrite EA. reflexivity.
  - apply (EdOddP.odd_multiple p Hp Hp2 a d Na Nd Nad).
    + apply (EdOddP.o_on p Hp Hp2 a d); assumption.
    + apply (EdOddP.odd_add p Hp Hp2 a d Na Nd Nad); assumption.
    + rewrite (EdOddP.mul_sum p Hp Hp2 a d Na Nd Nad m n M N B1 B2 E1 E2). symmetry. apply (EdwP.zz_zero p Hp Hp2).
Qed.
(** multiplication of a point of odd order is right whatever the curve *)
Lemma c66_edw_odd_order : forall oc e P A k n, edw_smooth e -> epoint e P A -> sr k = ECurve.c_r e -> 0 < sk k -> bits (sk k) < 2 ^ 64 ->
  Nat.Odd n -> multiple (esum e) (0, 1) A n (0, 1) ->
  exists R C, ECurve.pt_mul oc P k = Ret R /\ epoint e R C
    /\ forall C', multiple (esum e) (0, 1) A (Z.to_nat (sk k)) C' <-> C' = C.
Proof.
  intros oc e P A k n (W & NA & ND & NS) HP Er Hk H64 On Mn. destruct (edw_any_open _ W) as (p & Hp & Hp2 & a & d & ef & ea & ed & WP).
  open_p WP HP. rewrite ef, ea in NA. rewrite ef, ed in ND. rewrite ef, ea, ed in NS. unfold esum in *. rewrite ef, ea, ed in Mn |- *. cbn [modulus val fe] in *.
  pose proof (EdOddP.div_nz p Hp a NA) as Na. pose proof (EdOddP.div_nz p Hp d ND) as Nd.
  assert (Nad : a <> d) by (intros ->; apply NS; rewrite Z.sub_diag; exists 0; reflexivity).
  destruct (EdOddP.order_beta p Hp Hp2 a d Nad e ef ed A' n (proj2 (proj2 R)) Mn) as (E1 & B1 & AB1).
  rewrite <- AB1. rewrite <- AB1 in R. set (M := EdOdd.beta _ _ _ A') in *. clearbody M. clear HP.
  assert (O1 : EdOddP.odd p Hp a d M) by (exists n; split; assumption).
  destruct (EdOddP.odd_pt_mul p Hp Hp2 a d Na Nd Nad e ef ea ed oc P M k B1 O1 R Er Hk H64) as (T & ET & HT).
  eexists T, _. split; [exact ET|]. split; [apply WP; eexists; split; [reflexivity|exact HT]|].
  apply (EdOddP.odd_multiple p Hp Hp2 a d Na Nd Nad); assumption.
Qed.

(** *** a small curve of each form with exceptional pairs *)
Section W7.
  Import WCurve.
  (** y^2 = x^3 + x + 3 modulo 7 has 6 points; (5, 0) has order 2 and (4, 1) has order 6 *)
  Definition W6 : Curve := mkCurve (mkFp 7) (WeierProps.n7 1) (WeierProps.n7 3) 6 (WeierProps.n7 4) (WeierProps.n7 1) 1.
  Definition w6 (x y z : Z) : Point := mkPoint W6 (mkProy (WeierProps.n7 x) (WeierProps.n7 y) (WeierProps.n7 z)).
  Lemma w6_any : weier_any W6.
  Proof.
    split; [exact WeierProps.prime_7|]. cbn. split; [lia|]. split; [apply WeierProps.v7; lia|]. split; [apply WeierProps.v7; lia|].
    intro D. apply Zdivide_mod in D. discriminate D.
  Qed.
  Example c66_ex : weier_any W6 /\ wpoint W6 (w6 4 1 1) (Affine 4 1) /\ wpoint W6 (w6 6 1 1) (Affine 6 1)
    /\ wsum W6 (Affine 4 1) (Affine 6 6) (Affine 5 0)
    /\ WCurve.pt_add (w6 4 1 1) (w6 6 1 1) = Ret (w6 0 0 0)
    /\ WCurve.pt_mul true (w6 4 1 1) (mkScalar 5 6) = Ret (w6 0 0 0)
    /\ (exists R, WCurve.pt_mul true (w6 4 1 1) (mkScalar 4 6) = Ret R /\ WCurve.pt_eqb R (w6 6 1 1) = Ret true).
  Proof.
    split; [exact w6_any|]. split; [WeierProps.in7|]. split; [WeierProps.in7|]. split.
    - apply ct_chord with 6; [lia|apply Zmod_divide; [cbn; lia|reflexivity]|].
      repeat split; cbn; try lia; apply Zmod_divide; (lia || reflexivity).
    - split; [vm_compute; reflexivity|]. split; [vm_compute; reflexivity|]. eexists. split; vm_compute; reflexivity.
  Qed.
  (** comparison of points is not transitive once (0, 0, 0) has been computed *)
  Lemma c66_equality_transitive_refuted : exists e P Q N A B, weier_any e /\ wpoint e P A /\ wpoint e Q B
    /\ WCurve.pt_add P Q = Ret N /\ WCurve.pt_eqb P N = Ret true /\ WCurve.pt_eqb N Q = Ret true /\ WCurve.pt_eqb P Q = Ret false.
  Proof.
    exists W6, (w6 4 1 1), (w6 6 1 1), (w6 0 0 0), (Affine 4 1), (Affine 6 1). split; [exact w6_any|].
    split; [WeierProps.in7|]. split; [WeierProps.in7|]. vm_compute. auto.
  Qed.
  (** the negation of a point, computed as (r - 1) P, is (0, 0, 0) *)
  Example c66_spoiled_ex : w_spoiled W6 (Affine 4 1) 5.
  Proof.
    assert (G : exists R, WCurve.pt_mul true (w6 4 1 1) (mkScalar 5 6) = Ret R
      /\ (w_spoiled W6 (Affine 4 1) 5 -> w_null W6 R) /\ (~ w_spoiled W6 (Affine 4 1) 5 -> forall C, wpoint W6 R C <-> multiple (wsum W6) Infinity (Affine 4 1) (Z.to_nat 5) C)).
    { apply (c66_multiplication true W6 (w6 4 1 1) (Affine 4 1) (mkScalar 5 6) w6_any); [WeierProps.in7|reflexivity|reflexivity|reflexivity]. }
    destruct (weier_any_open W6 w6_any) as (p & Hp & Hp2 & a & b & ef & ea & eb & NS & WP & WS & WM & WW).
    destruct (proj1 (WP (w6 4 1 1) (Affine 4 1)) ltac:(WeierProps.in7)) as (A' & EA & RA).
    rewrite EA in G |- *. destruct G as (R & E & _ & H).
    destruct (mul_any p Hp Hp2 a b W6 ef ea eb NS true (w6 4 1 1) A' (mkScalar 5 6) RA eq_refl eq_refl eq_refl) as (T & ET & [[S _]|[_ HT]]).
    - apply (w_spoiled_ap W6 p Hp Hp2 a b A' 5 ef WS WM); [apply RA|exact S].
    - exfalso. assert (T = w6 0 0 0) as -> by (vm_compute in ET; vm_compute; congruence).
      refine (null_no p Hp a b W6 (w6 0 0 0) _ _ HT). apply (w_null_ap W6 p Hp ef). reflexivity.
  Qed.
End W7.
Section M19.
  Import MCurve.
  (** the curve of C33 with s = 1, the ordinate of (6, 1): adding the identity to that point gives (0, 0, 0) *)
  Definition M1 : Curve := mkCurve (mkFp 19) (MontProps.n19 6) (MontProps.n19 1) (MontProps.n19 1) 5 (MontProps.n19 7) (MontProps.n19 6) 4.
  Definition m1 (x y z : Z) : Point := mkPoint M1 (mkProy (MontProps.n19 x) (MontProps.n19 y) (MontProps.n19 z)).
  Example c66_mont_ex : mont_any M1 /\ mpoint M1 (m1 6 1 1) (Affine 6 1) /\ mpoint M1 (m1 0 1 0) Infinity
    /\ MCurve.pt_add (m1 6 1 1) (m1 0 1 0) = Ret (m1 0 0 0) /\ MCurve.pt_mul true (m1 6 18 1) (mkScalar 1 5) = Ret (m1 0 0 0)
    /\ MCurve.pt_eqb (m1 0 0 0) (m1 7 6 1) = Ret true.
  Proof.
    split.
    - split; [apply prime_small; reflexivity|]. cbn. split; [lia|]. do 3 (split; [apply MontProps.v19; lia|]). split; [reflexivity|].
      intro D. apply Zdivide_mod in D. discriminate D.
    - split; [MontProps.in19|]. split; [MontProps.in19|]. vm_compute. auto.
  Qed.
End M19.
Section D19.
  Import ECurve.
  Definition n19 (v : Z) : FpElt := mkFpElt v (mkFp 19).
  (** x^2 + y^2 = 1 + 4 x^2 y^2 modulo 19: d is a square *)
  Definition D4 : Curve := mkCurve (mkFp 19) (n19 1) (n19 4) 3 (n19 2) (n19 2) 4.
  Definition d4 (x y t z : Z) : Point := mkPoint D4 (mkProy (n19 x) (n19 y) (n19 t) (n19 z)).
  Example c66_edw_ex : edw_any D4 /\ epoint D4 (d4 2 2 4 1) (2, 2) /\ epoint D4 (d4 5 5 6 1) (5, 5)
    /\ e_undefined D4 (2, 2) (5, 5) /\ ECurve.pt_add (d4 2 2 4 1) (d4 5 5 6 1) = Ret (d4 0 0 0 0).
  Proof.
    split; [split; [apply prime_small; reflexivity|]; cbn; split; [lia|]; split; split; (reflexivity || cbn; lia)|].
    split; [repeat split; try reflexivity; cbn; try lia; try (apply Zmod_divide; [lia|reflexivity])|].
    split; [repeat split; try reflexivity; cbn; try lia; try (apply Zmod_divide; [lia|reflexivity])|].
    split; [|vm_compute; reflexivity]. unfold e_undefined. cbn. (left + right); apply Zmod_divide; [lia|reflexivity].
  Qed.
End D19.
Section D13.
  Import ECurve.
  (** 2 x^2 + y^2 = 1 + 4 x^2 y^2 modulo 13: (1, 3) has order 5, and its sum with (2, 6) is not defined *)
  Definition n13 (z : Z) : FpElt := mkFpElt z (mkFp 13).
  Definition D5 : Curve := mkCurve (mkFp 13) (n13 2) (n13 4) 5 (n13 1) (n13 3) 4.
  Definition d5 (x y t z : Z) : Point := mkPoint D5 (mkProy (n13 x) (n13 y) (n13 t) (n13 z)).
  Example c66_edw_odd_ex : edw_smooth D5 /\ epoint D5 (d5 1 3 3 1) (1, 3) /\ epoint D5 (d5 2 6 12 1) (2, 6)
    /\ multiple (esum D5) (0, 1) (1, 3) 5 (0, 1) /\ e_undefined D5 (1, 3) (2, 6)
    /\ multiple (esum D5) (0, 1) (1, 3) 3 (3, 5)
    /\ (exists R, ECurve.pt_mul true (d5 1 3 3 1) (mkScalar 3 5) = Ret R /\ ECurve.pt_eqb R (d5 3 5 2 1) = Ret true).
  Proof.
    split; [split; [split; [apply prime_small; reflexivity|]; cbn; split; [lia|]; split; split; (reflexivity || cbn; lia)|];
      cbn; repeat split; intro D; apply Zdivide_mod in D; discriminate D|].
    split; [repeat split; try reflexivity; cbn; try lia; try (apply Zmod_divide; [lia|reflexivity]); intro D; apply Zdivide_mod in D; discriminate D|].
    split; [repeat split; try reflexivity; cbn; try lia; try (apply Zmod_divide; [lia|reflexivity]); intro D; apply Zdivide_mod in D; discriminate D|].
    assert (S : forall x y u v z w, edwards_sum 13 2 4 (x, y) (u, v) (z, w) -> esum D5 (x, y) (u, v) (z, w)) by (intros; assumption).
    assert (M3 : multiple (esum D5) (0, 1) (1, 3) 3 (3, 5)).
    { apply mult_S with (10, 5); [apply mult_S with (1, 3); [apply mult_S with (0, 1); [apply mult_O|]|]|]; apply S; unfold edwards_sum, coord;
        (repeat split; try lia; try (intro D; apply Zdivide_mod in D; discriminate D); (apply Zmod_divide; [lia|reflexivity])). }
    split; [|split; [|split; [exact M3|]]].
    - apply mult_S with (12, 3); [apply mult_S with (3, 5); [exact M3|]|]; apply S; unfold edwards_sum, coord;
        (repeat split; try lia; try (intro D; apply Zdivide_mod in D; discriminate D); (apply Zmod_divide; [lia|reflexivity])).
    - unfold e_undefined. cbn. (left + right); apply Zmod_divide; [lia|reflexivity].
    - eexists. split; [vm_compute; reflexivity|vm_compute; reflexivity].
  Qed.
  (** the undefined sum (1, 3) + (2, 6) is not a point, and subtracting (2, 6) from it gives (1, 3) back *)
  Example c66_edw_total_ex : ECurve.pt_add (d5 1 3 3 1) (d5 2 6 12 1) = Ret (d5 0 2 12 0) /\ e_tuple D5 (d5 0 2 12 0)
    /\ (forall A, ~ epoint D5 (d5 0 2 12 0) A)
    /\ exists R, ECurve.pt_sub (d5 0 2 12 0) (d5 2 6 12 1) = Ret R /\ ECurve.pt_eqb R (d5 1 3 3 1) = Ret true.
  Proof.
    split; [vm_compute; reflexivity|].
    split; [repeat split; try reflexivity; cbn; try lia; apply Zmod_divide; (lia || reflexivity)|].
    split; [intros A (_ & _ & _ & _ & _ & (N & _) & _); apply N; reflexivity|].
    eexists. split; [vm_compute; reflexivity|vm_compute; reflexivity].
  Qed.
End D13.
