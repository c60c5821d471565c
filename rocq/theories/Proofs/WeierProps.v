(** Weierstrass curves: C23-C32, C49. *)
From Coq Require Import ZArith Znumtheory Lia String Bool List Ring Field.
From Verif.Math Require Import Fld Zp Residue ECGroup RCB.
From Verif.Spec Require Import Arith Curve.
From Verif.Model Require Import Out BigInt PrimeField Scalar WCurve.
From Verif.Proofs Require Import FieldP FieldProps BytesP SerialProps ScalarProps CurveP LadderP WeierP.
From Verif.Spec Require Export WPoints.
Import ListNotations.
Open Scope Z_scope.

Lemma weier_open e : weier e -> exists p (Hp : prime p) (Hp2 : 2 < p) (a b : ZpF p Hp),
  c_f e = mkFp p /\ c_a e = fe a /\ c_b e = fe b
  /\ (forall x : ZpF p Hp, Fadd (Fadd (Fmul (Fmul x x) x) (Fmul a x)) b <> F0)
  /\ (forall P A, wpoint e P A <-> exists A', A = ap p Hp A' /\ wrep p Hp a b e P A')
  /\ (forall A B C, on (ZpF p Hp) F0 a b A -> on (ZpF p Hp) F0 a b B ->
        (wsum e (ap p Hp A) (ap p Hp B) C <-> C = ap p Hp (padd (ZpF p Hp) F0 a A B)))
  /\ (forall A n C, on (ZpF p Hp) F0 a b A ->
        (multiple (wsum e) Infinity (ap p Hp A) n C <-> C = ap p Hp (nmul p Hp F0 a n A)))
  /\ (forall A, on (ZpF p Hp) F0 a b A <-> won e (ap p Hp A)).
Proof.
  intros (Hp & Hp2 & Va & Vb & NR). set (p := modulus (c_f e)) in *.
  assert (ef : c_f e = mkFp p) by (unfold p; destruct (c_f e); reflexivity).
  destruct (valid_ex _ _ Va) as [a ea], (valid_ex _ _ Vb) as [b eb].
  exists p, Hp, Hp2, a, b.
  assert (R : forall P A, wpoint e P A <-> exists A', A = ap p Hp A' /\ wrep p Hp a b e P A').
  { intros P A. unfold wpoint, wrep. rewrite ea, eb. fold p. cbn [val fe]. split.
    - intros (EP & Vx & Vy & Vz & R & O).
      destruct (on_cubic_unap p Hp Hp2 F0 a b A O) as (A' & -> & O').
      exists A'. split; [reflexivity|]. split; [exact EP|]. split; [|exact O'].
      destruct (valid_ex _ _ Vx) as [X EX], (valid_ex _ _ Vy) as [Y EY], (valid_ex _ _ Vz) as [Z EZ].
      exists X, Y, Z. split; [unfold mk; rewrite <- EX, <- EY, <- EZ; destruct (pc P); reflexivity|].
      apply (rep_ap p Hp Hp2). rewrite EX, EY, EZ in R. exact R.
    - intros (A' & -> & EP & (X & Y & Z & EC & R) & O). rewrite EC. cbn [mk px py pz val fe].
      split; [exact EP|]. repeat (split; [apply valid_fe; lia|]). split; [apply (rep_ap p Hp Hp2), R|].
      apply (on_ap p Hp Hp2 F0 a b). exact O. }
  split; [exact ef|]. split; [exact ea|]. split; [exact eb|]. split.
  { intros x E. apply (NR (zv x)). rewrite ea, eb. cbn [val fe]. apply of_Z_zero; [lia|].
    rewrite !of_Z_add, !of_Z_mul, !of_Z_zv. exact E. }
  split; [exact R|]. unfold wsum, won. rewrite ea, eb. fold p. cbn [val fe]. split; [|split].
  - intros A B C OA OB. apply (ct_padd p Hp Hp2 F0 a b A B OA OB C).
  - intros A n C OA. apply (multiple_ap p Hp Hp2 F0 a b n A OA C).
  - intro A. apply (on_ap p Hp Hp2 F0 a b).
Qed.
Ltac open_curve H := destruct (weier_open _ H) as (p & Hp & Hp2 & a & b & ef & ea & eb & NR & WP & WS & WM & WO).
Ltac open_point H := match type of H with wpoint ?e ?P ?A =>
  let HH := fresh in pose proof H as HH;
  match goal with WP : forall P A, wpoint e P A <-> _ |- _ => apply WP in HH end;
  let A' := fresh A "'" in let R := fresh "R" P in
  destruct HH as (A' & ? & R); subst A end.


Lemma Fcomm {k : Fld} (x y : k) : Fmul x y = Fmul y x.
Proof. apply (Rmul_comm (F_R (Fth k))). Qed.
Lemma wrep_fun p Hp a b e P A B : wrep p Hp a b e P A -> wrep p Hp a b e P B -> A = B.
Proof.
  intros (_ & (X & Y & Z & E & R) & _) (_ & (X' & Y' & Z' & E' & R') & _). rewrite E in E'.
  assert (EX : X = X') by (apply (fe_inj p); exact (f_equal px E')).
  assert (EY : Y = Y') by (apply (fe_inj p); exact (f_equal py E')).
  assert (EZ : Z = Z') by (apply (fe_inj p); exact (f_equal pz E')). subst.
  apply (rep_cross _ _ _ _ _ _ _ _ _ R R'). split; apply Fcomm.
Qed.
Lemma wrep_iff p Hp a b e P A : (forall P A, wpoint e P A <-> exists A', A = ap p Hp A' /\ wrep p Hp a b e P A') ->
  wrep p Hp a b e P A -> forall C, wpoint e P C <-> C = ap p Hp A.
Proof.
  intros WP R C. rewrite WP. split; [|intros ->; eauto]. intros (A' & -> & R').
  f_equal. eapply wrep_fun; eassumption.
Qed.

(** *** C23 *)
(** new_point accepts exactly the points of the curve, and panics on all others *)
Lemma c23_new_point : forall e x y, weier e -> valid (modulus (c_f e)) x -> valid (modulus (c_f e)) y ->
  (won e (Affine (val x) (val y)) -> exists P, new_point e x y = Ret P /\ wpoint e P (Affine (val x) (val y)))
  /\ (~ won e (Affine (val x) (val y)) -> new_point e x y = Panic "not valid point").
Proof.
  intros e x y W. open_curve W. rewrite ef. cbn [modulus]. intros Vx Vy.
  destruct (valid_ex _ _ Vx) as [u ->], (valid_ex _ _ Vy) as [v ->]. cbn [val fe].
  destruct (new_point_mk p Hp Hp2 a b e ef ea eb u v) as (t & Ht & ->).
  change (Affine (zv u) (zv v)) with (ap p Hp (Aff (ZpF p Hp) u v)). rewrite <- WO. split; intro H.
  - apply Ht in H as Et. rewrite Et. eexists. split; [reflexivity|].
    apply WP. eexists. split; [reflexivity|]. apply wrep_mk; [apply rep_one|exact H].
  - destruct t; [exfalso; apply H, Ht; reflexivity|reflexivity].
Qed.

(** *** C24 *)
Lemma c24_addition : forall e P Q A B, weier e -> wpoint e P A -> wpoint e Q B ->
  exists R, pt_add P Q = Ret R /\ forall C, wpoint e R C <-> wsum e A B C.
Proof.
  intros e P Q A B W HP HQ. open_curve W. open_point HP. open_point HQ.
  destruct (add_wrep p Hp Hp2 a b e ea eb NR P Q _ _ RP RQ) as (R & E & HR).
  exists R. split; [exact E|]. intro C. rewrite WS by apply RP || apply RQ. apply (wrep_iff _ _ _ _ _ _ _ WP HR).
Qed.
Lemma c24_negation : forall e P A, weier e -> wpoint e P A ->
  exists R, pt_neg P = Ret R /\ forall C, wpoint e R C <-> C = negative (modulus (c_f e)) A.
Proof.
  intros e P A W HP. open_curve W. open_point HP.
  destruct (neg_wrep p Hp Hp2 a b e ea eb P _ RP) as (R & E & HR).
  exists R. split; [exact E|]. intro C. rewrite ef. cbn [modulus]. rewrite <- (neg_ap p Hp). apply (wrep_iff _ _ _ _ _ _ _ WP HR).
Qed.
Lemma c24_subtraction : forall e P Q A B, weier e -> wpoint e P A -> wpoint e Q B ->
  exists R, pt_sub P Q = Ret R /\ forall C, wpoint e R C <-> wsum e A (negative (modulus (c_f e)) B) C.
Proof.
  intros e P Q A B W HP HQ. open_curve W. open_point HP. open_point HQ.
  destruct (sub_wrep p Hp Hp2 a b e ea eb NR P Q _ _ RP RQ) as (R & E & HR).
  exists R. split; [exact E|]. intro C. rewrite ef. cbn [modulus]. rewrite <- (neg_ap p Hp).
  rewrite WS; [|apply RP|apply on_popp, RQ]. apply (wrep_iff _ _ _ _ _ _ _ WP HR).
Qed.

(** *** C25 *)
Lemma same_wrep p Hp (Hp2 : 2 < p) a b e x y L M A :
  x = Ret L -> y = Ret M -> wrep p Hp a b e L A -> wrep p Hp a b e M A -> same x y.
Proof.
  intros -> -> HL HM. exists L, M. repeat split.
  destruct (eqb_wrep p Hp Hp2 a b e L M A A HL HM) as (t & -> & Ht). f_equal. apply Ht. reflexivity.
Qed.
Lemma c25_associative : forall e P Q R A B C, weier e -> wpoint e P A -> wpoint e Q B -> wpoint e R C ->
  same (bind (pt_add P Q) (fun S => pt_add S R)) (bind (pt_add Q R) (fun S => pt_add P S)).
Proof.
  intros e P Q R A B C W HP HQ HR. open_curve W. open_point HP. open_point HQ. open_point HR.
  destruct (add_wrep p Hp Hp2 a b e ea eb NR P Q _ _ RP RQ) as (S & -> & HS). cbn [bind].
  destruct (add_wrep p Hp Hp2 a b e ea eb NR Q R _ _ RQ RR) as (T & -> & HT). cbn [bind].
  destruct (add_wrep p Hp Hp2 a b e ea eb NR S R _ _ HS RR) as (L & E1 & HL).
  destruct (add_wrep p Hp Hp2 a b e ea eb NR P T _ _ RP HT) as (M & E2 & HM).
  apply (same_wrep p Hp Hp2 a b e _ _ L M _ E1 E2 HL).
  rewrite (padd_assoc _ F0 a b (two_K p Hp Hp2) (nonsing _ a b NR)); [exact HM|apply RP|apply RQ|apply RR].
Qed.
Lemma c25_commutative : forall e P Q A B, weier e -> wpoint e P A -> wpoint e Q B ->
  same (pt_add P Q) (pt_add Q P).
Proof.
  intros e P Q A B W HP HQ. open_curve W. open_point HP. open_point HQ.
  destruct (add_wrep p Hp Hp2 a b e ea eb NR P Q _ _ RP RQ) as (L & E1 & HL).
  destruct (add_wrep p Hp Hp2 a b e ea eb NR Q P _ _ RQ RP) as (M & E2 & HM).
  apply (same_wrep p Hp Hp2 a b e _ _ L M _ E1 E2 HL).
  rewrite (padd_comm _ F0 a b); [exact HM|apply RP|apply RQ].
Qed.
Lemma c25_identity_and_inverse : forall e P A, weier e -> wpoint e P A ->
  same (bind (identity e) (fun O => pt_add P O)) (Ret P) /\ same (bind (identity e) (fun O => pt_add O P)) (Ret P)
  /\ same (bind (pt_neg P) (fun N => pt_add P N)) (identity e) /\ same (pt_sub P P) (identity e).
Proof.
  intros e P A W HP. open_curve W. open_point HP.
  destruct (identity_wrep p Hp Hp2 a b e ef ea eb) as (O & EO & HO). rewrite !EO. cbn [bind].
  destruct (neg_wrep p Hp Hp2 a b e ea eb P _ RP) as (N & EN & HN). rewrite EN. cbn [bind].
  destruct (add_wrep p Hp Hp2 a b e ea eb NR P O _ _ RP HO) as (L1 & E1 & H1).
  destruct (add_wrep p Hp Hp2 a b e ea eb NR O P _ _ HO RP) as (L2 & E2 & H2).
  destruct (add_wrep p Hp Hp2 a b e ea eb NR P N _ _ RP HN) as (L3 & E3 & H3).
  destruct (sub_wrep p Hp Hp2 a b e ea eb NR P P _ _ RP RP) as (L4 & E4 & H4).
  rewrite padd_inf_r in H1. rewrite padd_opp_r in H3, H4.
  repeat split; eapply (same_wrep p Hp Hp2 a b e); eauto.
Qed.
Lemma c25_equality_is_congruence : forall e P P' Q Q' A A' B B', weier e ->
  wpoint e P A -> wpoint e P' A' -> wpoint e Q B -> wpoint e Q' B' ->
  pt_eqb P P' = Ret true -> pt_eqb Q Q' = Ret true ->
  same (pt_add P Q) (pt_add P' Q') /\ same (pt_sub P Q) (pt_sub P' Q') /\ same (pt_neg P) (pt_neg P').
Proof.
  intros e P P' Q Q' A A' B B' W HP HP' HQ HQ' E1 E2. open_curve W.
  apply WP in HP as (A0 & -> & RP), HP' as (A0' & -> & RP'), HQ as (B0 & -> & RQ), HQ' as (B0' & -> & RQ').
  destruct (eqb_wrep p Hp Hp2 a b e _ _ _ _ RP RP') as (t1 & F1 & G1).
  destruct (eqb_wrep p Hp Hp2 a b e _ _ _ _ RQ RQ') as (t2 & F2 & G2).
  rewrite F1 in E1. rewrite F2 in E2. injection E1 as E1. injection E2 as E2. apply G1 in E1. apply G2 in E2. subst A0' B0'.
  destruct (add_wrep p Hp Hp2 a b e ea eb NR P Q _ _ RP RQ) as (L1 & X1 & Y1).
  destruct (add_wrep p Hp Hp2 a b e ea eb NR P' Q' _ _ RP' RQ') as (L2 & X2 & Y2).
  destruct (sub_wrep p Hp Hp2 a b e ea eb NR P Q _ _ RP RQ) as (L3 & X3 & Y3).
  destruct (sub_wrep p Hp Hp2 a b e ea eb NR P' Q' _ _ RP' RQ') as (L4 & X4 & Y4).
  destruct (neg_wrep p Hp Hp2 a b e ea eb P _ RP) as (L5 & X5 & Y5).
  destruct (neg_wrep p Hp Hp2 a b e ea eb P' _ RP') as (L6 & X6 & Y6).
  repeat split; eapply (same_wrep p Hp Hp2 a b e); eauto.
Qed.

(** *** C26 *)
Lemma bits_small r k : 0 <= k < r -> Z.log2 r < 2 ^ 63 -> bits k < 2 ^ 64.
Proof.
  intros H L. unfold bits. destruct (Z.eqb_spec k 0); [lia|]. rewrite Z.abs_eq by lia.
  pose proof (Z.log2_le_mono k r ltac:(lia)). lia.
Qed.
(** k * P is the k-fold sum of P *)
Lemma c26_scalar_multiplication : forall oc e P A k, weier e -> wpoint e P A -> valid_scalar (c_r e) k ->
  Z.log2 (c_r e) < 2 ^ 63 -> (oc = true -> sk k <> 0) ->
  exists R, pt_mul oc P k = Ret R /\ forall C, wpoint e R C <-> multiple (wsum e) Infinity A (Z.to_nat (sk k)) C.
Proof.
  intros oc e P A k W HP (Er & Hk) H64 H0. open_curve W. open_point HP.
  destruct (Z.eq_dec (sk k) 0) as [E|N].
  - destruct oc; [destruct (H0 eq_refl E)|]. destruct k as [k r]. cbn [sk sr] in *. subst k.
    destruct (mul_zero_wrep p Hp Hp2 a b e ef ea eb false P _ r RP Er) as (R & HR & ->).
    exists R. split; [reflexivity|]. intro C. rewrite WM by apply RP. apply (wrep_iff _ _ _ _ _ _ _ WP HR).
  - destruct (mul_wrep p Hp Hp2 a b e ef ea eb NR oc P _ k RP Er ltac:(lia) (bits_small _ _ Hk H64)) as (R & E & HR).
    exists R. split; [exact E|]. intro C. rewrite WM by apply RP. apply (wrep_iff _ _ _ _ _ _ _ WP HR).
Qed.
(** with overflow checks the zero scalar panics instead of giving the identity *)
Lemma c26_zero_scalar_panics : forall e P A, weier e -> wpoint e P A ->
  pt_mul true P (mkScalar 0 (c_r e)) = Panic "attempt to subtract with overflow".
Proof.
  intros e P A W HP. open_curve W. open_point HP.
  destruct (mul_zero_wrep p Hp Hp2 a b e ef ea eb true P _ (c_r e) RP eq_refl) as (R & HR & ->). reflexivity.
Qed.
Lemma nmul_mod p Hp (Hp2 : 2 < p) a b (NR : forall x : ZpF p Hp, Fadd (Fadd (Fmul (Fmul x x) x) (Fmul a x)) b <> F0)
  r k A : on (ZpF p Hp) F0 a b A -> 0 < r -> 0 <= k -> nmul p Hp F0 a (Z.to_nat r) A = Inf _ ->
  nmul p Hp F0 a (Z.to_nat (k mod r)) A = nmul p Hp F0 a (Z.to_nat k) A.
Proof.
  intros O Hr Hk Z0. pose proof (Z.mod_pos_bound k r Hr) as Hm.
  assert (Hq : 0 <= k / r) by (apply Z.div_pos; lia).
  assert (G : forall n, nmul p Hp F0 a (n * Z.to_nat r) A = Inf _).
  { induction n as [|n IH]; [reflexivity|]. cbn [Nat.mul].
    rewrite <- (nmul_add p Hp Hp2 F0 a b (nonsing _ a b NR)) by exact O. rewrite Z0, IH. reflexivity. }
  assert (E : Z.to_nat k = (Z.to_nat (k / r) * Z.to_nat r + Z.to_nat (k mod r))%nat).
  { pose proof (Z.div_mod k r ltac:(lia)). apply Nat2Z.inj. rewrite Nat2Z.inj_add, Nat2Z.inj_mul, !Z2Nat.id by lia. lia. }
  rewrite E, <- (nmul_add p Hp Hp2 F0 a b (nonsing _ a b NR)) by exact O. rewrite G. reflexivity.
Qed.
(** on points killed by r, scalar multiplication is a homomorphism from the scalars modulo r *)
Lemma c26_homomorphism : forall e P A k l, weier e -> wpoint e P A ->
  valid_scalar (c_r e) k -> valid_scalar (c_r e) l -> Z.log2 (c_r e) < 2 ^ 63 ->
  multiple (wsum e) Infinity A (Z.to_nat (c_r e)) Infinity ->
  same (bind (pt_mul false P k) (fun X => bind (pt_mul false P l) (fun Y => pt_add X Y)))
       (bind (sc_add k l) (fun m => pt_mul false P m))
  /\ same (bind (pt_mul false P k) (fun X => pt_mul false X l))
       (bind (sc_mul k l) (fun m => pt_mul false P m)).
Proof.
  intros e P A k l W HP Vk Vl H64 HO. open_curve W. open_point HP.
  assert (M : forall m Q B, valid_scalar (c_r e) m -> wrep p Hp a b e Q B ->
    exists R, pt_mul false Q m = Ret R /\ wrep p Hp a b e R (nmul p Hp F0 a (Z.to_nat (sk m)) B)).
  { intros m Q B (Er & Hm) RQ. destruct (Z.eq_dec (sk m) 0) as [E|N].
    - destruct m as [m r]. cbn [sk sr] in *. subst m.
      destruct (mul_zero_wrep p Hp Hp2 a b e ef ea eb false Q _ r RQ Er) as (R & HR & ->). eauto.
    - destruct (mul_wrep p Hp Hp2 a b e ef ea eb NR false Q _ m RQ Er ltac:(lia) (bits_small _ _ Hm H64)) as (R & E & HR).
      eauto. }
  destruct Vk as (Ek & Hk). destruct Vl as (El & Hl).
  assert (Hr : 0 < c_r e) by lia.
  apply WM in HO; [|apply RP]. change Infinity with (ap p Hp (Inf (ZpF p Hp))) in HO. symmetry in HO. apply ap_inj in HO.
  destruct (M k P _ (conj Ek Hk) RP) as (X & -> & HX). destruct (M l P _ (conj El Hl) RP) as (Y & EY & HY). cbn [bind].
  destruct (c20_scalar_ring (c_r e) k l Hr Ek El) as ((c1 & E1 & S1 & R1) & _ & (c3 & E3 & S3 & R3) & _).
  assert (RM : forall c n, residue (c_r e) n c -> 0 <= n -> c = n mod c_r e).
  { intros c n (Hc & [q Eq]) _. apply Z.mod_unique with q; lia. }
  split.
  - rewrite EY, E1. cbn [bind].
    destruct (add_wrep p Hp Hp2 a b e ea eb NR X Y _ _ HX HY) as (L & EL & HL).
    destruct (M c1 P _ (conj S1 (proj1 R1)) RP) as (N & EN & HN).
    apply (same_wrep p Hp Hp2 a b e _ _ L N _ EL EN HL).
    rewrite (nmul_add p Hp Hp2 F0 a b (nonsing _ a b NR)) by apply RP.
    rewrite (RM _ _ R1) in HN by lia. rewrite (nmul_mod p Hp Hp2 a b NR) in HN by (assumption || lia || apply RP).
    rewrite Z2Nat.inj_add in HN by lia. exact HN.
  - rewrite E3. cbn [bind].
    destruct (M l X _ (conj El Hl) HX) as (L & EL & HL).
    destruct (M c3 P _ (conj S3 (proj1 R3)) RP) as (N & EN & HN).
    apply (same_wrep p Hp Hp2 a b e _ _ L N _ EL EN HL).
    rewrite (RM _ _ R3) in HN by nia. rewrite (nmul_mod p Hp Hp2 a b NR) in HN by (assumption || nia || apply RP).
    rewrite Z.mul_comm, Z2Nat.inj_mul in HN by lia. rewrite (nmul_mul p Hp Hp2 F0 a b (nonsing _ a b NR)) by apply RP. exact HN.
Qed.

(** *** C27 *)
Lemma c27_is_zero : forall e P A, weier e -> wpoint e P A ->
  exists I, identity e = Ret I /\ wpoint e I Infinity
    /\ (pt_is_zero P = true <-> A = Infinity) /\ (pt_is_zero P = true <-> pt_eqb P I = Ret true).
Proof.
  intros e P A W HP. open_curve W. open_point HP.
  destruct (identity_wrep p Hp Hp2 a b e ef ea eb) as (I & EI & HI). exists I. split; [exact EI|].
  split; [apply WP; exists (Inf (ZpF p Hp)); split; [reflexivity|exact HI]|].
  rewrite (is_zero_wrep p Hp a b e P _ RP).
  destruct (eqb_wrep p Hp Hp2 a b e P I _ _ RP HI) as (t & -> & Ht). split.
  - change Infinity with (ap p Hp (Inf (ZpF p Hp))). split; [congruence|apply ap_inj].
  - rewrite <- Ht. split; congruence.
Qed.

(** *** C32 *)
Lemma c32_equality : forall e P Q A B, weier e -> wpoint e P A -> wpoint e Q B ->
  exists t, pt_eqb P Q = Ret t /\ (t = true <-> A = B).
Proof.
  intros e P Q A B W HP HQ. open_curve W. open_point HP. open_point HQ.
  destruct (eqb_wrep p Hp Hp2 a b e P Q _ _ RP RQ) as (t & -> & Ht). exists t. split; [reflexivity|].
  rewrite Ht. split; [congruence|apply ap_inj].
Qed.
(** a point represents one affine point, and every point of the curve is represented *)
Lemma c32_representation : forall e, weier e ->
  (forall P A B, wpoint e P A -> wpoint e P B -> A = B)
  /\ (forall A, won e A -> exists P, wpoint e P A).
Proof.
  intros e W. open_curve W. split.
  - intros P A B HA HB. apply WP in HA as (A0 & -> & RA), HB as (B0 & -> & RB). f_equal. eapply wrep_fun; eassumption.
  - intros A HA.
    assert (exists A', A = ap p Hp A' /\ on (ZpF p Hp) F0 a b A') as (A' & -> & O).
    { unfold won in HA. rewrite ef, ea, eb in HA. cbn [modulus val fe] in HA. apply (on_cubic_unap p Hp Hp2 F0 a b A HA). }
    destruct A' as [|x y].
    + destruct (identity_wrep p Hp Hp2 a b e ef ea eb) as (I & EI & HI). exists I. apply WP. eauto.
    + exists (mkPoint e (mk p Hp x y F1)). apply WP. exists (Aff _ x y). split; [reflexivity|].
      apply wrep_mk; [apply rep_one|exact O].
Qed.

(** *** C31 *)
Lemma c31_normalize : forall e P x y, weier e -> wpoint e P (Affine x y) ->
  exists R, normalize P = Ret R /\ wpoint e R (Affine x y)
    /\ val (px (pc R)) = x /\ val (py (pc R)) = y /\ val (pz (pc R)) = 1.
Proof.
  intros e P x y W HP. open_curve W. pose proof HP as H. apply WP in H. destruct H as (A' & EA & RP).
  destruct A' as [|u v]; [discriminate EA|]. cbn in EA. injection EA as -> ->.
  rewrite (normalize_wrep p Hp Hp2 a b e P u v RP). eexists. split; [reflexivity|]. split.
  - apply WP. exists (Aff _ u v). split; [reflexivity|]. apply wrep_mk; [apply rep_one|apply RP].
  - repeat split. cbn. apply Z.mod_small. lia.
Qed.
(** the identity, however, becomes the triple (0,0,1), which is not a point of the curve, not zero
    and not equal to the identity *)
Lemma c31_normalize_identity_breaks : forall e P, weier e -> wpoint e P Infinity ->
  exists R, normalize P = Ret R /\ val (px (pc R)) = 0 /\ val (py (pc R)) = 0 /\ val (pz (pc R)) = 1
    /\ is_on_curve e (pc R) = Ret false /\ pt_is_zero R = false /\ pt_eqb R P = Ret false.
Proof.
  intros e P W HP. open_curve W. pose proof HP as H. apply WP in H. destruct H as (A' & EA & RP).
  destruct A' as [|u v]; [|discriminate EA].
  rewrite (normalize_inf p Hp Hp2 a b e P RP). eexists. split; [reflexivity|]. split; [reflexivity|]. split; [reflexivity|].
  split; [cbn; apply Z.mod_small; lia|]. cbn [pc].
  assert (N : is_zero (fe (F1 : ZpF p Hp)) = false).
  { destruct (is_zero (fe (F1 : ZpF p Hp))) eqn:E; [|reflexivity]. apply is_zero_fe in E. destruct (F_1_neq_0 (ZpF p Hp) E). }
  split; [|split].
  - destruct (on_curve_mk p Hp Hp2 a b e ea eb F0 F0 F1) as (t & -> & Ht). f_equal. destruct t; [|reflexivity].
    exfalso. apply (y_nonzero _ a b NR F0 F0); [|reflexivity]. apply code_affine. apply Ht. reflexivity.
  - unfold pt_is_zero. cbn [pc mk px py pz]. rewrite N. apply andb_false_r.
  - destruct RP as (EP & (X & Y & Z & EC & (-> & HY & ->)) & _). unfold pt_eqb. rewrite EP, EC. cbn [pc pe mk px py pz].
    fes. f_equal. apply andb_false_iff. right.
    destruct (fpelt_eqb _ _) eqn:E; [|reflexivity]. exfalso. apply fpelt_eqb_fe in E. apply HY.
    transitivity (Fmul F1 Y : ZpF p Hp); [symmetry; apply (F_1_l (ZpF p Hp))|]. transitivity (Fmul F0 F0 : ZpF p Hp); [symmetry; exact E|].
    apply Zp_eq. reflexivity.
Qed.

(** *** C28 *)
Lemma byte_size_unique p n m : prime p -> byte_size p n -> byte_size p m -> n = m.
Proof.
  intros Hp Hn Hm. pose proof (prime_ge_2 _ Hp).
  assert (G : forall n m, byte_size p n -> byte_size p m -> n < m -> False).
  { clear n m Hn Hm. intros n m (N0 & N1 & _) (M0 & _ & M2) L. destruct M2 as [->|M2]; [lia|].
    assert (256 ^ n <= 256 ^ (m - 1)) by (apply Z.pow_le_mono_r; lia).
    assert (E : p = 256 ^ n) by lia. destruct (Z.eq_dec n 0) as [->|Z0]; [cbn in E; lia|].
    assert (D : (2 | p)).
    { rewrite E. replace n with (1 + (n - 1)) by lia. rewrite Z.pow_add_r by lia. apply Z.divide_mul_l. exists 128. reflexivity. }
    assert (D' : (256 | p)).
    { rewrite E. replace n with (1 + (n - 1)) by lia. rewrite Z.pow_add_r by lia. apply Z.divide_mul_l. exists 1. reflexivity. }
    destruct (prime_divisors _ Hp _ D) as [|[|[|]]]; try lia. subst p.
    apply Z.divide_pos_le in D'; lia. }
  destruct (Z.lt_trichotomy n m) as [L|[L|L]]; [destruct (G n m Hn Hm L)|exact L|destruct (G m n Hm Hn L)].
Qed.
Lemma size_is_nb p n : prime p -> byte_size p n -> n = size_bytes (mkFp p).
Proof. intros Hp Hn. pose proof (prime_ge_2 _ Hp). apply (byte_size_unique p n _ Hp Hn). apply (c11_size_bytes p). lia. Qed.
Lemma size_of p : prime p -> byte_size p (size_bytes (mkFp p)).
Proof. intros Hp. pose proof (prime_ge_2 _ Hp). apply (c11_size_bytes p). lia. Qed.

Lemma coord_K p (Hp : prime p) x : coord p x -> exists u : ZpF p Hp, x = zv u.
Proof. intro C. exists (of_Z p x). rewrite zv_of_Z. symmetry. apply Z.mod_small, C. Qed.

Lemma c28_encode : forall e P x y c n, weier e -> wpoint e P (Affine x y) -> byte_size (modulus (c_f e)) n ->
  exists buf, encode P c = Ret buf /\ sec1 n x y c buf.
Proof.
  intros e P x y c n W HP Hn. open_curve W. pose proof HP as H. apply WP in H. destruct H as (A' & EA & RP).
  destruct A' as [|u v]; [discriminate EA|]. cbn in EA. injection EA as -> ->.
  rewrite ef in Hn. rewrite (size_is_nb p n Hp Hn). apply (encode_wrep p Hp Hp2 a b e P u v c RP).
Qed.
Lemma c28_round_trip : forall e P x y c, weier e -> sqrt_modulus (modulus (c_f e)) -> wpoint e P (Affine x y) ->
  exists buf Q, encode P c = Ret buf /\ decode e buf = Ret (Ok Q) /\ wpoint e Q (Affine x y) /\ pt_eqb Q P = Ret true.
Proof.
  intros e P x y c W Hm HP. open_curve W. pose proof HP as H. apply WP in H. destruct H as (A' & EA & RP).
  destruct A' as [|u v]; [discriminate EA|]. cbn in EA. injection EA as -> ->. rewrite ef in Hm.
  destruct (encode_wrep p Hp Hp2 a b e P u v c RP) as (buf & E & S). exists buf.
  destruct (decode_framed p Hp Hp2 a b e ef ea eb NR Hm u v c buf S) as [(Q & v' & D & RQ & S')|(m & D & N)].
  - assert (v' = v) as ->.
    { destruct (sec1_same_y p Hp (size_bytes (mkFp p)) u v v' c buf S S') as [Ev|[-> Ev]]; [symmetry; exact Ev|].
      destruct (Fsqr_eq (ZpF p Hp) v v') as [G|G]; [|symmetry; exact G|].
      - transitivity (Fadd (Fmul (Fadd (Fmul u u) a) u) b); [apply on_value, RP|symmetry; apply on_value, RQ].
      - exfalso. subst v. rewrite (parity_opp p Hp Hp2) in Ev; [destruct (Z.even (zv v')); discriminate Ev|].
        apply (y_nonzero _ a b NR u v'). apply RQ. }
    exists Q. split; [exact E|]. split; [exact D|]. split; [apply WP; exists (Aff _ u v); auto|].
    destruct (eqb_wrep p Hp Hp2 a b e Q P _ _ RQ RP) as (t & -> & Ht). f_equal. apply Ht. reflexivity.
  - exfalso. apply (N v S). apply RP.
Qed.
(** the identity is not encoded as the single byte 0 but as the coordinates (0,0) of no curve point;
    decoding that panics (uncompressed) or, when b is a square, returns another point (compressed) *)
Lemma c28_encode_identity_breaks : forall e P c n, weier e -> sqrt_modulus (modulus (c_f e)) ->
  wpoint e P Infinity -> byte_size (modulus (c_f e)) n ->
  exists buf, encode P c = Ret buf
    /\ buf = (if c then 2 :: repeat 0 (Z.to_nat n) else 4 :: repeat 0 (2 * Z.to_nat n))
    /\ buf <> [0]
    /\ ((exists m, decode e buf = Panic m) \/ (exists Q, c = true /\ decode e buf = Ret (Ok Q) /\ pt_eqb Q P = Ret false)).
Proof.
  intros e P c n W Hm HP Hn. open_curve W. pose proof HP as H. apply WP in H. destruct H as (A' & EA & RP).
  destruct A' as [|u v]; [|discriminate EA]. rewrite ef in Hn, Hm. rewrite (size_is_nb p n Hp Hn).
  rewrite (encode_inf p Hp Hp2 a b e P c RP).
  set (buf := if c then _ else _). exists buf. split; [reflexivity|]. split; [reflexivity|].
  split; [unfold buf; destruct c; discriminate|].
  assert (S : sec1 (size_bytes (mkFp p)) (zv (F0 : ZpF p Hp)) (zv (F0 : ZpF p Hp)) c buf).
  { assert (D : be_digits (size_bytes (mkFp p)) (zv (F0 : ZpF p Hp)) (repeat 0 (Z.to_nat (size_bytes (mkFp p))))).
    { split; [rewrite repeat_length, Z2Nat.id; [reflexivity|]; pose proof (n_pos p Hp2); lia|]. split.
      - apply Forall_forall. intros z Hz. apply repeat_spec in Hz. subst. unfold is_byte. lia.
      - apply be_value_zeros. }
    unfold buf. destruct c; [exact (sec1_compressed _ _ (zv (F0 : ZpF p Hp)) _ D)|].
    cbn [Nat.mul]. rewrite Nat.add_0_r, repeat_app. exact (sec1_full _ _ _ _ _ D D). }
  destruct (decode_framed p Hp Hp2 a b e ef ea eb NR Hm F0 F0 c buf S) as [(Q & v' & D & RQ & S')|(m & D & N)]; [right|left; eauto].
  destruct (sec1_same_y p Hp (size_bytes (mkFp p)) F0 F0 v' c buf S S') as [Ev|[-> Ev]].
  - subst v'. exfalso. apply (y_nonzero _ a b NR F0 F0); [|reflexivity]. apply RQ.
  - exists Q. split; [reflexivity|]. split; [exact D|].
    destruct (eqb_wrep p Hp Hp2 a b e Q P _ _ RQ RP) as (t & -> & Ht). destruct t; [|reflexivity].
    discriminate (proj1 Ht eq_refl).
Qed.

(** *** C29 *)
(** the three outcomes of decode, on every byte string *)
Lemma decode_cases p (Hp : prime p) (Hp2 : 2 < p) (a b : ZpF p Hp) e : c_f e = mkFp p -> c_a e = fe a -> c_b e = fe b ->
  (forall x : ZpF p Hp, Fadd (Fadd (Fmul (Fmul x x) x) (Fmul a x)) b <> F0) -> sqrt_modulus p ->
  forall buf, Forall is_byte buf ->
  (length buf = 1%nat /\ exists m, decode e buf = Panic m)
  \/ (length buf <> 1%nat /\ ~ framed p buf /\ exists m, decode e buf = Ret (Err m))
  \/ (length buf <> 1%nat /\ exists c (x y : ZpF p Hp), sec1 (size_bytes (mkFp p)) (zv x) (zv y) c buf
        /\ ((exists Q, decode e buf = Ret (Ok Q) /\ wrep p Hp a b e Q (Aff _ x y))
            \/ (exists m, decode e buf = Panic m /\ forall y' : ZpF p Hp, sec1 (size_bytes (mkFp p)) (zv x) (zv y') c buf -> ~ on (ZpF p Hp) F0 a b (Aff _ x y')))).
Proof.
  intros ef ea eb NR Hm buf B.
  destruct (Nat.eq_dec (length buf) 1) as [L|L].
  { left. split; [exact L|]. destruct buf as [|t [|]]; try discriminate L. apply (decode_len1 p Hp2 e ef t). }
  right. destruct (framed_dec p Hp2 buf B) as [F|F].
  - right. split; [exact L|]. destruct F as (c & x & y & Cx & Cy & S).
    destruct (coord_K p Hp x Cx) as [u ->], (coord_K p Hp y Cy) as [v ->].
    destruct (decode_framed p Hp Hp2 a b e ef ea eb NR Hm u v c buf S) as [(Q & v' & D & RQ & S')|(m & D & N)].
    + exists c, u, v'. split; [exact S'|]. left. eauto.
    + exists c, u, v. split; [exact S|]. right. eauto.
  - left. split; [exact L|]. split; [exact F|]. apply (decode_bad p Hp2 e ef buf B L F).
Qed.
Lemma sec1_len p (Hp2 : 2 < p) x y c buf : sec1 (size_bytes (mkFp p)) x y c buf -> length buf <> 1%nat.
Proof.
  pose proof (n_pos p Hp2). intro S. inversion S as [bx (L & _) |bx by_ (L & _) _]; subst; cbn [length]; rewrite ?app_length; lia.
Qed.
(** decode answers Ok exactly on the SEC1 encodings (either mode) of the affine points of the curve *)
Lemma c29_decode_ok : forall e buf n, weier e -> sqrt_modulus (modulus (c_f e)) -> Forall is_byte buf ->
  byte_size (modulus (c_f e)) n ->
  (forall Q, decode e buf = Ret (Ok Q) -> exists c x y, sec1 n x y c buf /\ won e (Affine x y) /\ wpoint e Q (Affine x y))
  /\ (forall c x y, sec1 n x y c buf -> won e (Affine x y) -> exists Q, decode e buf = Ret (Ok Q) /\ wpoint e Q (Affine x y)).
Proof.
  intros e buf n W Hm B Hn. pose proof W as W0. open_curve W. rewrite ef in Hn, Hm. rewrite (size_is_nb p n Hp Hn). split.
  - intros Q D. destruct (decode_cases p Hp Hp2 a b e ef ea eb NR Hm buf B)
      as [(_ & m & E)|[(_ & _ & m & E)|(_ & c & x & y & S & [(Q' & E & RQ)|(m & E & _)])]]; try congruence.
    rewrite E in D. injection D as <-. exists c, (zv x), (zv y). split; [exact S|]. split.
    + apply (WO (Aff _ x y)). apply RQ.
    + apply WP. exists (Aff _ x y). auto.
  - intros c x y S O. pose proof O as (Cx & Cy & _). rewrite ef in Cx, Cy. cbn [modulus] in *.
    destruct (c32_representation e W0) as [_ Ex]. destruct (Ex _ O) as (P & HP).
    destruct (c28_round_trip e P x y c W0 ltac:(rewrite ef; exact Hm) HP) as (buf' & Q & E & D & HQ & _).
    destruct (c28_encode e P x y c (size_bytes (mkFp p)) W0 HP ltac:(rewrite ef; apply size_of, Hp)) as (buf2 & E2 & S2).
    assert (buf' = buf) as -> by (rewrite E2 in E; injection E as <-; eapply sec1_unique; eassumption). eauto.
Qed.
(** Err exactly on the texts of length other than 1 that are no encoding of a pair of residues *)
Lemma c29_decode_err : forall e buf n, weier e -> sqrt_modulus (modulus (c_f e)) -> Forall is_byte buf ->
  byte_size (modulus (c_f e)) n ->
  ((exists m, decode e buf = Ret (Err m)) <->
   length buf <> 1%nat /\ ~ exists c x y, coord (modulus (c_f e)) x /\ coord (modulus (c_f e)) y /\ sec1 n x y c buf).
Proof.
  intros e buf n W Hm B Hn. open_curve W. rewrite ef in *. cbn [modulus] in *. rewrite (size_is_nb p n Hp Hn). split.
  - intros (m & D). destruct (decode_cases p Hp Hp2 a b e ef ea eb NR Hm buf B)
      as [(_ & m' & E)|[(L & F & m' & E)|(_ & c & x & y & S & [(Q' & E & RQ)|(m' & E & _)])]]; try congruence.
    split; [exact L|exact F].
  - intros (L & F). exact (decode_bad p Hp2 e ef buf B L F).
Qed.
(** panic on every text of length 1 and on every well-formed encoding of no point of the curve *)
Lemma c29_decode_panics : forall e buf n, weier e -> sqrt_modulus (modulus (c_f e)) -> Forall is_byte buf ->
  byte_size (modulus (c_f e)) n ->
  ((exists m, decode e buf = Panic m) <->
   length buf = 1%nat \/
   ((exists c x y, coord (modulus (c_f e)) x /\ coord (modulus (c_f e)) y /\ sec1 n x y c buf)
    /\ ~ exists c x y, sec1 n x y c buf /\ won e (Affine x y))).
Proof.
  intros e buf n W Hm B Hn. pose proof (c29_decode_ok e buf n W Hm B Hn) as [_ OK].
  open_curve W. rewrite ef in *. cbn [modulus] in *. rewrite (size_is_nb p n Hp Hn) in *. split.
  - intros (m & D). destruct (decode_cases p Hp Hp2 a b e ef ea eb NR Hm buf B)
      as [(L & m' & E)|[(L & F & m' & E)|(L & c & x & y & S & [(Q' & E & RQ)|(m' & E & N)])]]; try congruence; [left; exact L|].
    right. split; [exists c, (zv x), (zv y); split; [apply coord_zv, Hp2|split; [apply coord_zv, Hp2|exact S]]|].
    intros (c' & x' & y' & S' & O'). destruct (OK c' x' y' S' O') as (Q & E' & _). congruence.
  - intros [L|(F & N)].
    + destruct buf as [|t [|]]; try discriminate L. apply (decode_len1 p Hp2 e ef t).
    + destruct (decode_cases p Hp Hp2 a b e ef ea eb NR Hm buf B)
      as [(L & m' & E)|[(L & F' & m' & E)|(L & c & x & y & S & [(Q' & E & RQ)|(m' & E & _)])]]; eauto.
      * contradiction.
      * exfalso. apply N. exists c, (zv x), (zv y). split; [exact S|]. apply (WO (Aff _ x y)), RQ.
Qed.

(** *** C30 *)
(** an accepted text is the encoding of the decoded point in its own mode *)
Lemma c30_decode_encode : forall e buf Q n, weier e -> sqrt_modulus (modulus (c_f e)) -> Forall is_byte buf ->
  byte_size (modulus (c_f e)) n -> decode e buf = Ret (Ok Q) ->
  encode Q (Z.of_nat (length buf) =? n + 1) = Ret buf.
Proof.
  intros e buf Q n W Hm B Hn D.
  destruct (proj1 (c29_decode_ok e buf n W Hm B Hn) Q D) as (c & x & y & S & _ & HQ).
  assert (Ec : (Z.of_nat (length buf) =? n + 1) = c).
  { pose proof W as W0. open_curve W. rewrite ef in Hn. rewrite (size_is_nb p n Hp Hn) in *. pose proof (n_pos p Hp2).
    inversion S as [bx (L & _) E1 E2|bx by_ (L & _) (L' & _) E1 E2]; subst; cbn [length]; rewrite ?app_length;
      [apply Z.eqb_eq|apply Z.eqb_neq]; lia. }
  rewrite Ec. destruct (c28_encode e Q x y c n W HQ Hn) as (buf' & E & S').
  rewrite E. f_equal. pose proof W as W0. open_curve W. rewrite ef in Hn. rewrite (size_is_nb p n Hp Hn) in *.
  eapply sec1_unique; eassumption.
Qed.
Lemma c30_unique_encodings : forall e b1 b2 Q1 Q2, weier e -> sqrt_modulus (modulus (c_f e)) ->
  Forall is_byte b1 -> Forall is_byte b2 -> decode e b1 = Ret (Ok Q1) -> decode e b2 = Ret (Ok Q2) ->
  length b1 = length b2 -> pt_eqb Q1 Q2 = Ret true -> b1 = b2.
Proof.
  intros e b1 b2 Q1 Q2 W Hm B1 B2 D1 D2 L E. pose proof W as W0. open_curve W.
  assert (Hn : byte_size (modulus (c_f e)) (size_bytes (mkFp p))) by (rewrite ef; apply size_of, Hp).
  pose proof (c30_decode_encode e b1 Q1 _ W0 Hm B1 Hn D1) as E1.
  pose proof (c30_decode_encode e b2 Q2 _ W0 Hm B2 Hn D2) as E2.
  destruct (proj1 (c29_decode_ok e b1 _ W0 Hm B1 Hn) Q1 D1) as (c1 & x1 & y1 & _ & _ & H1).
  destruct (proj1 (c29_decode_ok e b2 _ W0 Hm B2 Hn) Q2 D2) as (c2 & x2 & y2 & _ & _ & H2).
  destruct (c32_equality e Q1 Q2 _ _ W0 H1 H2) as (t & Et & Ht). rewrite Et in E. injection E as ->.
  assert (EA : Affine x1 y1 = Affine x2 y2) by (apply Ht; reflexivity). rewrite <- EA in H2. rewrite L in E1.
  destruct (c28_encode e Q1 x1 y1 (Z.of_nat (length b2) =? size_bytes (mkFp p) + 1) _ W0 H1 Hn) as (u1 & F1 & S1).
  destruct (c28_encode e Q2 x1 y1 (Z.of_nat (length b2) =? size_bytes (mkFp p) + 1) _ W0 H2 Hn) as (u2 & F2 & S2).
  rewrite F1 in E1. rewrite F2 in E2. injection E1 as <-. injection E2 as <-. eapply sec1_unique; eassumption.
Qed.

(** *** C23: histories *)
Lemma residue_mod r k : 0 < r -> residue r k (k mod r).
Proof. intro H. apply mod_residue, H. Qed.
Lemma residue_is_mod r k j : residue r k j -> j = k mod r.
Proof. intros (H & q & E). apply Z.mod_unique with q; lia. Qed.
Lemma elt_res F n : prime (modulus F) -> exists x, elt F n = Ret x /\ valid (modulus F) x /\ val x = n mod modulus F.
Proof.
  intro Hp. pose proof (prime_ge_2 _ Hp). destruct F as [p]. cbn [modulus] in *. rewrite elt_fe by lia.
  eexists. split; [reflexivity|]. split; [apply valid_fe; lia|reflexivity].
Qed.
Lemma scalar_of e k : 0 < c_r e -> exists m, new_scalar e k = Ret m /\ valid_scalar (c_r e) m /\ sk m = k mod c_r e.
Proof.
  intro H. destruct (c20_new_scalar (c_r e) k H) as (m & E & Er & R). exists m. split; [exact E|].
  split; [split; [exact Er|apply R]|apply residue_is_mod, R].
Qed.

(** whatever a history of operations returns is the point that the history means *)
Lemma c23_history_sound : forall oc e t P, wgroup e -> term_bytes t -> run oc e t = Ret P ->
  exists A, wmeans oc e t A /\ wpoint e P A.
Proof.
  intros oc e t P (W & Hm & Hr & H64 & Vgx & Vgy). pose proof (proj1 W) as HpP. revert P.
  induction t as [x y| | |buf|t IHt u IHu|t IHt u IHu|t IHt|t IHt k]; intros P B E; cbn [run term_bytes] in *.
  - destruct (elt_res (c_f e) x HpP) as (u & Eu & Vu & Ru), (elt_res (c_f e) y HpP) as (v & Ev & Vv & Rv).
    rewrite Eu, Ev in E. cbn [bind] in E. destruct (c23_new_point e u v W Vu Vv) as [Y N].
    assert (O : won e (Affine (val u) (val v)) \/ ~ won e (Affine (val u) (val v))).
    { unfold won, on_cubic, coord. pose proof (prime_ge_2 _ HpP).
      destruct (Zdivide_dec (modulus (c_f e)) (1 * (val v * val v) - (val u * val u * val u + 0 * (val u * val u) + val (c_a e) * val u + val (c_b e)))) as [D|D].
      - left. split; [apply Vu|]. split; [apply Vv|exact D].
      - right. intros (_ & _ & D'). contradiction. }
    destruct O as [O|O]; [|rewrite (N O) in E; discriminate].
    destruct (Y O) as (P' & E' & H). rewrite E' in E. injection E as <-. eexists. split; [|exact H].
    pose proof (prime_ge_2 _ HpP). constructor; [rewrite Ru; apply residue_mod; lia|rewrite Rv; apply residue_mod; lia|exact O].
  - exists Infinity. split; [constructor|]. open_curve W.
    destruct (identity_wrep p Hp Hp2 a b e ef ea eb) as (I & EI & HI). rewrite EI in E. injection E as <-.
    apply WP. exists (Inf _). auto.
  - change (get_generator e) with (new_point e (c_gx e) (c_gy e)) in E.
    destruct (c23_new_point e _ _ W Vgx Vgy) as [Y N].
    assert (O : won e (Affine (val (c_gx e)) (val (c_gy e))) \/ ~ won e (Affine (val (c_gx e)) (val (c_gy e)))).
    { unfold won, on_cubic, coord. set (u := c_gx e) in *. set (v := c_gy e) in *.
      destruct (Zdivide_dec (modulus (c_f e)) (1 * (val v * val v) - (val u * val u * val u + 0 * (val u * val u) + val (c_a e) * val u + val (c_b e)))) as [D|D].
      - left. split; [apply Vgx|]. split; [apply Vgy|exact D].
      - right. intros (_ & _ & D'). contradiction. }
    destruct O as [O|O]; [|rewrite (N O) in E; discriminate].
    destruct (Y O) as (P' & E' & H). rewrite E' in E. injection E as <-. eexists. split; [constructor; exact O|exact H].
  - destruct (decode e buf) as [[Q|m]|m] eqn:D; cbn [bind] in E; try discriminate. injection E as <-.
    assert (Hn : byte_size (modulus (c_f e)) (size_bytes (mkFp (modulus (c_f e))))) by (apply size_of, HpP).
    destruct (proj1 (c29_decode_ok e buf _ W Hm B Hn) Q D) as (c & x & y & S & O & H).
    eexists. split; [econstructor; eassumption|exact H].
  - destruct (run oc e t) as [X|] eqn:Et; [|discriminate]. destruct (run oc e u) as [Y|] eqn:Eu; [|discriminate]. cbn [bind] in E.
    destruct (IHt X (proj1 B) eq_refl) as (A & MA & HA), (IHu Y (proj2 B) eq_refl) as (A' & MA' & HA').
    destruct (c24_addition e X Y A A' W HA HA') as (R & ER & HR). rewrite ER in E. injection E as <-.
    pose proof W as W0. open_curve W0. pose proof HA as ZA. pose proof HA' as ZA'. apply WP in ZA as (A0 & -> & RA), ZA' as (A0' & -> & RA').
    set (C := ap p Hp (padd (ZpF p Hp) F0 a A0 A0')).
    assert (SC : wsum e (ap p Hp A0) (ap p Hp A0') C) by (apply WS; [apply RA|apply RA'|reflexivity]).
    exists C. split; [econstructor; eassumption|apply HR, SC].
  - destruct (run oc e t) as [X|] eqn:Et; [|discriminate]. destruct (run oc e u) as [Y|] eqn:Eu; [|discriminate]. cbn [bind] in E.
    destruct (IHt X (proj1 B) eq_refl) as (A & MA & HA), (IHu Y (proj2 B) eq_refl) as (A' & MA' & HA').
    destruct (c24_subtraction e X Y A A' W HA HA') as (R & ER & HR). rewrite ER in E. injection E as <-.
    pose proof W as W0. open_curve W0. pose proof HA as ZA. pose proof HA' as ZA'. apply WP in ZA as (A0 & -> & RA), ZA' as (A0' & -> & RA').
    set (C := ap p Hp (padd (ZpF p Hp) F0 a A0 (popp _ A0'))).
    assert (SC : wsum e (ap p Hp A0) (negative (modulus (c_f e)) (ap p Hp A0')) C).
    { rewrite ef. cbn [modulus]. rewrite <- (neg_ap p Hp). apply WS; [apply RA|apply on_popp, RA'|reflexivity]. }
    exists C. split; [econstructor; eassumption|apply HR, SC].
  - destruct (run oc e t) as [X|] eqn:Et; [|discriminate]. cbn [bind] in E. destruct (IHt X B eq_refl) as (A & MA & HA).
    destruct (c24_negation e X A W HA) as (R & ER & HR). rewrite ER in E. injection E as <-.
    eexists. split; [constructor; exact MA|apply HR; reflexivity].
  - destruct (run oc e t) as [X|] eqn:Et; [|discriminate]. cbn [bind] in E. destruct (IHt X B eq_refl) as (A & MA & HA).
    destruct (scalar_of e k Hr) as (m & Em & Vm & Km). rewrite Em in E. cbn [bind] in E.
    assert (NZ : oc = true -> sk m <> 0).
    { intros -> Z0. destruct m as [m r]. cbn [sk] in Z0. destruct Vm as [Er _]. cbn [sr] in Er. rewrite Z0, Er in E.
      rewrite (c26_zero_scalar_panics e X A W HA) in E. discriminate. }
    destruct (c26_scalar_multiplication oc e X A m W HA Vm H64 NZ) as (R & ER & HR). rewrite ER in E. injection E as <-.
    pose proof W as W0. open_curve W0. pose proof HA as ZA. apply WP in ZA as (A0 & -> & RA).
    set (C := ap p Hp (nmul p Hp F0 a (Z.to_nat (sk m)) A0)).
    assert (SC : multiple (wsum e) Infinity (ap p Hp A0) (Z.to_nat (sk m)) C) by (apply WM; [apply RA|reflexivity]).
    exists C. split; [|apply HR, SC]. econstructor; [exact MA| |exact NZ|exact SC]. rewrite Km. apply residue_mod, Hr.
Qed.
(** and a history that means a point never panics *)
Lemma c23_history_complete : forall oc e t A, wgroup e -> term_bytes t -> wmeans oc e t A ->
  exists P, run oc e t = Ret P /\ wpoint e P A.
Proof.
  intros oc e t A (W & Hm & Hr & H64 & Vgx & Vgy) B M. pose proof (proj1 W) as HpP.
  induction M as [x y u v Ru Rv O| |O|n c x y buf Hn S O|t u A A' C M1 IH1 M2 IH2 SC|t u A A' C M1 IH1 M2 IH2 SC|t A M IH|t k j A C M IH R NZ SC];
    cbn [run term_bytes] in *.
  - destruct (elt_res (c_f e) x HpP) as (x' & Eu & Vu & Xu), (elt_res (c_f e) y HpP) as (y' & Ev & Vv & Xv).
    rewrite Eu, Ev. cbn [bind]. apply residue_is_mod in Ru, Rv. rewrite <- Ru in Xu. rewrite <- Rv in Xv. clear Ru Rv. subst u v.
    destruct (c23_new_point e x' y' W Vu Vv) as [Y _]. apply Y, O.
  - open_curve W. destruct (identity_wrep p Hp Hp2 a b e ef ea eb) as (I & EI & HI). exists I. split; [exact EI|].
    apply WP. exists (Inf _). auto.
  - change (get_generator e) with (new_point e (c_gx e) (c_gy e)). destruct (c23_new_point e _ _ W Vgx Vgy) as [Y _]. apply Y, O.
  - destruct (proj2 (c29_decode_ok e buf n W Hm B Hn) c x y S O) as (Q & -> & HQ). exists Q. split; [reflexivity|exact HQ].
  - destruct (IH1 (proj1 B)) as (X & -> & HX), (IH2 (proj2 B)) as (Y & -> & HY). cbn [bind].
    destruct (c24_addition e X Y A A' W HX HY) as (R & ER & HR). exists R. split; [exact ER|apply HR, SC].
  - destruct (IH1 (proj1 B)) as (X & -> & HX), (IH2 (proj2 B)) as (Y & -> & HY). cbn [bind].
    destruct (c24_subtraction e X Y A A' W HX HY) as (R & ER & HR). exists R. split; [exact ER|apply HR, SC].
  - destruct (IH B) as (X & -> & HX). cbn [bind].
    destruct (c24_negation e X A W HX) as (R & ER & HR). exists R. split; [exact ER|apply HR; reflexivity].
  - destruct (IH B) as (X & -> & HX). cbn [bind].
    destruct (scalar_of e k Hr) as (m & -> & Vm & Km). cbn [bind]. apply residue_is_mod in R. rewrite <- R in Km. clear R. subst j.
    destruct (c26_scalar_multiplication oc e X A m W HX Vm H64 NZ) as (Q & EQ & HQ). exists Q. split; [exact EQ|apply HQ, SC].
Qed.

(** a small curve for the examples: y^2 = x^3 + x + 6 modulo 7, of prime order 11 *)
Definition n7 (v : Z) : FpElt := mkFpElt v (mkFp 7).
Definition E7 : Curve := mkCurve (mkFp 7) (n7 1) (n7 6) 11 (n7 1) (n7 1) 1.
Definition pt7 (x y z : Z) : Point := mkPoint E7 (mkProy (n7 x) (n7 y) (n7 z)).
Lemma prime_7 : prime 7.
Proof.
  apply prime_intro; [lia|]. intros n Hn. apply Zgcd_1_rel_prime.
  assert (n = 1 \/ n = 2 \/ n = 3 \/ n = 4 \/ n = 5 \/ n = 6) as D by lia.
  decompose [or] D; subst n; reflexivity.
Qed.
Lemma v7 v : 0 <= v < 7 -> valid 7 (n7 v). Proof. intro H. split; [reflexivity|exact H]. Qed.
Lemma weier7 : weier E7.
Proof.
  split; [exact prime_7|]. cbn. split; [lia|]. split; [apply v7; lia|]. split; [apply v7; lia|].
  intros x D. change (7 | x * x * x + 1 * x + 6) in D. apply Zdivide_mod in D.
  assert (M : (x * x * x + 1 * x + 6) mod 7 = ((x mod 7) * (x mod 7) * (x mod 7) + (x mod 7) + 6) mod 7).
  { rewrite (Z.div_mod x 7) at 1 2 3 4 by lia. set (q := x / 7). set (r := x mod 7).
    rewrite <- (Z_mod_plus_full (r * r * r + r + 6) (q * (7 * 7 * q * q + 3 * 7 * q * r + 3 * r * r + 1)) 7).
    f_equal. ring. }
  rewrite M in D. pose proof (Z.mod_pos_bound x 7 ltac:(lia)).
  assert (E : x mod 7 = 0 \/ x mod 7 = 1 \/ x mod 7 = 2 \/ x mod 7 = 3 \/ x mod 7 = 4 \/ x mod 7 = 5 \/ x mod 7 = 6) by lia.
  decompose [or] E; match goal with H : x mod 7 = _ |- _ => rewrite H in D; discriminate D end.
Qed.
Lemma wgroup7 : wgroup E7.
Proof.
  split; [exact weier7|]. split; [left; reflexivity|]. split; [cbn; lia|]. split; [reflexivity|]. split; apply v7; lia.
Qed.
Ltac in7 := repeat split; try reflexivity; cbn; try lia; try (apply Zmod_divide; [lia|reflexivity]).
Lemma gen7 : wpoint E7 (pt7 1 1 1) (Affine 1 1). Proof. in7. Qed.
Lemma other7 : wpoint E7 (pt7 4 6 2) (Affine 2 3). Proof. in7. Qed.
Lemma inf7 : wpoint E7 (pt7 0 3 0) Infinity. Proof. in7. Qed.
Example c23_ex : wgroup E7
  /\ run true E7 (TMul (TAdd TGenerator (TDecode [3; 2])) (-4)) = Ret (pt7 2 6 4)
  /\ run true E7 (TNew 8 2) = Panic "not valid point".
Proof. split; [exact wgroup7|]. split; vm_compute; reflexivity. Qed.
Example c24_ex : weier E7 /\ wpoint E7 (pt7 1 1 1) (Affine 1 1) /\ wpoint E7 (pt7 4 6 2) (Affine 2 3)
  /\ pt_add (pt7 1 1 1) (pt7 4 6 2) = Ret (pt7 6 1 6) /\ pt_add (pt7 1 1 1) (pt7 1 1 1) = Ret (pt7 2 4 1)
  /\ pt_add (pt7 1 1 1) (pt7 1 6 1) = Ret (pt7 0 4 0).
Proof. split; [exact weier7|]. split; [exact gen7|]. split; [exact other7|]. vm_compute. auto. Qed.
(** without the hypothesis on points of order 2 the formulas are not complete: on y^2 = x^3 + x + 3
    modulo 7 the sum of (4,1) and (6,1), whose difference has order 2, is the forbidden (0,0,0) *)
Lemma c24_complete_for_all_curves_refuted : exists e P Q R,
  prime (modulus (c_f e)) /\ valid 7 (c_a e) /\ valid 7 (c_b e) /\ wpoint e P (Affine 4 1) /\ wpoint e Q (Affine 6 1)
  /\ pt_add P Q = Ret R /\ pc R = mkProy (n7 0) (n7 0) (n7 0) /\ forall A, ~ wpoint e R A.
Proof.
  set (e := mkCurve (mkFp 7) (n7 1) (n7 3) 6 (n7 4) (n7 1) 1).
  exists e, (mkPoint e (mkProy (n7 4) (n7 1) (n7 1))), (mkPoint e (mkProy (n7 6) (n7 1) (n7 1))), (mkPoint e (mkProy (n7 0) (n7 0) (n7 0))).
  split; [exact prime_7|]. split; [apply v7; lia|]. split; [apply v7; lia|]. split; [in7|]. split; [in7|].
  split; [vm_compute; reflexivity|]. split; [reflexivity|].
  intros [|x y] (_ & _ & _ & _ & R & _); cbn in R; [destruct R as (_ & R & _)|destruct R as (R & _)]; apply R; reflexivity.
Qed.
Example c25_ex : same (bind (pt_add (pt7 1 1 1) (pt7 4 6 2)) (fun S => pt_add S (pt7 1 1 1)))
    (bind (pt_add (pt7 4 6 2) (pt7 1 1 1)) (fun S => pt_add (pt7 1 1 1) S)).
Proof. exact (c25_associative E7 _ _ _ _ _ _ weier7 gen7 other7 gen7). Qed.
Example c26_ex : wpoint E7 (pt7 1 1 1) (Affine 1 1) /\ valid_scalar (c_r E7) (mkScalar 7 11)
  /\ pt_mul true (pt7 1 1 1) (mkScalar 7 11) = Ret (pt7 3 5 6)
  /\ pt_mul false (pt7 1 1 1) (mkScalar 0 11) = Ret (pt7 0 1 0)
  /\ (exists R, pt_mul true (pt7 1 1 1) (mkScalar 10 11) = Ret R /\ pt_eqb R (pt7 1 6 1) = Ret true)
  /\ multiple (wsum E7) Infinity (Affine 1 1) (Z.to_nat (c_r E7)) Infinity.
Proof.
  split; [exact gen7|]. split; [split; [reflexivity|cbn; lia]|]. split; [vm_compute; reflexivity|].
  split; [vm_compute; reflexivity|]. split; [eexists; split; vm_compute; reflexivity|].
  destruct (c26_scalar_multiplication false E7 _ _ (mkScalar 10 11) weier7 gen7 ltac:(split; [reflexivity|cbn; lia]) ltac:(reflexivity) ltac:(discriminate)) as (R & ER & HR).
  assert (ER' : pt_mul false (pt7 1 1 1) (mkScalar 10 11) = Ret R) by exact ER.
  vm_compute in ER'. injection ER' as <-.
  change (Z.to_nat (c_r E7)) with (S (Z.to_nat (sk (mkScalar 10 11)))).
  apply mult_S with (Affine 1 6); [apply HR; in7|]. constructor. exists 1. reflexivity.
Qed.
Example c27_ex : wpoint E7 (pt7 0 3 0) Infinity /\ pt_is_zero (pt7 0 3 0) = true /\ pt_is_zero (pt7 4 6 2) = false.
Proof. split; [exact inf7|]. split; reflexivity. Qed.
Example c28_ex : encode (pt7 4 6 2) true = Ret [3; 2] /\ encode (pt7 4 6 2) false = Ret [4; 2; 3]
  /\ decode E7 [3; 2] = Ret (Ok (pt7 2 3 1)) /\ byte_size 7 1.
Proof. split; [reflexivity|]. split; [reflexivity|]. split; [vm_compute; reflexivity|]. repeat split; lia. Qed.
Lemma c28_identity_round_trip_refuted : exists e P m, weier e /\ wpoint e P Infinity
  /\ encode P false = Ret [4; 0; 0] /\ decode e [4; 0; 0] = Panic m.
Proof. exists E7, (pt7 0 3 0). eexists. split; [exact weier7|]. split; [exact inf7|]. split; vm_compute; reflexivity. Qed.
Example c29_ex : Forall is_byte [4; 2; 3] /\ decode E7 [4; 2; 3] = Ret (Ok (pt7 2 3 1))
  /\ decode E7 [4; 7; 3] = Ret (Err "Invalid x coordinate") /\ decode E7 [5; 2] = Ret (Err "Invalid tag specified")
  /\ decode E7 [] = Ret (Err "Wrong input buffer size.").
Proof. split; [repeat constructor; cbn; lia|]. vm_compute. auto. Qed.
Lemma c29_decode_never_panics_refuted : exists e b1 b2 b3 m1 m2 m3, weier e
  /\ Forall is_byte b1 /\ Forall is_byte b2 /\ Forall is_byte b3
  /\ b1 = [0] /\ decode e b1 = Panic m1
  /\ b2 = [4; 2; 1] /\ decode e b2 = Panic m2
  /\ b3 = [2; 0] /\ decode e b3 = Panic m3.
Proof.
  exists E7, [0], [4; 2; 1], [2; 0]. do 3 eexists. split; [exact weier7|].
  do 3 (split; [repeat constructor; cbn; lia|]). split; [reflexivity|]. split; [vm_compute; reflexivity|].
  split; [reflexivity|]. split; [vm_compute; reflexivity|]. split; vm_compute; reflexivity.
Qed.
Example c30_ex : decode E7 [2; 2] = Ret (Ok (pt7 2 4 1)) /\ encode (pt7 2 4 1) true = Ret [2; 2].
Proof. split; vm_compute; reflexivity. Qed.
Example c31_ex : normalize (pt7 4 6 2) = Ret (pt7 2 3 1). Proof. reflexivity. Qed.
Lemma c31_normalize_keeps_point_refuted : exists e P R, weier e /\ wpoint e P Infinity /\ normalize P = Ret R
  /\ pt_is_zero R = false /\ pt_eqb R P = Ret false.
Proof.
  exists E7, (pt7 0 3 0), (pt7 0 0 1). split; [exact weier7|]. split; [exact inf7|]. repeat split; vm_compute; reflexivity.
Qed.
Example c32_ex : pt_eqb (pt7 4 6 2) (pt7 2 3 1) = Ret true /\ pt_eqb (pt7 4 6 2) (pt7 1 1 1) = Ret false.
Proof. split; reflexivity. Qed.
(** the triple (0,0,0) passes the curve test and is equal to every point: the equality above holds only
    because no operation produces it (C23, C24) *)
Lemma c32_zero_triple : forall e P A, weier e -> wpoint e P A ->
  let O := mkPoint e (mkProy (mkFpElt 0 (c_f e)) (mkFpElt 0 (c_f e)) (mkFpElt 0 (c_f e))) in
  is_on_curve e (pc O) = Ret true /\ pt_eqb O P = Ret true /\ pt_eqb P O = Ret true /\ (forall B, ~ wpoint e O B).
Proof.
  intros e P A W HP O. open_curve W. open_point HP. destruct RP as (EP & (X & Y & Z & EC & R) & _).
  assert (EO : pc O = mk p Hp F0 F0 F0) by (unfold O, mk, fe; rewrite ef; reflexivity).
  assert (M0 : forall u : ZpF p Hp, zmul u (of_Z p 0) = of_Z p 0) by (intro u; apply Zp_eq; cbn; rewrite Z.mul_0_r; reflexivity).
  assert (M1 : forall u : ZpF p Hp, zmul (of_Z p 0) u = of_Z p 0) by (intro u; apply Zp_eq; cbn; reflexivity).
  split; [|split; [|split]].
  - rewrite EO. destruct (on_curve_mk p Hp Hp2 a b e ea eb F0 F0 F0) as (t & -> & Ht). f_equal. apply Ht.
    apply Zp_eq. cbn. rewrite ?Z.mul_0_r. reflexivity.
  - unfold pt_eqb. rewrite EO, EC, EP. cbn [pe O mk px py pz]. rewrite curve_eqb_refl. fes. f_equal. cbn [andb].
    apply andb_true_iff. split; apply fpelt_eqb_fe; (etransitivity; [apply M1|symmetry; apply M1]).
  - unfold pt_eqb. rewrite EO, EC, EP. cbn [pe O mk px py pz]. rewrite curve_eqb_refl. fes. f_equal. cbn [andb].
    apply andb_true_iff. split; apply fpelt_eqb_fe; (etransitivity; [apply M0|symmetry; apply M0]).
  - intros [|x y] (_ & _ & _ & _ & R' & _); cbn in R'; [destruct R' as (_ & R' & _)|destruct R' as (R' & _)]; apply R'; reflexivity.
Qed.

(** *** C49 *)
Lemma fpelt_eqb_eq x y : fpelt_eqb x y = true -> x = y.
Proof.
  destruct x as [v [p]], y as [w [q]]. unfold fpelt_eqb, fp_eqb. cbn. rewrite andb_true_iff, !Z.eqb_eq. intuition congruence.
Qed.
Lemma curve_eqb_eq e1 e2 : curve_eqb e1 e2 = true <-> e1 = e2.
Proof.
  split; [|intros ->; apply curve_eqb_refl].
  destruct e1 as [[f] a b r gx gy h], e2 as [[f'] a' b' r' gx' gy' h']. unfold curve_eqb, fp_eqb. cbn [c_f c_a c_b c_r c_gx c_gy c_h modulus].
  rewrite !andb_true_iff, !Z.eqb_eq. intros ((((((-> & Ea) & Eb) & ->) & Ex) & Ey) & ->).
  apply fpelt_eqb_eq in Ea, Eb, Ex, Ey. congruence.
Qed.
Lemma c49_different_curves : forall P Q, pe P <> pe Q -> pt_add P Q = Panic "points of different curves".
Proof.
  intros P Q N. unfold pt_add. destruct (curve_eqb (pe P) (pe Q)) eqn:E; [apply curve_eqb_eq in E; contradiction|reflexivity].
Qed.
Lemma c49_different_orders : forall oc P k, sr k <> c_r (pe P) -> pt_mul oc P k = Panic "Scalar don't match with point".
Proof. intros oc P k N. unfold pt_mul. destruct (Z.eqb_spec (c_r (pe P)) (sr k)); [congruence|reflexivity]. Qed.
(** comparing points of different curves is false over one field, but panics over different fields *)
Lemma c49_equality_across_curves : forall e1 e2 P Q A B, weier e1 -> weier e2 -> e1 <> e2 -> wpoint e1 P A -> wpoint e2 Q B ->
  (modulus (c_f e1) = modulus (c_f e2) -> pt_eqb P Q = Ret false)
  /\ (modulus (c_f e1) <> modulus (c_f e2) -> pt_eqb P Q = Panic "elements of different fields").
Proof.
  intros e1 e2 P Q A B (Hp & Hp2 & _) _ N (EP & Vx & Vy & Vz & _) (EQ & Ux & Uy & Uz & _). split; intro E.
  - rewrite <- E in *. set (p := modulus (c_f e1)) in *.
    destruct (valid_ex _ _ Vx) as [x1 X1], (valid_ex _ _ Vy) as [y1 Y1], (valid_ex _ _ Vz) as [z1 Z1].
    destruct (valid_ex _ _ Ux) as [x2 X2], (valid_ex _ _ Uy) as [y2 Y2], (valid_ex _ _ Uz) as [z2 Z2].
    unfold pt_eqb. rewrite X1, Y1, Z1, X2, Y2, Z2, EP, EQ. fes.
    destruct (curve_eqb e1 e2) eqn:C; [apply curve_eqb_eq in C; contradiction|reflexivity].
  - unfold pt_eqb, mul. rewrite (proj1 Vx), (proj1 Uz). unfold fp_eqb. cbn [modulus].
    destruct (Z.eqb_spec (modulus (c_f e1)) (modulus (c_f e2))); [contradiction|reflexivity].
Qed.
(** mixing fields when making a point panics too *)
Lemma c49_new_point_wrong_field : forall e x y, weier e -> fld x <> c_f e ->
  exists m, new_point e x y = Panic m.
Proof.
  intros e x y W N. open_curve W. unfold new_point. rewrite ef. fes. unfold is_on_curve. cbn [px py pz].
  rewrite ea, eb. destruct (sqr x) as [xx|m]; cbn [bind]; [|eauto].
  destruct (mul x xx) as [x3|m]; cbn [bind]; [|eauto]. fes.
  unfold mul at 1. cbn [fld fe]. destruct (fp_eqb (mkFp p) (fld x)) eqn:E; [|cbn [do_if_eq bind]; eauto].
  exfalso. apply N. rewrite ef. unfold fp_eqb in E. destruct (fld x) as [q]. cbn [modulus] in E. apply Z.eqb_eq in E. congruence.
Qed.
Example c49_ex : pt_add (pt7 1 1 1) (mkPoint (mkCurve (mkFp 7) (n7 1) (n7 6) 13 (n7 1) (n7 1) 1) (pc (pt7 1 1 1)))
    = Panic "points of different curves"
  /\ pt_mul true (pt7 1 1 1) (mkScalar 3 13) = Panic "Scalar don't match with point".
Proof. split; reflexivity. Qed.
