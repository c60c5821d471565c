(** Montgomery curves: C33-C35 and the Montgomery parts of C27, C31, C32, C49. *)
From Coq Require Import ZArith Znumtheory Lia String Bool List Ring Field.
From Verif.Math Require Import Fld Zp Residue ECGroup RCB MontAdd.
From Verif.Spec Require Import Arith Curve.
From Verif.Model Require Import Out BigInt PrimeField Scalar MCurve.
From Verif.Proofs Require Import FieldP FieldProps BytesP SerialProps ScalarProps CurveP LadderP SmallP MontP.
From Verif.Proofs Require WeierP WeierProps.
From Verif.Spec Require Export MPoints.
Import WeierProps(byte_size_unique, size_is_nb, size_of, coord_K, bits_small, residue_mod, residue_is_mod, elt_res, Fcomm, sec1_len).
Import ListNotations.
Open Scope Z_scope.

Lemma mont_open_at e p (Hp : prime p) : modulus (c_f e) = p -> mont e -> exists (Hp2 : 2 < p) (a b s : ZpF p Hp),
  c_f e = mkFp p /\ c_a e = fe a /\ c_b e = fe b /\ c_s e = fe s /\ b = F1
  /\ Fmul a a <> Fmul (Fadd F1 F1) (Fadd F1 F1)
  /\ (forall x : ZpF p Hp, Fadd (Fadd (Fmul (Fmul x x) x) (Fmul a (Fmul x x))) x <> Fmul s s)
  /\ (forall P A, mpoint e P A <-> exists A', A = ap p Hp A' /\ wrep p Hp a e P A')
  /\ (forall A B C, on (ZpF p Hp) a F1 F0 A -> on (ZpF p Hp) a F1 F0 B ->
        (msum e (ap p Hp A) (ap p Hp B) C <-> C = ap p Hp (padd (ZpF p Hp) a F1 A B)))
  /\ (forall A n C, on (ZpF p Hp) a F1 F0 A ->
        (multiple (msum e) Infinity (ap p Hp A) n C <-> C = ap p Hp (nmul p Hp a F1 n A)))
  /\ (forall A, on (ZpF p Hp) a F1 F0 A <-> mon e (ap p Hp A))
  /\ (forall A, mon e A -> exists A', A = ap p Hp A' /\ on (ZpF p Hp) a F1 F0 A').
Proof.
  intros Ep (_ & Hp2 & Va & Vb & Vs & B1 & NS & NR). subst p. set (p := modulus (c_f e)) in *.
  assert (ef : c_f e = mkFp p) by (unfold p; destruct (c_f e); reflexivity).
  destruct (valid_ex _ _ Va) as [a ea], (valid_ex _ _ Vb) as [b eb], (valid_ex _ _ Vs) as [s es].
  exists Hp2, a, b, s.
  assert (Z1 : zv (F1 : ZpF p Hp) = 1) by (change (1 mod p = 1); apply Z.mod_small; lia).
  assert (Z0 : zv (F0 : ZpF p Hp) = 0) by reflexivity.
  pose proof (on_ap p Hp Hp2 a F1 F0) as OA. rewrite Z1, Z0 in OA.
  pose proof (on_cubic_unap p Hp Hp2 a F1 F0) as OU. rewrite Z1, Z0 in OU.
  pose proof (ct_padd p Hp Hp2 a F1 F0) as CT. rewrite Z1 in CT.
  pose proof (multiple_ap p Hp Hp2 a F1 F0) as MA. rewrite Z1 in MA.
  assert (R : forall P A, mpoint e P A <-> exists A', A = ap p Hp A' /\ wrep p Hp a e P A').
  { intros P A. unfold mpoint, wrep. rewrite B1, ea. fold p. cbn [val fe]. split.
    - intros (EP & Vx & Vy & Vz & R & O).
      destruct (OU A O) as (A' & -> & O').
      exists A'. split; [reflexivity|]. split; [exact EP|]. split; [|exact O'].
      destruct (valid_ex _ _ Vx) as [X EX], (valid_ex _ _ Vy) as [Y EY], (valid_ex _ _ Vz) as [Z EZ].
      exists X, Y, Z. split; [unfold mk; rewrite <- EX, <- EY, <- EZ; destruct (pc P); reflexivity|].
      apply (rep_ap p Hp Hp2). rewrite EX, EY, EZ in R. exact R.
    - intros (A' & -> & EP & (X & Y & Z & EC & R) & O). rewrite EC. cbn [mk px py pz val fe].
      split; [exact EP|]. repeat (split; [apply valid_fe; lia|]). split; [apply (rep_ap p Hp Hp2), R|].
      apply OA. exact O. }
  split; [exact ef|]. split; [exact ea|]. split; [exact eb|]. split; [exact es|]. split.
  { apply Zp_eq. rewrite Z1. rewrite eb in B1. exact B1. }
  split.
  { intro E. apply NS. rewrite ea. cbn [val fe]. apply of_Z_div; [lia|]. change 4 with ((1 + 1) * (1 + 1)). pushZ. exact E. }
  split.
  { intros x E. apply (NR (zv x)). rewrite ea, es. cbn [val fe]. apply of_Z_div; [lia|]. pushZ. exact E. }
  split; [exact R|]. unfold msum, mon. rewrite B1, ea. fold p. cbn [val fe]. split; [|split; [|split]].
  - intros A B C HA HB. apply (CT A B HA HB C).
  - intros A n C HA. apply (MA n A HA C).
  - intro A. apply OA.
  - exact OU.
Qed.
Lemma mont_open e : mont e -> exists p (Hp : prime p) (Hp2 : 2 < p) (a b s : ZpF p Hp),
  c_f e = mkFp p /\ c_a e = fe a /\ c_b e = fe b /\ c_s e = fe s /\ b = F1
  /\ Fmul a a <> Fmul (Fadd F1 F1) (Fadd F1 F1)
  /\ (forall x : ZpF p Hp, Fadd (Fadd (Fmul (Fmul x x) x) (Fmul a (Fmul x x))) x <> Fmul s s)
  /\ (forall P A, mpoint e P A <-> exists A', A = ap p Hp A' /\ wrep p Hp a e P A')
  /\ (forall A B C, on (ZpF p Hp) a F1 F0 A -> on (ZpF p Hp) a F1 F0 B ->
        (msum e (ap p Hp A) (ap p Hp B) C <-> C = ap p Hp (padd (ZpF p Hp) a F1 A B)))
  /\ (forall A n C, on (ZpF p Hp) a F1 F0 A ->
        (multiple (msum e) Infinity (ap p Hp A) n C <-> C = ap p Hp (nmul p Hp a F1 n A)))
  /\ (forall A, on (ZpF p Hp) a F1 F0 A <-> mon e (ap p Hp A))
  /\ (forall A, mon e A -> exists A', A = ap p Hp A' /\ on (ZpF p Hp) a F1 F0 A').
Proof.
  intro W. exists (modulus (c_f e)), (proj1 W). exact (mont_open_at e _ (proj1 W) eq_refl W).
Qed.
Ltac open_curve H := destruct (mont_open _ H) as (p & Hp & Hp2 & a & b & s & ef & ea & eb & es & b1 & NS & NR & WP & WS & WM & WO & WU).
Ltac open_point H := match type of H with mpoint ?e ?P ?A =>
  let HH := fresh in pose proof H as HH;
  match goal with WP : forall P A, mpoint e P A <-> _ |- _ => apply WP in HH end;
  let A' := fresh A "'" in let R := fresh "R" P in
  destruct HH as (A' & ? & R); subst A end.

Lemma wrep_fun p Hp a e P A B : wrep p Hp a e P A -> wrep p Hp a e P B -> A = B.
Proof.
  intros (_ & (X & Y & Z & E & R) & _) (_ & (X' & Y' & Z' & E' & R') & _). rewrite E in E'.
  assert (EX : X = X') by (apply (fe_inj p); exact (f_equal px E')).
  assert (EY : Y = Y') by (apply (fe_inj p); exact (f_equal py E')).
  assert (EZ : Z = Z') by (apply (fe_inj p); exact (f_equal pz E')). subst.
  apply (WeierP.rep_cross _ _ _ _ _ _ _ _ _ R R'). split; apply Fcomm.
Qed.
Lemma wrep_iff p Hp a e P A : (forall P A, mpoint e P A <-> exists A', A = ap p Hp A' /\ wrep p Hp a e P A') ->
  wrep p Hp a e P A -> forall C, mpoint e P C <-> C = ap p Hp A.
Proof.
  intros WP R C. rewrite WP. split; [|intros ->; eauto]. intros (A' & -> & R').
  f_equal. eapply wrep_fun; eassumption.
Qed.

(** *** C33 *)
(** new_point accepts exactly the points of the curve, and panics on all others *)
Lemma c33_new_point : forall e x y, mont e -> valid (modulus (c_f e)) x -> valid (modulus (c_f e)) y ->
  (mon e (Affine (val x) (val y)) -> exists P, new_point e x y = Ret P /\ mpoint e P (Affine (val x) (val y)))
  /\ (~ mon e (Affine (val x) (val y)) -> new_point e x y = Panic "not valid point").
Proof.
  intros e x y W. open_curve W. rewrite ef. cbn [modulus]. intros Vx Vy.
  destruct (valid_ex _ _ Vx) as [u ->], (valid_ex _ _ Vy) as [v ->]. cbn [val fe].
  destruct (new_point_mk p Hp Hp2 a b e ef ea eb b1 u v) as (t & Ht & ->).
  change (Affine (zv u) (zv v)) with (ap p Hp (Aff (ZpF p Hp) u v)). rewrite <- WO. split; intro H.
  - apply Ht in H as Et. rewrite Et. eexists. split; [reflexivity|].
    apply WP. eexists. split; [reflexivity|]. apply wrep_mk; [apply WeierP.rep_one|exact H].
  - destruct t; [exfalso; apply H, Ht; reflexivity|reflexivity].
Qed.

(** *** C33 *)
Lemma c33_addition : forall e P Q A B, mont e -> mpoint e P A -> mpoint e Q B ->
  exists R, pt_add P Q = Ret R /\ forall C, mpoint e R C <-> msum e A B C.
Proof.
  intros e P Q A B W HP HQ. open_curve W. open_point HP. open_point HQ.
  destruct (add_wrep p Hp Hp2 a b s e ea eb es b1 NS NR P Q _ _ RP RQ) as (R & E & HR).
  exists R. split; [exact E|]. intro C. rewrite WS by apply RP || apply RQ. apply (wrep_iff _ _ _ _ _ _ WP HR).
Qed.
Lemma c33_negation : forall e P A, mont e -> mpoint e P A ->
  exists R, pt_neg P = Ret R /\ forall C, mpoint e R C <-> C = negative (modulus (c_f e)) A.
Proof.
  intros e P A W HP. open_curve W. open_point HP.
  destruct (neg_wrep p Hp Hp2 a b e ea eb b1 P _ RP) as (R & E & HR).
  exists R. split; [exact E|]. intro C. rewrite ef. cbn [modulus]. rewrite <- (neg_ap p Hp). apply (wrep_iff _ _ _ _ _ _ WP HR).
Qed.
Lemma c33_subtraction : forall e P Q A B, mont e -> mpoint e P A -> mpoint e Q B ->
  exists R, pt_sub P Q = Ret R /\ forall C, mpoint e R C <-> msum e A (negative (modulus (c_f e)) B) C.
Proof.
  intros e P Q A B W HP HQ. open_curve W. open_point HP. open_point HQ.
  destruct (sub_wrep p Hp Hp2 a b s e ea eb es b1 NS NR P Q _ _ RP RQ) as (R & E & HR).
  exists R. split; [exact E|]. intro C. rewrite ef. cbn [modulus]. rewrite <- (neg_ap p Hp).
  rewrite WS; [|apply RP|apply on_popp, RQ]. apply (wrep_iff _ _ _ _ _ _ WP HR).
Qed.

(** *** C34 *)
Lemma same_wrep p Hp (Hp2 : 2 < p) a e x y L M A :
  x = Ret L -> y = Ret M -> wrep p Hp a e L A -> wrep p Hp a e M A -> same x y.
Proof.
  intros -> -> HL HM. exists L, M. repeat split.
  destruct (eqb_wrep p Hp Hp2 a e L M A A HL HM) as (t & -> & Ht). f_equal. apply Ht. reflexivity.
Qed.
Lemma c34_associative : forall e P Q R A B C, mont e -> mpoint e P A -> mpoint e Q B -> mpoint e R C ->
  same (bind (pt_add P Q) (fun S => pt_add S R)) (bind (pt_add Q R) (fun S => pt_add P S)).
Proof.
  intros e P Q R A B C W HP HQ HR. open_curve W. open_point HP. open_point HQ. open_point HR.
  destruct (add_wrep p Hp Hp2 a b s e ea eb es b1 NS NR P Q _ _ RP RQ) as (S & -> & HS). cbn [bind].
  destruct (add_wrep p Hp Hp2 a b s e ea eb es b1 NS NR Q R _ _ RQ RR) as (T & -> & HT). cbn [bind].
  destruct (add_wrep p Hp Hp2 a b s e ea eb es b1 NS NR S R _ _ HS RR) as (L & E1 & HL).
  destruct (add_wrep p Hp Hp2 a b s e ea eb es b1 NS NR P T _ _ RP HT) as (M & E2 & HM).
  apply (same_wrep p Hp Hp2 a e _ _ L M _ E1 E2 HL).
  rewrite (padd_assoc _ a F1 F0 (two_K p Hp Hp2) (mont_nonsing _ a s NS NR)); [exact HM|apply RP|apply RQ|apply RR].
Qed.
Lemma c34_commutative : forall e P Q A B, mont e -> mpoint e P A -> mpoint e Q B ->
  same (pt_add P Q) (pt_add Q P).
Proof.
  intros e P Q A B W HP HQ. open_curve W. open_point HP. open_point HQ.
  destruct (add_wrep p Hp Hp2 a b s e ea eb es b1 NS NR P Q _ _ RP RQ) as (L & E1 & HL).
  destruct (add_wrep p Hp Hp2 a b s e ea eb es b1 NS NR Q P _ _ RQ RP) as (M & E2 & HM).
  apply (same_wrep p Hp Hp2 a e _ _ L M _ E1 E2 HL).
  rewrite (padd_comm _ a F1 F0); [exact HM|apply RP|apply RQ].
Qed.
Lemma c34_identity_and_inverse : forall e P A, mont e -> mpoint e P A ->
  same (bind (identity e) (fun O => pt_add P O)) (Ret P) /\ same (bind (identity e) (fun O => pt_add O P)) (Ret P)
  /\ same (bind (pt_neg P) (fun N => pt_add P N)) (identity e) /\ same (pt_sub P P) (identity e).
Proof.
  intros e P A W HP. open_curve W. open_point HP.
  destruct (identity_wrep p Hp Hp2 a b e ef ea eb b1) as (O & EO & HO). rewrite !EO. cbn [bind].
  destruct (neg_wrep p Hp Hp2 a b e ea eb b1 P _ RP) as (N & EN & HN). rewrite EN. cbn [bind].
  destruct (add_wrep p Hp Hp2 a b s e ea eb es b1 NS NR P O _ _ RP HO) as (L1 & E1 & H1).
  destruct (add_wrep p Hp Hp2 a b s e ea eb es b1 NS NR O P _ _ HO RP) as (L2 & E2 & H2).
  destruct (add_wrep p Hp Hp2 a b s e ea eb es b1 NS NR P N _ _ RP HN) as (L3 & E3 & H3).
  destruct (sub_wrep p Hp Hp2 a b s e ea eb es b1 NS NR P P _ _ RP RP) as (L4 & E4 & H4).
  rewrite padd_inf_r in H1. rewrite padd_opp_r in H3, H4.
  repeat split; eapply (same_wrep p Hp Hp2 a e); eauto.
Qed.
Lemma c34_equality_is_congruence : forall e P P' Q Q' A A' B B', mont e ->
  mpoint e P A -> mpoint e P' A' -> mpoint e Q B -> mpoint e Q' B' ->
  pt_eqb P P' = Ret true -> pt_eqb Q Q' = Ret true ->
  same (pt_add P Q) (pt_add P' Q') /\ same (pt_sub P Q) (pt_sub P' Q') /\ same (pt_neg P) (pt_neg P').
Proof.
  intros e P P' Q Q' A A' B B' W HP HP' HQ HQ' E1 E2. open_curve W.
  apply WP in HP as (A0 & -> & RP), HP' as (A0' & -> & RP'), HQ as (B0 & -> & RQ), HQ' as (B0' & -> & RQ').
  destruct (eqb_wrep p Hp Hp2 a e _ _ _ _ RP RP') as (t1 & F1 & G1).
  destruct (eqb_wrep p Hp Hp2 a e _ _ _ _ RQ RQ') as (t2 & F2 & G2).
  rewrite F1 in E1. rewrite F2 in E2. injection E1 as E1. injection E2 as E2. apply G1 in E1. apply G2 in E2. subst A0' B0'.
  destruct (add_wrep p Hp Hp2 a b s e ea eb es b1 NS NR P Q _ _ RP RQ) as (L1 & X1 & Y1).
  destruct (add_wrep p Hp Hp2 a b s e ea eb es b1 NS NR P' Q' _ _ RP' RQ') as (L2 & X2 & Y2).
  destruct (sub_wrep p Hp Hp2 a b s e ea eb es b1 NS NR P Q _ _ RP RQ) as (L3 & X3 & Y3).
  destruct (sub_wrep p Hp Hp2 a b s e ea eb es b1 NS NR P' Q' _ _ RP' RQ') as (L4 & X4 & Y4).
  destruct (neg_wrep p Hp Hp2 a b e ea eb b1 P _ RP) as (L5 & X5 & Y5).
  destruct (neg_wrep p Hp Hp2 a b e ea eb b1 P' _ RP') as (L6 & X6 & Y6).
  repeat split; eapply (same_wrep p Hp Hp2 a e); eauto.
Qed.

(** *** C34 *)
(** k * P is the k-fold sum of P *)
Lemma c34_scalar_multiplication : forall oc e P A k, mont e -> mpoint e P A -> valid_scalar (c_r e) k ->
  Z.log2 (c_r e) < 2 ^ 63 -> (oc = true -> sk k <> 0) ->
  exists R, pt_mul oc P k = Ret R /\ forall C, mpoint e R C <-> multiple (msum e) Infinity A (Z.to_nat (sk k)) C.
Proof.
  intros oc e P A k W HP (Er & Hk) H64 H0. open_curve W. open_point HP.
  destruct (Z.eq_dec (sk k) 0) as [E|N].
  - destruct oc; [destruct (H0 eq_refl E)|]. destruct k as [k r]. cbn [sk sr] in *. subst k.
    destruct (mul_zero_wrep p Hp Hp2 a b e ef ea eb b1 false P _ r RP Er) as (R & HR & ->).
    exists R. split; [reflexivity|]. intro C. rewrite WM by apply RP. apply (wrep_iff _ _ _ _ _ _ WP HR).
  - destruct (mul_wrep p Hp Hp2 a b s e ef ea eb es b1 NS NR oc P _ k RP Er ltac:(lia) (bits_small _ _ Hk H64)) as (R & E & HR).
    exists R. split; [exact E|]. intro C. rewrite WM by apply RP. apply (wrep_iff _ _ _ _ _ _ WP HR).
Qed.
(** with overflow checks the zero scalar panics instead of giving the identity *)
Lemma c34_zero_scalar_panics : forall e P A, mont e -> mpoint e P A ->
  pt_mul true P (mkScalar 0 (c_r e)) = Panic "attempt to subtract with overflow".
Proof.
  intros e P A W HP. open_curve W. open_point HP.
  destruct (mul_zero_wrep p Hp Hp2 a b e ef ea eb b1 true P _ (c_r e) RP eq_refl) as (R & HR & ->). reflexivity.
Qed.
Lemma nmul_mod p Hp (Hp2 : 2 < p) (a s : ZpF p Hp) (NS : Fmul a a <> Fmul (Fadd F1 F1) (Fadd F1 F1))
  (NR : forall x : ZpF p Hp, Fadd (Fadd (Fmul (Fmul x x) x) (Fmul a (Fmul x x))) x <> Fmul s s)
  r k A : on (ZpF p Hp) a F1 F0 A -> 0 < r -> 0 <= k -> nmul p Hp a F1 (Z.to_nat r) A = Inf _ ->
  nmul p Hp a F1 (Z.to_nat (k mod r)) A = nmul p Hp a F1 (Z.to_nat k) A.
Proof.
  intros O Hr Hk Z0. pose proof (Z.mod_pos_bound k r Hr) as Hm.
  assert (Hq : 0 <= k / r) by (apply Z.div_pos; lia).
  assert (G : forall n, nmul p Hp a F1 (n * Z.to_nat r) A = Inf _).
  { induction n as [|n IH]; [reflexivity|]. cbn [Nat.mul].
    rewrite <- (nmul_add p Hp Hp2 a F1 F0 (mont_nonsing _ a s NS NR)) by exact O. rewrite Z0, IH. reflexivity. }
  assert (E : Z.to_nat k = (Z.to_nat (k / r) * Z.to_nat r + Z.to_nat (k mod r))%nat).
  { pose proof (Z.div_mod k r ltac:(lia)). apply Nat2Z.inj. rewrite Nat2Z.inj_add, Nat2Z.inj_mul, !Z2Nat.id by lia. lia. }
  rewrite E, <- (nmul_add p Hp Hp2 a F1 F0 (mont_nonsing _ a s NS NR)) by exact O. rewrite G. reflexivity.
Qed.
(** on points killed by r, scalar multiplication is a homomorphism from the scalars modulo r *)
Lemma c34_homomorphism : forall e P A k l, mont e -> mpoint e P A ->
  valid_scalar (c_r e) k -> valid_scalar (c_r e) l -> Z.log2 (c_r e) < 2 ^ 63 ->
  multiple (msum e) Infinity A (Z.to_nat (c_r e)) Infinity ->
  same (bind (pt_mul false P k) (fun X => bind (pt_mul false P l) (fun Y => pt_add X Y)))
       (bind (sc_add k l) (fun m => pt_mul false P m))
  /\ same (bind (pt_mul false P k) (fun X => pt_mul false X l))
       (bind (sc_mul k l) (fun m => pt_mul false P m)).
Proof.
  intros e P A k l W HP Vk Vl H64 HO. open_curve W. open_point HP.
  assert (M : forall m Q B, valid_scalar (c_r e) m -> wrep p Hp a e Q B ->
    exists R, pt_mul false Q m = Ret R /\ wrep p Hp a e R (nmul p Hp a F1 (Z.to_nat (sk m)) B)).
  { intros m Q B (Er & Hm) RQ. destruct (Z.eq_dec (sk m) 0) as [E|N].
    - destruct m as [m r]. cbn [sk sr] in *. subst m.
      destruct (mul_zero_wrep p Hp Hp2 a b e ef ea eb b1 false Q _ r RQ Er) as (R & HR & ->). eauto.
    - destruct (mul_wrep p Hp Hp2 a b s e ef ea eb es b1 NS NR false Q _ m RQ Er ltac:(lia) (bits_small _ _ Hm H64)) as (R & E & HR).
      eauto. }
  destruct Vk as (Ek & Hk). destruct Vl as (El & Hl).
  assert (Hr : 0 < c_r e) by lia.
  apply WM in HO; [|apply RP]. change Infinity with (ap p Hp (Inf (ZpF p Hp))) in HO. symmetry in HO. apply ap_inj in HO.
  destruct (M k P _ (conj Ek Hk) RP) as (X & -> & HX). destruct (M l P _ (conj El Hl) RP) as (Y & EY & HY). cbn [bind].
  destruct (c20_scalar_ring (c_r e) k l Hr Ek El) as ((c1 & E1 & S1 & R1) & _ & (c3 & E3 & S3 & R3) & _).
  assert (RM : forall c n, residue (c_r e) n c -> 0 <= n -> c = n mod c_r e).
  { intros c n (Hc & [q Eq]) _. apply Z.mod_unique with q; lia. }
  split.
  - rewrite EY, E1. cbn [bind].
    destruct (add_wrep p Hp Hp2 a b s e ea eb es b1 NS NR X Y _ _ HX HY) as (L & EL & HL).
    destruct (M c1 P _ (conj S1 (proj1 R1)) RP) as (N & EN & HN).
    apply (same_wrep p Hp Hp2 a e _ _ L N _ EL EN HL).
    rewrite (nmul_add p Hp Hp2 a F1 F0 (mont_nonsing _ a s NS NR)) by apply RP.
    rewrite (RM _ _ R1) in HN by lia. rewrite (nmul_mod p Hp Hp2 a s NS NR) in HN by (assumption || lia || apply RP).
    rewrite Z2Nat.inj_add in HN by lia. exact HN.
  - rewrite E3. cbn [bind].
    destruct (M l X _ (conj El Hl) HX) as (L & EL & HL).
    destruct (M c3 P _ (conj S3 (proj1 R3)) RP) as (N & EN & HN).
    apply (same_wrep p Hp Hp2 a e _ _ L N _ EL EN HL).
    rewrite (RM _ _ R3) in HN by nia. rewrite (nmul_mod p Hp Hp2 a s NS NR) in HN by (assumption || nia || apply RP).
    rewrite Z.mul_comm, Z2Nat.inj_mul in HN by lia. rewrite (nmul_mul p Hp Hp2 a F1 F0 (mont_nonsing _ a s NS NR)) by apply RP. exact HN.
Qed.

(** *** C27 *)
Lemma c27_mont_is_zero : forall e P A, mont e -> mpoint e P A ->
  exists I, identity e = Ret I /\ mpoint e I Infinity
    /\ (pt_is_zero P = true <-> A = Infinity) /\ (pt_is_zero P = true <-> pt_eqb P I = Ret true).
Proof.
  intros e P A W HP. open_curve W. open_point HP.
  destruct (identity_wrep p Hp Hp2 a b e ef ea eb b1) as (I & EI & HI). exists I. split; [exact EI|].
  split; [apply WP; exists (Inf (ZpF p Hp)); split; [reflexivity|exact HI]|].
  rewrite (is_zero_wrep p Hp a e P _ RP).
  destruct (eqb_wrep p Hp Hp2 a e P I _ _ RP HI) as (t & -> & Ht). split.
  - change Infinity with (ap p Hp (Inf (ZpF p Hp))). split; [congruence|apply ap_inj].
  - rewrite <- Ht. split; congruence.
Qed.

(** *** C32 *)
Lemma c32_mont_equality : forall e P Q A B, mont e -> mpoint e P A -> mpoint e Q B ->
  exists t, pt_eqb P Q = Ret t /\ (t = true <-> A = B).
Proof.
  intros e P Q A B W HP HQ. open_curve W. open_point HP. open_point HQ.
  destruct (eqb_wrep p Hp Hp2 a e P Q _ _ RP RQ) as (t & -> & Ht). exists t. split; [reflexivity|].
  rewrite Ht. split; [congruence|apply ap_inj].
Qed.
(** a point represents one affine point, and every point of the curve is represented *)
Lemma c32_mont_representation : forall e, mont e ->
  (forall P A B, mpoint e P A -> mpoint e P B -> A = B)
  /\ (forall A, mon e A -> exists P, mpoint e P A).
Proof.
  intros e W. open_curve W. split.
  - intros P A B HA HB. apply WP in HA as (A0 & -> & RA), HB as (B0 & -> & RB). f_equal. eapply wrep_fun; eassumption.
  - intros A HA.
    destruct (WU A HA) as (A' & -> & O).
    destruct A' as [|x y].
    + destruct (identity_wrep p Hp Hp2 a b e ef ea eb b1) as (I & EI & HI). exists I. apply WP. eauto.
    + exists (mkPoint e (mk p Hp x y F1)). apply WP. exists (Aff _ x y). split; [reflexivity|].
      apply wrep_mk; [apply WeierP.rep_one|exact O].
Qed.

(** *** C31 *)
Lemma c31_mont_normalize : forall e P x y, mont e -> mpoint e P (Affine x y) ->
  exists R, normalize P = Ret R /\ mpoint e R (Affine x y)
    /\ val (px (pc R)) = x /\ val (py (pc R)) = y /\ val (pz (pc R)) = 1.
Proof.
  intros e P x y W HP. open_curve W. pose proof HP as H. apply WP in H. destruct H as (A' & EA & RP).
  destruct A' as [|u v]; [discriminate EA|]. cbn in EA. injection EA as -> ->.
  rewrite (normalize_wrep p Hp Hp2 a e P u v RP). eexists. split; [reflexivity|]. split.
  - apply WP. exists (Aff _ u v). split; [reflexivity|]. apply wrep_mk; [apply WeierP.rep_one|apply RP].
  - repeat split. cbn. apply Z.mod_small. lia.
Qed.
(** the identity, however, becomes the point (0,0) of order 2, not zero and not equal to the identity *)
Lemma c31_mont_normalize_identity_breaks : forall e P, mont e -> mpoint e P Infinity ->
  exists R, normalize P = Ret R /\ mpoint e R (Affine 0 0) /\ pt_is_zero R = false /\ pt_eqb R P = Ret false.
Proof.
  intros e P W HP. open_curve W. pose proof HP as H. apply WP in H. destruct H as (A' & EA & RP).
  destruct A' as [|u v]; [|discriminate EA].
  rewrite (normalize_inf p Hp Hp2 a e P RP). eexists. split; [reflexivity|].
  assert (RO : wrep p Hp a e (mkPoint e (mk p Hp F0 F0 F1)) (Aff _ F0 F0)).
  { apply wrep_mk; [apply WeierP.rep_one|apply origin_on]. }
  split; [apply WP; exists (Aff _ F0 F0); split; [reflexivity|exact RO]|]. split.
  - destruct (pt_is_zero _) eqn:Z0; [|reflexivity]. apply (is_zero_wrep p Hp a e _ _ RO) in Z0. discriminate Z0.
  - destruct (eqb_wrep p Hp Hp2 a e _ _ _ _ RO RP) as (t & -> & Ht). destruct t; [|reflexivity].
    discriminate (proj1 Ht eq_refl).
Qed.

(** *** C35 *)
Lemma c35_encode : forall e P x y c n, mont e -> mpoint e P (Affine x y) -> byte_size (modulus (c_f e)) n ->
  exists buf, encode P c = Ret buf /\ sec1 n x y c buf.
Proof.
  intros e P x y c n W HP Hn. open_curve W. pose proof HP as H. apply WP in H. destruct H as (A' & EA & RP).
  destruct A' as [|u v]; [discriminate EA|]. cbn in EA. injection EA as -> ->.
  rewrite ef in Hn. rewrite (size_is_nb p n Hp Hn). apply (encode_wrep p Hp Hp2 a e P u v c RP).
Qed.
Lemma decode_accepts p (Hp : prime p) (Hp2 : 2 < p) (a b : ZpF p Hp) e : c_f e = mkFp p -> c_a e = fe a -> c_b e = fe b ->
  b = F1 -> sqrt_modulus p -> forall (x y : ZpF p Hp) c buf, sec1 (size_bytes (mkFp p)) (zv x) (zv y) c buf ->
  (exists Q (y' : ZpF p Hp), decode e buf = Ret (Ok Q) /\ wrep p Hp a e Q (Aff _ x y')
     /\ accepted (size_bytes (mkFp p)) (zv x) (zv y') c buf)
  \/ (exists m, decode e buf = Panic m
     /\ forall (y' : ZpF p Hp), accepted (size_bytes (mkFp p)) (zv x) (zv y') c buf -> ~ on (ZpF p Hp) a F1 F0 (Aff _ x y')).
Proof.
  intros ef ea eb b1 Hm x y c buf S.
  destruct (decode_framed p Hp Hp2 a b e ef ea eb b1 Hm x y c buf S) as [(Q & y' & D & R & [S'|[-> ->]])|(m & D & N1 & N2)].
  - left. exists Q, y'. split; [exact D|]. split; [exact R|left; exact S'].
  - left. exists Q, F0. split; [exact D|]. split; [exact R|].
    inversion S as [bx Dx Ec Eb|]; subst buf. destruct (Z.even (zv y)); [left|right; eauto].
    exact (sec1_compressed _ _ (zv (F0 : ZpF p Hp)) bx Dx).
  - right. exists m. split; [exact D|]. intros y' [S'|(-> & _ & _)]; [apply N1, S'|apply N2; reflexivity].
Qed.
Lemma accepted_same_y p (Hp : prime p) (Hp2 : 2 < p) (a : ZpF p Hp) n (x y y' : ZpF p Hp) c buf :
  on (ZpF p Hp) a F1 F0 (Aff _ x y) -> on (ZpF p Hp) a F1 F0 (Aff _ x y') ->
  accepted n (zv x) (zv y) c buf -> accepted n (zv x) (zv y') c buf -> y = y'.
Proof.
  intros O O' S S'.
  assert (G : Fmul y y = Fmul y' y') by (transitivity (rhs _ a x); [apply on_value, O|symmetry; apply on_value, O']).
  assert (Z0 : forall u : ZpF p Hp, zv u = 0 -> u = F0) by (intros u Z; apply Zp_eq; rewrite Z; reflexivity).
  assert (SQ : forall u : ZpF p Hp, Fmul F0 F0 = Fmul u u -> u = F0).
  { intros u E. apply (Fsqr_zero (ZpF p Hp)). symmetry. transitivity (Fmul F0 F0 : ZpF p Hp); [apply Zp_eq; reflexivity|exact E]. }
  destruct S as [S|(_ & Zy & _)]; [|apply Z0 in Zy; subst y; symmetry; apply SQ, G].
  destruct S' as [S'|(_ & Zy & _)]; [|apply Z0 in Zy; subst y'; apply SQ; symmetry; exact G].
  destruct (WeierP.sec1_same_y p Hp n x y y' c buf S S') as [Ev|[-> Ev]]; [exact Ev|].
  destruct (Fsqr_eq (ZpF p Hp) y y' G) as [E|E]; [exact E|].
  destruct (Feqd y' F0) as [->|N]; [rewrite E; apply (WeierP.Fopp_0 (ZpF p Hp))|].
  exfalso. subst y. rewrite (WeierP.parity_opp p Hp Hp2) in Ev by exact N. destruct (Z.even (zv y')); discriminate Ev.
Qed.
Lemma accepted_decodes p (Hp : prime p) (Hp2 : 2 < p) (a b : ZpF p Hp) e : c_f e = mkFp p -> c_a e = fe a -> c_b e = fe b ->
  b = F1 -> sqrt_modulus p -> forall (x y : ZpF p Hp) c buf, accepted (size_bytes (mkFp p)) (zv x) (zv y) c buf ->
  on (ZpF p Hp) a F1 F0 (Aff _ x y) -> exists Q, decode e buf = Ret (Ok Q) /\ wrep p Hp a e Q (Aff _ x y).
Proof.
  intros ef ea eb b1 Hm x y c buf A O.
  assert (exists y0 : ZpF p Hp, sec1 (size_bytes (mkFp p)) (zv x) (zv y0) c buf) as (y0 & S).
  { destruct A as [S|(-> & _ & bx & Dx & ->)]; [eauto|]. exists F1.
    assert (Z1 : zv (F1 : ZpF p Hp) = 1) by (change (1 mod p = 1); apply Z.mod_small; lia). rewrite Z1.
    exact (sec1_compressed _ _ 1 bx Dx). }
  destruct (decode_accepts p Hp Hp2 a b e ef ea eb b1 Hm x y0 c buf S) as [(Q & y' & D & R & A')|(m & D & N)].
  - exists Q. split; [exact D|]. rewrite (accepted_same_y p Hp Hp2 a _ x y y' c buf O (proj2 (proj2 R)) A A'). exact R.
  - destruct (N y A O).
Qed.
Lemma c35_round_trip : forall e P x y c, mont e -> sqrt_modulus (modulus (c_f e)) -> mpoint e P (Affine x y) ->
  exists buf Q, encode P c = Ret buf /\ decode e buf = Ret (Ok Q) /\ mpoint e Q (Affine x y) /\ pt_eqb Q P = Ret true.
Proof.
  intros e P x y c W Hm HP. open_curve W. pose proof HP as H. apply WP in H. destruct H as (A' & EA & RP).
  destruct A' as [|u v]; [discriminate EA|]. cbn in EA. injection EA as -> ->. rewrite ef in Hm.
  destruct (encode_wrep p Hp Hp2 a e P u v c RP) as (buf & E & S). exists buf.
  destruct (accepted_decodes p Hp Hp2 a b e ef ea eb b1 Hm u v c buf (or_introl S) (proj2 (proj2 RP))) as (Q & D & RQ).
  exists Q. split; [exact E|]. split; [exact D|]. split; [apply WP; exists (Aff _ u v); auto|].
  destruct (eqb_wrep p Hp Hp2 a e Q P _ _ RQ RP) as (t & -> & Ht). f_equal. apply Ht. reflexivity.
Qed.
(** the identity is not encoded as the single byte 0 but as the coordinates (0,0), that is like the point
    of order 2, to which it decodes *)
Lemma c35_encode_identity_breaks : forall e P c n, mont e -> sqrt_modulus (modulus (c_f e)) ->
  mpoint e P Infinity -> byte_size (modulus (c_f e)) n ->
  exists buf Q, encode P c = Ret buf
    /\ buf = (if c then 2 :: repeat 0 (Z.to_nat n) else 4 :: repeat 0 (2 * Z.to_nat n))
    /\ decode e buf = Ret (Ok Q) /\ mpoint e Q (Affine 0 0) /\ pt_eqb Q P = Ret false /\ encode Q c = Ret buf.
Proof.
  intros e P c n W Hm HP Hn. open_curve W. pose proof HP as H. apply WP in H. destruct H as (A' & EA & RP).
  destruct A' as [|u v]; [|discriminate EA]. rewrite ef in Hn, Hm. rewrite (size_is_nb p n Hp Hn).
  rewrite (encode_inf p Hp Hp2 a e P c RP).
  set (buf := if c then _ else _). exists buf.
  assert (S : sec1 (size_bytes (mkFp p)) (zv (F0 : ZpF p Hp)) (zv (F0 : ZpF p Hp)) c buf).
  { assert (D : be_digits (size_bytes (mkFp p)) (zv (F0 : ZpF p Hp)) (repeat 0 (Z.to_nat (size_bytes (mkFp p))))).
    { split; [rewrite repeat_length, Z2Nat.id; [reflexivity|]; pose proof (WeierP.n_pos p Hp2); lia|]. split.
      - apply Forall_forall. intros z Hz. apply repeat_spec in Hz. subst. unfold is_byte. lia.
      - apply be_value_zeros. }
    unfold buf. destruct c; [exact (sec1_compressed _ _ (zv (F0 : ZpF p Hp)) _ D)|].
    cbn [Nat.mul]. rewrite Nat.add_0_r, repeat_app. exact (sec1_full _ _ _ _ _ D D). }
  destruct (accepted_decodes p Hp Hp2 a b e ef ea eb b1 Hm F0 F0 c buf (or_introl S) (origin_on (ZpF p Hp) a)) as (Q & D & RQ).
  exists Q. split; [reflexivity|]. split; [reflexivity|]. split; [exact D|].
  split; [apply WP; exists (Aff _ F0 F0); split; [reflexivity|exact RQ]|]. split.
  - destruct (eqb_wrep p Hp Hp2 a e Q P _ _ RQ RP) as (t & -> & Ht). destruct t; [|reflexivity].
    discriminate (proj1 Ht eq_refl).
  - destruct (encode_wrep p Hp Hp2 a e Q F0 F0 c RQ) as (buf' & -> & S'). f_equal. eapply WeierP.sec1_unique; eassumption.
Qed.

(** the three outcomes of decode, on every byte string *)
Lemma decode_cases p (Hp : prime p) (Hp2 : 2 < p) (a b : ZpF p Hp) e : c_f e = mkFp p -> c_a e = fe a -> c_b e = fe b ->
  b = F1 -> sqrt_modulus p ->
  forall buf, Forall is_byte buf ->
  (length buf = 1%nat /\ exists m, decode e buf = Panic m)
  \/ (length buf <> 1%nat /\ ~ WeierP.framed p buf /\ exists m, decode e buf = Ret (Err m))
  \/ (length buf <> 1%nat /\ WeierP.framed p buf
        /\ ((exists Q c (x y : ZpF p Hp), decode e buf = Ret (Ok Q) /\ wrep p Hp a e Q (Aff _ x y)
               /\ accepted (size_bytes (mkFp p)) (zv x) (zv y) c buf)
            \/ (exists m, decode e buf = Panic m))).
Proof.
  intros ef ea eb b1 Hm buf B.
  destruct (Nat.eq_dec (length buf) 1) as [L|L].
  { left. split; [exact L|]. destruct buf as [|t [|]]; try discriminate L. apply (decode_len1 p Hp2 e ef t). }
  right. destruct (WeierP.framed_dec p Hp2 buf B) as [F|F].
  - right. split; [exact L|]. split; [exact F|]. destruct F as (c & x & y & Cx & Cy & S).
    destruct (coord_K p Hp x Cx) as [u ->], (coord_K p Hp y Cy) as [v ->].
    destruct (decode_accepts p Hp Hp2 a b e ef ea eb b1 Hm u v c buf S) as [(Q & v' & D & RQ & S')|(m & D & N)].
    + left. exists Q, c, u, v'. auto.
    + right. eauto.
  - left. split; [exact L|]. split; [exact F|]. apply (decode_bad p Hp2 e ef buf B L F).
Qed.
(** decode answers Ok exactly on the accepted texts of the affine points of the curve *)
Lemma c35_decode_ok : forall e buf n, mont e -> sqrt_modulus (modulus (c_f e)) -> Forall is_byte buf ->
  byte_size (modulus (c_f e)) n ->
  (forall Q, decode e buf = Ret (Ok Q) -> exists c x y, accepted n x y c buf /\ mon e (Affine x y) /\ mpoint e Q (Affine x y))
  /\ (forall c x y, accepted n x y c buf -> mon e (Affine x y) -> exists Q, decode e buf = Ret (Ok Q) /\ mpoint e Q (Affine x y)).
Proof.
  intros e buf n W Hm B Hn. open_curve W. rewrite ef in Hn, Hm. rewrite (size_is_nb p n Hp Hn). split.
  - intros Q D. destruct (decode_cases p Hp Hp2 a b e ef ea eb b1 Hm buf B)
      as [(_ & m & E)|[(_ & _ & m & E)|(_ & _ & [(Q' & c & x & y & E & RQ & S)|(m & E)])]]; try congruence.
    rewrite E in D. injection D as <-. exists c, (zv x), (zv y). split; [exact S|]. split.
    + apply (WO (Aff _ x y)). apply RQ.
    + apply WP. exists (Aff _ x y). auto.
  - intros c x y S O. pose proof O as (Cx & Cy & _). rewrite ef in Cx, Cy. cbn [modulus] in *.
    destruct (coord_K p Hp x Cx) as [u ->], (coord_K p Hp y Cy) as [v ->].
    destruct (accepted_decodes p Hp Hp2 a b e ef ea eb b1 Hm u v c buf S (proj2 (WO (Aff _ u v)) O)) as (Q & D & RQ).
    exists Q. split; [exact D|]. apply WP. exists (Aff _ u v). auto.
Qed.
(** Err exactly on the texts of length other than 1 that are no encoding of a pair of residues *)
Lemma c35_decode_err : forall e buf n, mont e -> sqrt_modulus (modulus (c_f e)) -> Forall is_byte buf ->
  byte_size (modulus (c_f e)) n ->
  ((exists m, decode e buf = Ret (Err m)) <->
   length buf <> 1%nat /\ ~ exists c x y, coord (modulus (c_f e)) x /\ coord (modulus (c_f e)) y /\ sec1 n x y c buf).
Proof.
  intros e buf n W Hm B Hn. open_curve W. rewrite ef in *. cbn [modulus] in *. rewrite (size_is_nb p n Hp Hn). split.
  - intros (m & D). destruct (decode_cases p Hp Hp2 a b e ef ea eb b1 Hm buf B)
      as [(_ & m' & E)|[(L & F & m' & E)|(_ & _ & [(Q' & c & x & y & E & RQ & S)|(m' & E)])]]; try congruence.
    split; [exact L|exact F].
  - intros (L & F). exact (decode_bad p Hp2 e ef buf B L F).
Qed.
(** panic on every text of length 1 and on every well-formed encoding of no point of the curve *)
Lemma c35_decode_panics : forall e buf n, mont e -> sqrt_modulus (modulus (c_f e)) -> Forall is_byte buf ->
  byte_size (modulus (c_f e)) n ->
  ((exists m, decode e buf = Panic m) <->
   length buf = 1%nat \/
   ((exists c x y, coord (modulus (c_f e)) x /\ coord (modulus (c_f e)) y /\ sec1 n x y c buf)
    /\ ~ exists c x y, accepted n x y c buf /\ mon e (Affine x y))).
Proof.
  intros e buf n W Hm B Hn. pose proof (c35_decode_ok e buf n W Hm B Hn) as [_ OK].
  open_curve W. rewrite ef in *. cbn [modulus] in *. rewrite (size_is_nb p n Hp Hn) in *. split.
  - intros (m & D). destruct (decode_cases p Hp Hp2 a b e ef ea eb b1 Hm buf B)
      as [(L & m' & E)|[(L & F & m' & E)|(L & F & [(Q' & c & x & y & E & RQ & S)|(m' & E)])]]; try congruence; [left; exact L|].
    right. split; [exact F|].
    intros (c' & x' & y' & S' & O'). destruct (OK c' x' y' S' O') as (Q & E' & _). congruence.
  - intros [L|(F & N)].
    + destruct buf as [|t [|]]; try discriminate L. apply (decode_len1 p Hp2 e ef t).
    + destruct (decode_cases p Hp Hp2 a b e ef ea eb b1 Hm buf B)
      as [(L & m' & E)|[(L & F' & m' & E)|(L & _ & [(Q' & c & x & y & E & RQ & S)|(m' & E)])]]; eauto.
      * contradiction.
      * exfalso. apply N. exists c, (zv x), (zv y). split; [exact S|]. apply (WO (Aff _ x y)), RQ.
Qed.
(** an accepted text is the encoding of the decoded point in its own mode, except that a point of order 2
    is also accepted with the other tag *)
Lemma c35_decode_encode : forall e buf Q n, mont e -> sqrt_modulus (modulus (c_f e)) -> Forall is_byte buf ->
  byte_size (modulus (c_f e)) n -> decode e buf = Ret (Ok Q) ->
  encode Q (Z.of_nat (length buf) =? n + 1) = Ret buf
  \/ (exists x bx, buf = 3 :: bx /\ mpoint e Q (Affine x 0) /\ encode Q true = Ret (2 :: bx)).
Proof.
  intros e buf Q n W Hm B Hn D.
  destruct (proj1 (c35_decode_ok e buf n W Hm B Hn) Q D) as (c & x & y & S & _ & HQ).
  assert (U : forall b1 b2 c, sec1 n x y c b1 -> sec1 n x y c b2 -> b1 = b2).
  { open_curve W. rewrite ef in Hn. rewrite (size_is_nb p n Hp Hn). intros t1 t2 c0. apply WeierP.sec1_unique. }
  destruct S as [S|(-> & -> & bx & Dx & ->)].
  - left. assert (Ec : (Z.of_nat (length buf) =? n + 1) = c).
    { open_curve W. rewrite ef in Hn. rewrite (size_is_nb p n Hp Hn) in *. pose proof (WeierP.n_pos p Hp2).
      inversion S as [bx (L & _) E1 E2|bx by_ (L & _) (L' & _) E1 E2]; subst c buf; cbn [length]; rewrite ?app_length;
        [apply Z.eqb_eq|apply Z.eqb_neq]; lia. }
    rewrite Ec. destruct (c35_encode e Q x y c n W HQ Hn) as (buf' & E & S').
    rewrite E. f_equal. eapply U; eassumption.
  - right. exists x, bx. split; [reflexivity|]. split; [exact HQ|].
    destruct (c35_encode e Q x 0 true n W HQ Hn) as (buf' & E & S'). rewrite E. f_equal. eapply U; [exact S'|].
    exact (sec1_compressed n x 0 bx Dx).
Qed.

(** *** C34: histories *)
Lemma scalar_of e k : 0 < c_r e -> exists m, new_scalar e k = Ret m /\ valid_scalar (c_r e) m /\ sk m = k mod c_r e.
Proof.
  intro H. destruct (c20_new_scalar (c_r e) k H) as (m & E & Er & R). exists m. split; [exact E|].
  split; [split; [exact Er|apply R]|apply residue_is_mod, R].
Qed.

(** whatever a history of operations returns is the point that the history means *)
Lemma c34_history_sound : forall oc e t P, mgroup e -> term_bytes t -> run oc e t = Ret P ->
  exists A, mmeans oc e t A /\ mpoint e P A.
Proof.
  intros oc e t P (W & Hm & Hr & H64 & Vgx & Vgy). pose proof (proj1 W) as HpP. revert P.
  induction t as [x y| | |buf|t IHt u IHu|t IHt u IHu|t IHt|t IHt k]; intros P B E; cbn [run term_bytes] in *.
  - destruct (elt_res (c_f e) x HpP) as (u & Eu & Vu & Ru), (elt_res (c_f e) y HpP) as (v & Ev & Vv & Rv).
    rewrite Eu, Ev in E. cbn [bind] in E. destruct (c33_new_point e u v W Vu Vv) as [Y N].
    assert (O : mon e (Affine (val u) (val v)) \/ ~ mon e (Affine (val u) (val v))).
    { unfold mon, on_cubic, coord. pose proof (prime_ge_2 _ HpP).
      destruct (Zdivide_dec (modulus (c_f e)) (val (c_b e) * (val v * val v) - (val u * val u * val u + val (c_a e) * (val u * val u) + 1 * val u + 0))) as [D|D].
      - left. split; [apply Vu|]. split; [apply Vv|exact D].
      - right. intros (_ & _ & D'). contradiction. }
    destruct O as [O|O]; [|rewrite (N O) in E; discriminate].
    destruct (Y O) as (P' & E' & H). rewrite E' in E. injection E as <-. eexists. split; [|exact H].
    pose proof (prime_ge_2 _ HpP). constructor; [rewrite Ru; apply residue_mod; lia|rewrite Rv; apply residue_mod; lia|exact O].
  - exists Infinity. split; [constructor|]. open_curve W.
    destruct (identity_wrep p Hp Hp2 a b e ef ea eb b1) as (I & EI & HI). rewrite EI in E. injection E as <-.
    apply WP. exists (Inf _). auto.
  - change (get_generator e) with (new_point e (c_gx e) (c_gy e)) in E.
    destruct (c33_new_point e _ _ W Vgx Vgy) as [Y N].
    assert (O : mon e (Affine (val (c_gx e)) (val (c_gy e))) \/ ~ mon e (Affine (val (c_gx e)) (val (c_gy e)))).
    { unfold mon, on_cubic, coord. set (u := c_gx e) in *. set (v := c_gy e) in *.
      destruct (Zdivide_dec (modulus (c_f e)) (val (c_b e) * (val v * val v) - (val u * val u * val u + val (c_a e) * (val u * val u) + 1 * val u + 0))) as [D|D].
      - left. split; [apply Vgx|]. split; [apply Vgy|exact D].
      - right. intros (_ & _ & D'). contradiction. }
    destruct O as [O|O]; [|rewrite (N O) in E; discriminate].
    destruct (Y O) as (P' & E' & H). rewrite E' in E. injection E as <-. eexists. split; [constructor; exact O|exact H].
  - destruct (decode e buf) as [[Q|m]|m] eqn:D; cbn [bind] in E; try discriminate. injection E as <-.
    assert (Hn : byte_size (modulus (c_f e)) (size_bytes (mkFp (modulus (c_f e))))) by (apply size_of, HpP).
    destruct (proj1 (c35_decode_ok e buf _ W Hm B Hn) Q D) as (c & x & y & S & O & H).
    eexists. split; [econstructor; eassumption|exact H].
  - destruct (run oc e t) as [X|] eqn:Et; [|discriminate]. destruct (run oc e u) as [Y|] eqn:Eu; [|discriminate]. cbn [bind] in E.
    destruct (IHt X (proj1 B) eq_refl) as (A & MA & HA), (IHu Y (proj2 B) eq_refl) as (A' & MA' & HA').
    destruct (c33_addition e X Y A A' W HA HA') as (R & ER & HR). rewrite ER in E. injection E as <-.
    pose proof W as W0. open_curve W0. pose proof HA as ZA. pose proof HA' as ZA'. apply WP in ZA as (A0 & -> & RA), ZA' as (A0' & -> & RA').
    set (C := ap p Hp (padd (ZpF p Hp) a F1 A0 A0')).
    assert (SC : msum e (ap p Hp A0) (ap p Hp A0') C) by (apply WS; [apply RA|apply RA'|reflexivity]).
    exists C. split; [econstructor; eassumption|apply HR, SC].
  - destruct (run oc e t) as [X|] eqn:Et; [|discriminate]. destruct (run oc e u) as [Y|] eqn:Eu; [|discriminate]. cbn [bind] in E.
    destruct (IHt X (proj1 B) eq_refl) as (A & MA & HA), (IHu Y (proj2 B) eq_refl) as (A' & MA' & HA').
    destruct (c33_subtraction e X Y A A' W HA HA') as (R & ER & HR). rewrite ER in E. injection E as <-.
    pose proof W as W0. open_curve W0. pose proof HA as ZA. pose proof HA' as ZA'. apply WP in ZA as (A0 & -> & RA), ZA' as (A0' & -> & RA').
    set (C := ap p Hp (padd (ZpF p Hp) a F1 A0 (popp _ A0'))).
    assert (SC : msum e (ap p Hp A0) (negative (modulus (c_f e)) (ap p Hp A0')) C).
    { rewrite ef. cbn [modulus]. rewrite <- (neg_ap p Hp). apply WS; [apply RA|apply on_popp, RA'|reflexivity]. }
    exists C. split; [econstructor; eassumption|apply HR, SC].
  - destruct (run oc e t) as [X|] eqn:Et; [|discriminate]. cbn [bind] in E. destruct (IHt X B eq_refl) as (A & MA & HA).
    destruct (c33_negation e X A W HA) as (R & ER & HR). rewrite ER in E. injection E as <-.
    eexists. split; [constructor; exact MA|apply HR; reflexivity].
  - destruct (run oc e t) as [X|] eqn:Et; [|discriminate]. cbn [bind] in E. destruct (IHt X B eq_refl) as (A & MA & HA).
    destruct (scalar_of e k Hr) as (m & Em & Vm & Km). rewrite Em in E. cbn [bind] in E.
    assert (NZ : oc = true -> sk m <> 0).
    { intros -> Z0. destruct m as [m r]. cbn [sk] in Z0. destruct Vm as [Er _]. cbn [sr] in Er. rewrite Z0, Er in E.
      rewrite (c34_zero_scalar_panics e X A W HA) in E. discriminate. }
    destruct (c34_scalar_multiplication oc e X A m W HA Vm H64 NZ) as (R & ER & HR). rewrite ER in E. injection E as <-.
    pose proof W as W0. open_curve W0. pose proof HA as ZA. apply WP in ZA as (A0 & -> & RA).
    set (C := ap p Hp (nmul p Hp a F1 (Z.to_nat (sk m)) A0)).
    assert (SC : multiple (msum e) Infinity (ap p Hp A0) (Z.to_nat (sk m)) C) by (apply WM; [apply RA|reflexivity]).
    exists C. split; [|apply HR, SC]. econstructor; [exact MA| |exact NZ|exact SC]. rewrite Km. apply residue_mod, Hr.
Qed.
(** and a history that means a point never panics *)
Lemma c34_history_complete : forall oc e t A, mgroup e -> term_bytes t -> mmeans oc e t A ->
  exists P, run oc e t = Ret P /\ mpoint e P A.
Proof.
  intros oc e t A (W & Hm & Hr & H64 & Vgx & Vgy) B M. pose proof (proj1 W) as HpP.
  induction M as [x y u v Ru Rv O| |O|n c x y buf Hn S O|t u A A' C M1 IH1 M2 IH2 SC|t u A A' C M1 IH1 M2 IH2 SC|t A M IH|t k j A C M IH R NZ SC];
    cbn [run term_bytes] in *.
  - destruct (elt_res (c_f e) x HpP) as (x' & Eu & Vu & Xu), (elt_res (c_f e) y HpP) as (y' & Ev & Vv & Xv).
    rewrite Eu, Ev. cbn [bind]. apply residue_is_mod in Ru, Rv. rewrite <- Ru in Xu. rewrite <- Rv in Xv. clear Ru Rv. subst u v.
    destruct (c33_new_point e x' y' W Vu Vv) as [Y _]. apply Y, O.
  - open_curve W. destruct (identity_wrep p Hp Hp2 a b e ef ea eb b1) as (I & EI & HI). exists I. split; [exact EI|].
    apply WP. exists (Inf _). auto.
  - change (get_generator e) with (new_point e (c_gx e) (c_gy e)). destruct (c33_new_point e _ _ W Vgx Vgy) as [Y _]. apply Y, O.
  - destruct (proj2 (c35_decode_ok e buf n W Hm B Hn) c x y S O) as (Q & -> & HQ). exists Q. split; [reflexivity|exact HQ].
  - destruct (IH1 (proj1 B)) as (X & -> & HX), (IH2 (proj2 B)) as (Y & -> & HY). cbn [bind].
    destruct (c33_addition e X Y A A' W HX HY) as (R & ER & HR). exists R. split; [exact ER|apply HR, SC].
  - destruct (IH1 (proj1 B)) as (X & -> & HX), (IH2 (proj2 B)) as (Y & -> & HY). cbn [bind].
    destruct (c33_subtraction e X Y A A' W HX HY) as (R & ER & HR). exists R. split; [exact ER|apply HR, SC].
  - destruct (IH B) as (X & -> & HX). cbn [bind].
    destruct (c33_negation e X A W HX) as (R & ER & HR). exists R. split; [exact ER|apply HR; reflexivity].
  - destruct (IH B) as (X & -> & HX). cbn [bind].
    destruct (scalar_of e k Hr) as (m & -> & Vm & Km). cbn [bind]. apply residue_is_mod in R. rewrite <- R in Km. clear R. subst j.
    destruct (c34_scalar_multiplication oc e X A m W HX Vm H64 NZ) as (Q & EQ & HQ). exists Q. split; [exact EQ|apply HQ, SC].
Qed.

(** *** C49 *)
Lemma curve_eqb_eq e1 e2 : curve_eqb e1 e2 = true <-> e1 = e2.
Proof.
  split; [|intros ->; apply curve_eqb_refl].
  destruct e1 as [[f] a b s r gx gy h], e2 as [[f'] a' b' s' r' gx' gy' h']. unfold curve_eqb, fp_eqb. cbn [c_f c_a c_b c_s c_r c_gx c_gy c_h modulus].
  rewrite !andb_true_iff, !Z.eqb_eq. intros (((((((-> & Ea) & Eb) & Es) & ->) & Ex) & Ey) & ->).
  apply WeierProps.fpelt_eqb_eq in Ea, Eb, Es, Ex, Ey. congruence.
Qed.
Lemma c49_mont_different_curves : forall P Q, pe P <> pe Q -> pt_add P Q = Panic "points of different curves".
Proof.
  intros P Q N. unfold pt_add. destruct (curve_eqb (pe P) (pe Q)) eqn:E; [apply curve_eqb_eq in E; contradiction|reflexivity].
Qed.
Lemma c49_mont_different_orders : forall oc P k, sr k <> c_r (pe P) -> pt_mul oc P k = Panic "Scalar don't match with point".
Proof. intros oc P k N. unfold pt_mul. destruct (Z.eqb_spec (c_r (pe P)) (sr k)); [congruence|reflexivity]. Qed.
(** comparing points of different curves is false over one field, but panics over different fields *)
Lemma c49_mont_equality_across_curves : forall e1 e2 P Q A B, mont e1 -> mont e2 -> e1 <> e2 -> mpoint e1 P A -> mpoint e2 Q B ->
  (modulus (c_f e1) = modulus (c_f e2) -> pt_eqb P Q = Ret false)
  /\ (modulus (c_f e1) <> modulus (c_f e2) -> pt_eqb P Q = Panic "elements of different fields").
Proof.
  intros e1 e2 P Q A B (Hp & Hp2 & _) _ N (EP & Vx & Vy & Vz & _) (EQ & Ux & Uy & Uz & _). split; intro E.
  - rewrite <- E in *. set (p := modulus (c_f e1)) in *.
    destruct (valid_ex _ _ Vx) as [x1 X1], (valid_ex _ _ Vy) as [y1 Y1], (valid_ex _ _ Vz) as [z1 Z1].
    destruct (valid_ex _ _ Ux) as [x2 X2], (valid_ex _ _ Uy) as [y2 Y2], (valid_ex _ _ Uz) as [z2 Z2].
    unfold pt_eqb. rewrite X1, Y1, Z1, X2, Y2, Z2, EP, EQ. fes.
    destruct (curve_eqb e1 e2) eqn:C; [apply curve_eqb_eq in C; contradiction|reflexivity].
  - unfold pt_eqb, mul. rewrite (proj1 Vx), (proj1 Uz). unfold fp_eqb. cbn [modulus].
    destruct (Z.eqb_spec (modulus (c_f e1)) (modulus (c_f e2))); [contradiction|reflexivity].
Qed.

(** *** C32 *)
(** the triple (0,0,0) passes the curve test and is equal to every point: the equality above holds only
    because no operation produces it (C33, C34) *)
Lemma c32_mont_zero_triple : forall e P A, mont e -> mpoint e P A ->
  let O := mkPoint e (mkProy (mkFpElt 0 (c_f e)) (mkFpElt 0 (c_f e)) (mkFpElt 0 (c_f e))) in
  is_on_curve e (pc O) = Ret true /\ pt_eqb O P = Ret true /\ pt_eqb P O = Ret true /\ (forall B, ~ mpoint e O B).
Proof.
  intros e P A W HP O. open_curve W. open_point HP. destruct RP as (EP & (X & Y & Z & EC & R) & _).
  assert (EO : pc O = mk p Hp F0 F0 F0) by (unfold O, mk, fe; rewrite ef; reflexivity).
  assert (M0 : forall u : ZpF p Hp, zmul u (of_Z p 0) = of_Z p 0) by (intro u; apply Zp_eq; cbn; rewrite Z.mul_0_r; reflexivity).
  assert (M1 : forall u : ZpF p Hp, zmul (of_Z p 0) u = of_Z p 0) by (intro u; apply Zp_eq; cbn; reflexivity).
  split; [|split; [|split]].
  - rewrite EO. destruct (on_curve_mk p Hp Hp2 a b e ea eb b1 F0 F0 F0) as (t & -> & Ht). f_equal. apply Ht.
    apply Zp_eq. cbn. rewrite ?Z.mul_0_r. reflexivity.
  - unfold pt_eqb. rewrite EO, EC, EP. cbn [pe O mk px py pz]. rewrite curve_eqb_refl. fes. f_equal. cbn [andb].
    apply andb_true_iff. split; apply fpelt_eqb_fe; (etransitivity; [apply M1|symmetry; apply M1]).
  - unfold pt_eqb. rewrite EO, EC, EP. cbn [pe O mk px py pz]. rewrite curve_eqb_refl. fes. f_equal. cbn [andb].
    apply andb_true_iff. split; apply fpelt_eqb_fe; (etransitivity; [apply M0|symmetry; apply M0]).
  - intros [|x y] (_ & _ & _ & _ & R' & _); cbn in R'; [destruct R' as (_ & R' & _)|destruct R' as (R' & _)]; apply R'; reflexivity.
Qed.

(** *** is_two_torsion *)
(** on a normalized point is_two_torsion says that P + P is the identity; on other representatives of the
    same point, and on the identity, it answers false *)
Lemma c34_two_torsion : forall e P x y, mont e -> mpoint e P (Affine x y) ->
  (is_two_torsion P = true <-> val (pz (pc P)) = 1 /\ msum e (Affine x y) (Affine x y) Infinity).
Proof.
  intros e P x y W HP. open_curve W. pose proof HP as H. apply WP in H. destruct H as (A' & EA & RP).
  destruct A' as [|u v]; [discriminate EA|]. cbn in EA. injection EA as -> ->.
  destruct RP as (EP & (X & Y & Z & EC & (HZ & EX & EY)) & O). unfold is_two_torsion. rewrite EC. cbn [mk px py pz].
  rewrite andb_true_iff, is_zero_fe by lia. unfold is_one. cbn [val fe]. rewrite Z.eqb_eq.
  change (Affine (zv u) (zv v)) with (ap p Hp (Aff (ZpF p Hp) u v)). rewrite WS by exact O.
  assert (Y0 : Y = F0 <-> v = F0).
  { rewrite EY. split.
    - intro E. destruct (Fmul_integral (ZpF p Hp) v Z E) as [V|V]; [exact V|contradiction].
    - intros ->. apply Zp_eq. reflexivity. }
  assert (T : Infinity = ap p Hp (padd (ZpF p Hp) a F1 (Aff _ u v) (Aff _ u v)) <-> v = F0).
  { change Infinity with (ap p Hp (Inf (ZpF p Hp))). split.
    - intro E. apply ap_inj in E. destruct (Feqd v F0) as [V|V]; [exact V|exfalso].
      rewrite padd_dbl in E by (exact (two_K p Hp Hp2) || exact V). discriminate E.
    - intros ->. f_equal. symmetry. assert (E : Aff (ZpF p Hp) u F0 = popp _ (Aff _ u F0)).
      { apply (f_equal (Aff (ZpF p Hp) u)). symmetry. apply (WeierP.Fopp_0 (ZpF p Hp)). }
      rewrite E at 2. apply padd_opp_r. }
  rewrite Y0, T. tauto.
Qed.

(** a small curve for the examples: y^2 = x^3 + 6x^2 + x modulo 19, of order 20, with s = 5 and the
    generator (7,6) of order 5 *)
Definition n19 (v : Z) : FpElt := mkFpElt v (mkFp 19).
Definition E19 : Curve := mkCurve (mkFp 19) (n19 6) (n19 1) (n19 5) 5 (n19 7) (n19 6) 4.
Definition pt19 (x y z : Z) : Point := mkPoint E19 (mkProy (n19 x) (n19 y) (n19 z)).
Lemma v19 v : 0 <= v < 19 -> valid 19 (n19 v). Proof. intro H. split; [reflexivity|exact H]. Qed.
Lemma mont19 : mont E19.
Proof.
  split; [apply prime_small; reflexivity|]. cbn [c_f c_a c_b c_s E19 modulus n19 val]. split; [lia|].
  do 3 (split; [apply v19; lia|]). split; [reflexivity|]. split; [intros [k E]; lia|].
  apply (no_root_small 19 (fun x => x * x * x + 6 * (x * x) + x - 5 * 5)); [lia| |reflexivity].
  intro x. pose proof (Z.div_mod x 19 ltac:(lia)) as D. set (q := x / 19) in *. set (r := x mod 19) in *.
  exists (q * (19 * 19 * q * q + 3 * 19 * q * r + 3 * r * r) + 6 * q * (19 * q + 2 * r) + q). rewrite D. ring.
Qed.
Lemma mgroup19 : mgroup E19.
Proof.
  split; [exact mont19|]. split; [left; reflexivity|]. split; [cbn; lia|]. split; [reflexivity|]. split; apply v19; lia.
Qed.
Ltac in19 := repeat split; try reflexivity; cbn; try lia; try (apply Zmod_divide; [lia|reflexivity]).
Lemma gen19 : mpoint E19 (pt19 7 6 1) (Affine 7 6). Proof. in19. Qed.
Lemma other19 : mpoint E19 (pt19 12 2 2) (Affine 6 1). Proof. in19. Qed.
Lemma two19 : mpoint E19 (pt19 0 0 3) (Affine 0 0). Proof. in19. Qed.
Lemma inf19 : mpoint E19 (pt19 0 3 0) Infinity. Proof. in19. Qed.
Example c33_ex : mont E19 /\ mpoint E19 (pt19 7 6 1) (Affine 7 6) /\ mpoint E19 (pt19 12 2 2) (Affine 6 1)
  /\ pt_add (pt19 7 6 1) (pt19 12 2 2) = Ret (pt19 14 4 15)
  /\ pt_add (pt19 7 6 1) (pt19 7 13 1) = Ret (pt19 0 5 0)
  /\ pt_add (pt19 0 0 3) (pt19 0 0 3) = Ret (pt19 0 5 0).
Proof. split; [exact mont19|]. split; [exact gen19|]. split; [exact other19|]. vm_compute. auto. Qed.
(** with b <> 1 the formulas, which ignore b, leave the curve: on 2y^2 = x^3 + x^2 + x modulo 7 the sum of
    (0,0) and (3,3) is (5,2), but the addition panics *)
Lemma c33_addition_for_all_b_refuted : exists e P Q m,
  prime (modulus (c_f e)) /\ val (c_b e) = 2 /\ ~ (modulus (c_f e) | val (c_a e) * val (c_a e) - 4)
  /\ (forall x, ~ (modulus (c_f e) | x * x * x + val (c_a e) * (x * x) + x - val (c_b e) * (val (c_s e) * val (c_s e))))
  /\ mpoint e P (Affine 0 0) /\ mpoint e Q (Affine 3 3)
  /\ msum e (Affine 0 0) (Affine 3 3) (Affine 5 2)
  /\ pt_add P Q = Panic m.
Proof.
  set (n7 v := mkFpElt v (mkFp 7)).
  set (e := mkCurve (mkFp 7) (n7 1) (n7 2) (n7 1) 3 (n7 3) (n7 3) 1).
  exists e, (mkPoint e (mkProy (n7 0) (n7 0) (n7 1))), (mkPoint e (mkProy (n7 3) (n7 3) (n7 1))). eexists.
  split; [apply prime_small; reflexivity|]. split; [reflexivity|]. split; [intros [k E]; change (1 * 1 - 4 = k * 7) in E; lia|]. split.
  { apply (no_root_small 7 (fun x => x * x * x + 1 * (x * x) + x - 2 * (1 * 1))); [lia| |reflexivity].
    intro x. pose proof (Z.div_mod x 7 ltac:(lia)) as D. set (q := x / 7) in *. set (r := x mod 7) in *.
    exists (q * (7 * 7 * q * q + 3 * 7 * q * r + 3 * r * r) + q * (7 * q + 2 * r) + q). rewrite D. ring. }
  split; [in19|]. split; [in19|]. split.
  { apply ct_chord with 1; [lia|exists 0; reflexivity|]. split; [change (0 <= 5 < 7); lia|]. split; [change (0 <= 2 < 7); lia|].
    split; [exists 1; reflexivity|exists 1; reflexivity]. }
  vm_compute. reflexivity.
Qed.
Example c34_ex : mgroup E19
  /\ run true E19 (TMul (TAdd TGenerator (TDecode [2; 7])) 3) = Ret (pt19 10 14 15)
  /\ pt_mul true (pt19 7 6 1) (mkScalar 2 5) = Ret (pt19 5 15 11)
  /\ pt_mul false (pt19 7 6 1) (mkScalar 0 5) = Ret (pt19 0 1 0)
  /\ is_two_torsion (pt19 0 0 1) = true /\ is_two_torsion (pt19 0 0 3) = false.
Proof. split; [exact mgroup19|]. vm_compute. auto. Qed.
Example c35_ex : encode (pt19 12 2 2) true = Ret [3; 6] /\ encode (pt19 12 2 2) false = Ret [4; 6; 1]
  /\ decode E19 [3; 6] = Ret (Ok (pt19 6 1 1)) /\ byte_size 19 1
  /\ decode E19 [4; 19; 1] = Ret (Err "Invalid x coordinate").
Proof. split; [reflexivity|]. split; [reflexivity|]. split; [vm_compute; reflexivity|]. split; [repeat split; lia|]. vm_compute; reflexivity. Qed.
Lemma c35_identity_round_trip_refuted : exists e P Q, mont e /\ mpoint e P Infinity
  /\ encode P true = Ret [2; 0] /\ decode e [2; 0] = Ret (Ok Q) /\ pt_eqb P Q = Ret false.
Proof.
  exists E19, (pt19 0 3 0), (pt19 0 0 1). split; [exact mont19|]. split; [exact inf19|]. repeat split; vm_compute; reflexivity.
Qed.
Lemma c35_unique_encodings_refuted : exists e b1 b2 Q, mont e /\ b1 <> b2 /\ length b1 = length b2
  /\ decode e b1 = Ret (Ok Q) /\ decode e b2 = Ret (Ok Q).
Proof.
  exists E19, [2; 0], [3; 0], (pt19 0 0 1). split; [exact mont19|]. split; [discriminate|]. repeat split; vm_compute; reflexivity.
Qed.
Lemma c35_encode_injective_refuted : exists e P Q c, mont e /\ mpoint e P Infinity /\ mpoint e Q (Affine 0 0)
  /\ encode P c = encode Q c.
Proof.
  exists E19, (pt19 0 3 0), (pt19 0 0 1), true. split; [exact mont19|]. split; [exact inf19|]. split; [in19|]. vm_compute; reflexivity.
Qed.
Lemma c35_decode_never_panics_refuted : exists e b1 b2 b3 m1 m2 m3, mont e
  /\ Forall is_byte b1 /\ Forall is_byte b2 /\ Forall is_byte b3
  /\ b1 = [0] /\ decode e b1 = Panic m1
  /\ b2 = [4; 7; 1] /\ decode e b2 = Panic m2
  /\ b3 = [2; 1] /\ decode e b3 = Panic m3.
Proof.
  exists E19, [0], [4; 7; 1], [2; 1]. do 3 eexists. split; [exact mont19|].
  do 3 (split; [repeat constructor; cbn; lia|]). split; [reflexivity|]. split; [vm_compute; reflexivity|].
  split; [reflexivity|]. split; [vm_compute; reflexivity|]. split; vm_compute; reflexivity.
Qed.
Example c27_mont_ex : mpoint E19 (pt19 0 3 0) Infinity /\ pt_is_zero (pt19 0 3 0) = true /\ pt_is_zero (pt19 0 0 3) = false.
Proof. split; [exact inf19|]. split; reflexivity. Qed.
Example c31_mont_ex : normalize (pt19 12 2 2) = Ret (pt19 6 1 1) /\ normalize (pt19 0 3 0) = Ret (pt19 0 0 1).
Proof. split; vm_compute; reflexivity. Qed.
Example c32_mont_ex : pt_eqb (pt19 12 2 2) (pt19 6 1 1) = Ret true /\ pt_eqb (pt19 12 2 2) (pt19 7 6 1) = Ret false.
Proof. split; reflexivity. Qed.
Example c49_mont_ex : pt_add (pt19 7 6 1) (mkPoint (mkCurve (mkFp 19) (n19 6) (n19 1) (n19 5) 7 (n19 7) (n19 6) 4) (pc (pt19 7 6 1)))
    = Panic "points of different curves"
  /\ pt_mul true (pt19 7 6 1) (mkScalar 3 13) = Panic "Scalar don't match with point".
Proof. split; reflexivity. Qed.
