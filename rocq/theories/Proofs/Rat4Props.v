(** The 4-isogeny between edwards448 and curve448: C44. *)
From Coq Require Import ZArith Znumtheory Lia String Ascii Bool List.
From Verif.Math Require Import Fld Zp Residue ECGroup RCB Edwards Iso4 Iso4Dual.
From Verif.Spec Require Import Arith Curve Instances RatMaps.
From Verif.Model Require Import Out BigInt PrimeField Instances RationalMaps.
From Verif.Model Require WCurve MCurve ECurve.
From Verif.Proofs Require Import FieldP FieldProps CurveP Iso4P.
From Verif.Proofs Require WeierP MontP EdwP WeierProps MontProps EdwProps InstP InstShip InstProps RatP Cert_Iso4.
From Verif.Math Require Prime_p448 MontAdd.
From Verif.Spec Require Export Morphisms.
Import EPoints(edw, epoint, esum, eon).
Import MPoints(mont, mpoint, msum, mon).
Import ListNotations.
Open Scope Z_scope.

(** *** C44 *)
Ltac open_iso4 H :=
  let We := fresh "We" in let Wm := fresh "Wm" in let Ep := fresh "Ep" in let B1 := fresh "B1" in let B2 := fresh "B2" in let B3 := fresh "B3" in
  pose proof H as (We & Wm & Ep & (B1 & B2 & B3));
  match type of H with iso4 ?m =>
    set (p := modulus (ECurve.c_f (e4_e0 m))) in *; pose proof (proj1 We : prime p) as Hp;
    destruct (EdwProps.edw_open_at (e4_e0 m) p Hp eq_refl We) as (Hp2 & a & d & ef0 & ea0 & ed0 & AS & AN & DN & EP & ES & EM & EO & EU);
    destruct (MontProps.mont_open_at (e4_e1 m) p Hp Ep Wm) as (Hp2' & A & b & s & ef1 & ea1 & eb1 & es1 & b1 & NS & NR & MP & MS & MM & MO & MU);
    rewrite ea0 in B1; rewrite ed0, ea1 in B2; rewrite ea1 in B3; cbn [val fe] in B1, B2, B3;
    assert (a1 : a = F1) by (apply Zp_eq; rewrite B1; symmetry; apply (RatP.zv_1 p Hp Hp2));
    assert (HA : A = Fsub (Fadd F1 F1) (Fmul (Fmul (Fadd F1 F1) (Fadd F1 F1)) d)) by
      (apply of_Z_div in B2; [|lia]; revert B2; change 4 with ((1 + 1) * (1 + 1)); change 2 with (1 + 1); pushZ; exact (fun h => h));
    assert (A_NS : forall t : ZpF p Hp, Fmul t t <> Fsub (Fmul A A) (Fmul (Fadd F1 F1) (Fadd F1 F1))) by
      (intros t Ht; apply (B3 (zv t)); apply of_Z_div; [lia|]; rewrite !Z.pow_2_r; change 4 with ((1 + 1) * (1 + 1)); pushZ; exact Ht);
    clear B1 B2 B3
  end.

(** the first map is a homomorphism from the Edwards curve to the Montgomery curve *)
Lemma c44_map : forall m E, iso4 m -> eon (e4_e0 m) E -> exists M, mon (e4_e1 m) M /\ forall M', imap m E M' <-> M' = M.
Proof.
  intros m E W HE. open_iso4 W. unfold imap. fold p. destruct (EU E HE) as (E' & -> & OE).
  exists (ap p Hp (phi (ZpF p Hp) E')). split.
  - apply MO. rewrite a1 in OE. apply (on_phi _ d A HA). exact OE.
  - intro M'. apply (isogeny4_phi p Hp Hp2).
Qed.
Lemma c44_homomorphism : forall m E1 E2 E3 M1 M2 M3, iso4 m -> eon (e4_e0 m) E1 -> eon (e4_e0 m) E2 ->
  imap m E1 M1 -> imap m E2 M2 -> esum (e4_e0 m) E1 E2 E3 -> (imap m E3 M3 <-> msum (e4_e1 m) M1 M2 M3).
Proof.
  intros m E1 E2 E3 M1 M2 M3 W H1 H2. open_iso4 W. unfold imap. fold p.
  destruct (EU E1 H1) as (F1' & -> & O1), (EU E2 H2) as (F2' & -> & O2).
  rewrite !(isogeny4_phi p Hp Hp2). intros -> ->. rewrite ES by assumption. intros ->. rewrite a1 in *.
  rewrite (isogeny4_phi p Hp Hp2).
  rewrite MS by (apply (on_phi _ d A HA); assumption).
  rewrite (phi_add _ d A (two_K p Hp Hp2) DN HA) by assumption. reflexivity.
Qed.
(** its kernel is (0, 1) and (0, -1) *)
Lemma c44_kernel : forall m E, iso4 m -> eon (e4_e0 m) E ->
  (imap m E Infinity <-> E = (0, 1) \/ E = (0, modulus (ECurve.c_f (e4_e0 m)) - 1)).
Proof.
  intros m E W HE. open_iso4 W. unfold imap. fold p. destruct (EU E HE) as (E' & -> & OE). rewrite (isogeny4_phi p Hp Hp2).
  rewrite <- (RatP.zz_zero' p Hp Hp2), <- (RatP.zz_two p Hp Hp2). split.
  - intro Q. change Infinity with (ap p Hp (Inf (ZpF p Hp))) in Q. apply ap_inj in Q. symmetry in Q. apply phi_inf in Q. rewrite a1 in OE.
    destruct (x0_cases _ d E' OE Q) as [->| ->]; [left|right]; reflexivity.
  - intros [Q|Q]; apply EdwP.zz_inj in Q; rewrite Q, phi_zero by reflexivity; reflexivity.
Qed.
(** push computes the map on every representative of every point *)
Lemma c44_push : forall m P E, iso4 m -> epoint (e4_e0 m) P E ->
  exists Q, ed448_push m P = Ret Q /\ forall M, mpoint (e4_e1 m) Q M <-> imap m E M.
Proof.
  intros m P E W HP. open_iso4 W. unfold imap. fold p. apply EP in HP. destruct HP as (E' & -> & R).
  destruct (push4_wrep p Hp Hp2 a d A a1 HA m b ef1 ea1 eb1 b1 P E' R) as (Q & EQ & RQ).
  exists Q. split; [exact EQ|]. intro M. rewrite (isogeny4_phi p Hp Hp2).
  apply (MontProps.wrep_iff p Hp A (e4_e1 m) Q _ MP RQ).
Qed.
Lemma epoint_eon e P E : epoint e P E -> eon e E.
Proof. intros (_ & _ & _ & _ & _ & _ & H). exact H. Qed.
Lemma mpoint_mon e P M : mpoint e P M -> mon e M.
Proof. intros (_ & _ & _ & _ & _ & H). exact H. Qed.
(** push commutes with the additions of the two curves *)
Lemma c44_push_add : forall m P1 P2 E1 E2, iso4 m -> epoint (e4_e0 m) P1 E1 -> epoint (e4_e0 m) P2 E2 ->
  exists P3 Q1 Q2 Q3 Q3', ECurve.pt_add P1 P2 = Ret P3 /\ ed448_push m P3 = Ret Q3
  /\ ed448_push m P1 = Ret Q1 /\ ed448_push m P2 = Ret Q2 /\ MCurve.pt_add Q1 Q2 = Ret Q3'
  /\ (exists M, mpoint (e4_e1 m) Q3 M) /\ forall M, mpoint (e4_e1 m) Q3 M <-> mpoint (e4_e1 m) Q3' M.
Proof.
  intros m P1 P2 E1 E2 W H1 H2.
  pose proof (epoint_eon _ _ _ H1) as O1. pose proof (epoint_eon _ _ _ H2) as O2.
  destruct (EdwProps.c36_addition (e4_e0 m) P1 P2 E1 E2 (proj1 W) H1 H2) as (P3 & A3 & U3).
  assert (X : exists E3, esum (e4_e0 m) E1 E2 E3).
  { open_iso4 W. destruct (EU E1 O1) as (F1' & -> & Q1), (EU E2 O2) as (F2' & -> & Q2). eexists. apply ES; [exact Q1|exact Q2|reflexivity]. }
  destruct X as (E3 & HS). assert (H3 : epoint (e4_e0 m) P3 E3) by (apply U3; exact HS).
  destruct (c44_push m P1 E1 W H1) as (Q1 & X1 & V1), (c44_push m P2 E2 W H2) as (Q2 & X2 & V2), (c44_push m P3 E3 W H3) as (Q3 & X3 & V3).
  destruct (c44_map m E1 W O1) as (M1 & _ & B1), (c44_map m E2 W O2) as (M2 & _ & B2), (c44_map m E3 W (epoint_eon _ _ _ H3)) as (M3 & _ & B3).
  assert (Y1 : mpoint (e4_e1 m) Q1 M1) by (apply V1, B1; reflexivity). assert (Y2 : mpoint (e4_e1 m) Q2 M2) by (apply V2, B2; reflexivity).
  destruct (MontProps.c33_addition (e4_e1 m) Q1 Q2 M1 M2 (proj1 (proj2 W)) Y1 Y2) as (Q3' & A3' & U3').
  exists P3, Q1, Q2, Q3, Q3'. do 5 (split; [assumption|]). split; [exists M3; apply V3, B3; reflexivity|].
  intro M. rewrite V3, U3'. apply (c44_homomorphism m E1 E2 E3 M1 M2 M W O1 O2); [apply B1; reflexivity|apply B2; reflexivity|exact HS].
Qed.
(** the second map goes from the Montgomery curve to the Edwards curve *)
Lemma c44_dual : forall m M, iso4 m -> mon (e4_e1 m) M -> exists E, eon (e4_e0 m) E /\ forall E', dmap m M E' <-> E' = E.
Proof.
  intros m M W HM. open_iso4 W. unfold dmap. fold p. destruct (MU M HM) as (M' & -> & OM).
  exists (EdwP.zz p Hp (psi (ZpF p Hp) M')). split.
  - apply EO. rewrite a1. apply (eon_psi _ d A (two_K p Hp Hp2) DN HA A_NS). exact OM.
  - intro E'. apply (isogeny4_psi p Hp Hp2 d A DN HA A_NS M' E' OM).
Qed.
(** and after the first map it multiplies by four *)
Lemma c44_dual_map : forall m E M E', iso4 m -> eon (e4_e0 m) E -> imap m E M ->
  (dmap m M E' <-> multiple (esum (e4_e0 m)) (0, 1) E 4 E').
Proof.
  intros m E M E' W HE. open_iso4 W. unfold imap, dmap. fold p. destruct (EU E HE) as (E0 & -> & OE).
  rewrite (isogeny4_phi p Hp Hp2). intros ->. rewrite (EM E0 4%nat E' OE). rewrite a1 in *.
  rewrite (isogeny4_psi p Hp Hp2 d A DN HA A_NS) by (apply (on_phi _ d A HA); exact OE).
  rewrite (psi_phi _ d A (two_K p Hp Hp2) DN HA A_NS E0 OE).
  assert (Q : eadd (ZpF p Hp) F1 d (eadd (ZpF p Hp) F1 d E0 E0) (eadd (ZpF p Hp) F1 d E0 E0) = EdwP.enmul p Hp F1 d 4 E0); [|rewrite Q; reflexivity].
  assert (Q1 : EdwP.enmul p Hp F1 d 1 E0 = E0) by (cbn [EdwP.enmul]; rewrite eadd_comm; apply eadd_zero).
  assert (Q2 : EdwP.enmul p Hp F1 d 2 E0 = eadd (ZpF p Hp) F1 d E0 E0).
  { change 2%nat with (1 + 1)%nat. rewrite <- (EdwP.enmul_add p Hp Hp2 F1 d AS DN 1 1 E0 OE), Q1. reflexivity. }
  change 4%nat with (2 + 2)%nat. rewrite <- (EdwP.enmul_add p Hp Hp2 F1 d AS DN 2 2 E0 OE), Q2. reflexivity.
Qed.
(** the second map is a homomorphism too *)
Lemma c44_dual_homomorphism : forall m M1 M2 M3 E1 E2 E3, iso4 m -> mon (e4_e1 m) M1 -> mon (e4_e1 m) M2 ->
  dmap m M1 E1 -> dmap m M2 E2 -> msum (e4_e1 m) M1 M2 M3 -> (dmap m M3 E3 <-> esum (e4_e0 m) E1 E2 E3).
Proof.
  intros m M1 M2 M3 E1 E2 E3 W H1 H2. open_iso4 W. unfold dmap. fold p.
  destruct (MU M1 H1) as (N1 & -> & O1), (MU M2 H2) as (N2 & -> & O2).
  pose proof (eon_psi _ d A (two_K p Hp Hp2) DN HA A_NS _ O1) as X1. pose proof (eon_psi _ d A (two_K p Hp Hp2) DN HA A_NS _ O2) as X2.
  rewrite (isogeny4_psi p Hp Hp2 d A DN HA A_NS N1) by exact O1. rewrite (isogeny4_psi p Hp Hp2 d A DN HA A_NS N2) by exact O2.
  intros -> ->. rewrite MS by assumption. intros ->. rewrite a1 in *. rewrite ES by assumption.
  rewrite (isogeny4_psi p Hp Hp2 d A DN HA A_NS) by (apply (on_padd _ A F1 F0 (two_K p Hp Hp2)); assumption).
  rewrite (psi_add _ d A (two_K p Hp Hp2) DN HA A_NS) by assumption. reflexivity.
Qed.
(** its kernel is the identity, (0, 0) and the points with u = -1 *)
Lemma c44_dual_kernel : forall m M, iso4 m -> mon (e4_e1 m) M ->
  (dmap m M (0, 1) <-> M = Infinity \/ M = Affine 0 0 \/ exists v, M = Affine (modulus (ECurve.c_f (e4_e0 m)) - 1) v).
Proof.
  intros m M W HM. open_iso4 W. unfold dmap. fold p. destruct (MU M HM) as (M' & -> & O).
  rewrite (isogeny4_psi p Hp Hp2 d A DN HA A_NS) by exact O.
  rewrite <- (RatP.zz_zero' p Hp Hp2).
  assert (Q : EdwP.zz p Hp (F0, F1) = EdwP.zz p Hp (psi (ZpF p Hp) M') <-> psi (ZpF p Hp) M' = (F0, F1)).
  { split; [intro Q; apply EdwP.zz_inj in Q; symmetry; exact Q|intros ->; reflexivity]. }
  rewrite Q, (psi_kernel _ d A (two_K p Hp Hp2) DN HA A_NS M' O). clear Q.
  pose proof (RatP.zv_m1 p Hp Hp2) as ZM. split.
  - intros [->|(v & [->| ->])]; [left; reflexivity| |].
    + right. left. rewrite (u_zero _ A v O). reflexivity.
    + right. right. exists (zv v). rewrite <- ZM. reflexivity.
  - intros [Q|[Q|(v & Q)]].
    + left. change Infinity with (ap p Hp (Inf (ZpF p Hp))) in Q. apply ap_inj in Q. exact Q.
    + right. exists F0. left. change (Affine 0 0) with (ap p Hp (Aff (ZpF p Hp) F0 F0)) in Q. apply ap_inj in Q. exact Q.
    + right. destruct M' as [|x y]; [discriminate Q|]. exists y. right. f_equal. apply Zp_eq.
      cbn [CurveP.ap] in Q. injection Q as Q _. rewrite ZM. exact Q.
Qed.
(** and before the first map it multiplies by four *)
Lemma c44_map_dual : forall m M E M', iso4 m -> mon (e4_e1 m) M -> dmap m M E ->
  (imap m E M' <-> multiple (msum (e4_e1 m)) Infinity M 4 M').
Proof.
  intros m M E M' W HM. open_iso4 W. unfold imap, dmap. fold p. destruct (MU M HM) as (M0 & -> & O).
  rewrite (isogeny4_psi p Hp Hp2 d A DN HA A_NS) by exact O. intros ->. rewrite (MM M0 4%nat M' O).
  rewrite (isogeny4_phi p Hp Hp2). rewrite (phi_psi _ d A (two_K p Hp Hp2) DN HA A_NS M0 O).
  pose proof (nmul_add p Hp Hp2 A F1 F0 (MontAdd.mont_nonsing _ A s NS NR)) as NA.
  assert (Q2 : nmul p Hp A F1 2 M0 = padd (ZpF p Hp) A F1 M0 M0) by reflexivity.
  rewrite <- Q2, (NA 2%nat 2%nat M0 O). reflexivity.
Qed.
(** pull computes the second map at every point but (0, 0) *)
Lemma c44_pull : forall m Q M, iso4 m -> mpoint (e4_e1 m) Q M -> M <> Affine 0 0 ->
  exists P, ed448_pull m Q = Ret P /\ forall E, epoint (e4_e0 m) P E <-> dmap m M E.
Proof.
  intros m Q M W HQ N. open_iso4 W. unfold dmap. fold p. apply MP in HQ. destruct HQ as (M' & -> & R).
  destruct (pull4_wrep p Hp Hp2 a d A a1 DN HA A_NS m ef0 ea0 ed0 Q M' R) as (P & E & RP).
  { intros ->. apply N. reflexivity. }
  exists P. split; [exact E|]. intro C. rewrite (isogeny4_psi p Hp Hp2 d A DN HA A_NS) by apply R.
  apply (EdwProps.wrep_iff p Hp a d (e4_e0 m) P _ EP RP).
Qed.
(** (0, 0), whose image is (0, 1), is sent to the tuple (0, 0, 0, 0), which represents no point and compares equal to every point *)
Lemma c44_pull_refuted : forall m Q, iso4 m -> mpoint (e4_e1 m) Q (Affine 0 0) ->
  (forall E, dmap m (Affine 0 0) E <-> E = (0, 1))
  /\ exists P, ed448_pull m Q = Ret P /\ val (ECurve.px (ECurve.pc P)) = 0 /\ val (ECurve.py (ECurve.pc P)) = 0
  /\ val (ECurve.ptt (ECurve.pc P)) = 0 /\ val (ECurve.pz (ECurve.pc P)) = 0 /\ (forall E, ~ epoint (e4_e0 m) P E)
  /\ forall P' E', epoint (e4_e0 m) P' E' -> ECurve.pt_eqb P P' = Ret true.
Proof.
  intros m Q W HQ. open_iso4 W. unfold dmap. fold p. apply MP in HQ. destruct HQ as (M' & EM' & R).
  change (Affine 0 0) with (ap p Hp (Aff (ZpF p Hp) F0 F0)) in EM'. apply ap_inj in EM'. subst M'. split.
  - intro E. change (Affine 0 0) with (ap p Hp (Aff (ZpF p Hp) F0 F0)). rewrite (isogeny4_psi p Hp Hp2 d A DN HA A_NS) by apply R.
    cbn [Iso4.psi]. destruct (Feqd (F0 : ZpF p Hp) F0) as [_|Q']; [|destruct (Q' eq_refl)]. rewrite (RatP.zz_zero' p Hp Hp2). reflexivity.
  - rewrite (pull4_bad p Hp Hp2 a d A m ef0 ea0 ed0 Q R).
    eexists. split; [reflexivity|]. do 4 (split; [reflexivity|]). split.
    + intros E (_ & _ & _ & _ & _ & (H & _) & _). apply H. reflexivity.
    + intros P' E' HP. apply EP in HP. destruct HP as (E'' & _ & R'). apply (bad_eqb p Hp Hp2 a d m P' E'' R').
Qed.
(** pull after push multiplies by four, except at the points (1, 0) and (-1, 0) sent to (0, 0) *)
Lemma c44_pull_push : forall m P E, iso4 m -> epoint (e4_e0 m) P E -> snd E <> 0 ->
  exists Q P', ed448_push m P = Ret Q /\ ed448_pull m Q = Ret P'
  /\ forall C, epoint (e4_e0 m) P' C <-> multiple (esum (e4_e0 m)) (0, 1) E 4 C.
Proof.
  intros m P E W HP N. pose proof (epoint_eon _ _ _ HP) as HE. destruct (c44_push m P E W HP) as (Q & EQ & VQ).
  destruct (c44_map m E W HE) as (M & HM & BM). assert (I : imap m E M) by (apply BM; reflexivity).
  destruct (c44_pull m Q M W (proj2 (VQ M) I)) as (P' & EP & VP).
  { intros ->. apply N. destruct E as [x y]. cbn [snd]. unfold imap, isogeny4 in I.
    destruct I as [[_ F]|(u & v & F & _ & _ & NX & D & _)]; [discriminate F|]. injection F as <- <-. destruct W as ((Pr & _) & _).
    set (p := modulus _) in *. destruct HE as (_ & Cy & _). fold p in Cy. cbn [snd] in Cy. rewrite Z.mul_0_l, Z.sub_0_l in D.
    rewrite Z.pow_2_r in D. apply Z.divide_opp_r in D. rewrite ?Z.opp_involutive in D. assert (D' : (p | y)) by (destruct (prime_mult p Pr _ _ D); assumption).
    destruct (Z.eq_dec y 0) as [Z0|Z0]; [exact Z0|]. unfold coord in Cy. apply Z.divide_pos_le in D'; lia. }
  exists Q, P'. split; [exact EQ|]. split; [exact EP|]. intro C. rewrite VP. apply c44_dual_map; assumption.
Qed.
(** pull commutes with the additions of the two curves, as long as neither argument nor the sum is (0, 0) *)
Lemma c44_pull_add : forall m Q1 Q2 M1 M2 M3, iso4 m -> mpoint (e4_e1 m) Q1 M1 -> mpoint (e4_e1 m) Q2 M2 ->
  msum (e4_e1 m) M1 M2 M3 -> M1 <> Affine 0 0 -> M2 <> Affine 0 0 -> M3 <> Affine 0 0 ->
  exists Q3 P1 P2 P3 P3', MCurve.pt_add Q1 Q2 = Ret Q3 /\ ed448_pull m Q3 = Ret P3
  /\ ed448_pull m Q1 = Ret P1 /\ ed448_pull m Q2 = Ret P2 /\ ECurve.pt_add P1 P2 = Ret P3'
  /\ (exists E, epoint (e4_e0 m) P3 E) /\ forall E, epoint (e4_e0 m) P3 E <-> epoint (e4_e0 m) P3' E.
Proof.
  intros m Q1 Q2 M1 M2 M3 W H1 H2 HS N1 N2 N3.
  pose proof (mpoint_mon _ _ _ H1) as O1. pose proof (mpoint_mon _ _ _ H2) as O2.
  destruct (MontProps.c33_addition (e4_e1 m) Q1 Q2 M1 M2 (proj1 (proj2 W)) H1 H2) as (Q3 & A3 & U3).
  assert (H3 : mpoint (e4_e1 m) Q3 M3) by (apply U3; exact HS). pose proof (mpoint_mon _ _ _ H3) as O3.
  destruct (c44_pull m Q1 M1 W H1 N1) as (P1 & X1 & V1), (c44_pull m Q2 M2 W H2 N2) as (P2 & X2 & V2), (c44_pull m Q3 M3 W H3 N3) as (P3 & X3 & V3).
  destruct (c44_dual m M1 W O1) as (E1 & _ & B1), (c44_dual m M2 W O2) as (E2 & _ & B2), (c44_dual m M3 W O3) as (E3 & _ & B3).
  assert (Y1 : epoint (e4_e0 m) P1 E1) by (apply V1, B1; reflexivity). assert (Y2 : epoint (e4_e0 m) P2 E2) by (apply V2, B2; reflexivity).
  destruct (EdwProps.c36_addition (e4_e0 m) P1 P2 E1 E2 (proj1 W) Y1 Y2) as (P3' & A3' & U3').
  exists Q3, P1, P2, P3, P3'. do 5 (split; [assumption|]). split; [exists E3; apply V3, B3; reflexivity|].
  intro E. rewrite V3, U3'. apply (c44_dual_homomorphism m M1 M2 M3 E1 E2 E W O1 O2); [apply B1; reflexivity|apply B2; reflexivity|exact HS].
Qed.
(** push after pull multiplies by four, except at (0, 0) *)
Lemma c44_push_pull : forall m Q M, iso4 m -> mpoint (e4_e1 m) Q M -> M <> Affine 0 0 ->
  exists P Q', ed448_pull m Q = Ret P /\ ed448_push m P = Ret Q'
  /\ forall C, mpoint (e4_e1 m) Q' C <-> multiple (msum (e4_e1 m)) Infinity M 4 C.
Proof.
  intros m Q M W HQ N. pose proof (mpoint_mon _ _ _ HQ) as HM. destruct (c44_pull m Q M W HQ N) as (P & EP & VP).
  destruct (c44_dual m M W HM) as (E & _ & BE). assert (D : dmap m M E) by (apply BE; reflexivity).
  destruct (c44_push m P E W (proj2 (VP E) D)) as (Q' & EQ & VQ).
  exists P, Q'. split; [exact EP|]. split; [exact EQ|]. intro C. rewrite VQ. apply c44_map_dual; assumption.
Qed.
(** the shipped map is of this kind *)
Lemma c44_shipped : exists m, edwards448_to_curve448 = Ret m /\ EDWARDS448 = Ret (e4_e0 m) /\ CURVE448 = Ret (e4_e1 m) /\ iso4 m.
Proof.
  destruct InstProps.c48_EDWARDS448 as (e0 & X0 & p0 & a0 & d0 & _ & _ & _ & _ & (W0 & _) & _).
  destruct InstProps.c48_CURVE448 as (e1 & X1 & p1 & a1 & _ & _ & _ & _ & _ & _ & (W1 & _) & _).
  exists (mkEd4isoMt448 e0 e1). unfold edwards448_to_curve448. rewrite X0, X1. cbn [bind e4_e0 e4_e1].
  do 3 (split; [reflexivity|]). split; [exact W0|]. split; [exact W1|]. cbn [e4_e0 e4_e1].
  rewrite p0, p1, a0, d0, a1. split; [reflexivity|]. unfold isogeny4_params.
  split; [vm_compute; reflexivity|]. split; [apply Z.mod_divide; [vm_compute; discriminate|vm_compute; reflexivity]|].
  intros s D. pose proof (InstP.nonsq_ok _ Prime_p448.prime_p448 _ _ Cert_Iso4.nonsq_disc448) as [H2 NSQ].
  apply (NSQ (of_Z _ s)). change (zmul (of_Z (e_p std_EDWARDS448) s) (of_Z (e_p std_EDWARDS448) s) = of_Z (e_p std_EDWARDS448) 24437818272).
  rewrite <- of_Z_mul. apply of_Z_div; [vm_compute; reflexivity|]. rewrite <- Z.pow_2_r. exact D.
Qed.
(** (1, 0) is a point of edwards448 and push sends it to (0, 0), so the exceptional case of pull occurs *)
Example c44_order_four : exists m P Q, edwards448_to_curve448 = Ret m /\ epoint (e4_e0 m) P (1, 0)
  /\ ed448_push m P = Ret Q /\ mpoint (e4_e1 m) Q (Affine 0 0).
Proof.
  destruct c44_shipped as (m & X & _ & _ & W). destruct W as (W0 & W1).
  pose proof W0 as (Pr & P2 & _). set (p := modulus (ECurve.c_f (e4_e0 m))) in *.
  assert (V : forall z, 0 <= z < p -> valid p (mkFpElt z (mkFp p))) by (intros z Hz; split; [reflexivity|exact Hz]).
  destruct (EdwProps.c36_new_point (e4_e0 m) _ _ W0 (V 1 ltac:(lia)) (V 0 ltac:(lia))) as [H _]. cbn [val] in H. destruct H as (P & _ & HP).
  { unfold EPoints.eon, on_edwards, coord. fold p. cbn [fst snd]. split; [lia|]. split; [lia|].
    destruct W1 as (_ & _ & (-> & _)). exists 0. ring. }
  destruct (c44_push m P (1, 0) (conj W0 W1) HP) as (Q & EQ & VQ). exists m, P, Q. split; [exact X|]. split; [exact HP|]. split; [exact EQ|].
  apply VQ. right. exists 0, 0. fold p. split; [reflexivity|]. unfold coord. split; [lia|]. split; [lia|].
  split; [intro D; apply Z.divide_1_r_nonneg in D; lia|]. split; exists 0; reflexivity.
Qed.
(** curve448 has points with u = -1, so the kernel of the second map has points other than the identity and (0, 0) *)
Example c44_dual_kernel_ex : exists m v, edwards448_to_curve448 = Ret m
  /\ mon (e4_e1 m) (Affine (2 ^ 448 - 2 ^ 224 - 2) v) /\ dmap m (Affine (2 ^ 448 - 2 ^ 224 - 2) v) (0, 1).
Proof.
  destruct c44_shipped as (m & X & _ & X1 & W).
  exists m, 528950257000142451010969798134146496096806208096258258133290419984524923934728256972792120570883515182233459997657945594599653183173011.
  split; [exact X|]. destruct InstProps.c48_CURVE448 as (e1 & X1' & p1 & a1 & _). rewrite X1 in X1'.
  assert (EE : e4_e1 m = e1) by (inversion X1'; reflexivity). rewrite <- EE in p1, a1. clear X1' EE e1 X1.
  pose proof W as (_ & (_ & _ & _ & _ & _ & B1 & _) & Ep & _).
  assert (O : mon (e4_e1 m) (Affine (2 ^ 448 - 2 ^ 224 - 2) 528950257000142451010969798134146496096806208096258258133290419984524923934728256972792120570883515182233459997657945594599653183173011)).
  { unfold MPoints.mon, on_cubic, coord. rewrite p1, a1, B1. split; [vm_compute; split; [discriminate|reflexivity]|].
    split; [vm_compute; split; [discriminate|reflexivity]|]. apply Z.mod_divide; [vm_compute; discriminate|vm_compute; reflexivity]. }
  split; [exact O|]. apply (c44_dual_kernel m _ W O). right. right.
  eexists. f_equal. rewrite <- Ep, p1. vm_compute. reflexivity.
Qed.
