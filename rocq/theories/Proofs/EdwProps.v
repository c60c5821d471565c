(** Twisted Edwards curves: C36-C39 and the Edwards parts of C31, C32, C49. *)
From Coq Require Import ZArith Znumtheory Lia String Bool List Ring Field.
From Verif.Math Require Import Fld Zp Residue Edwards.
From Verif.Spec Require Import Arith Curve.
From Verif.Model Require Import Out BigInt PrimeField Scalar ECurve.
From Verif.Proofs Require Import FieldP FieldProps BytesP SerialProps ScalarProps CurveP LadderP SmallP EdwP.
From Verif.Proofs Require WeierP WeierProps.
From Verif.Spec Require Export EPoints.
Import WeierProps(byte_size_unique, size_of, coord_K, bits_small, residue_mod, residue_is_mod, elt_res, Fcomm).
Import ListNotations.
Open Scope Z_scope.

Lemma edw_open_at e p (Hp : prime p) : modulus (c_f e) = p -> edw e -> exists (Hp2 : 2 < p) (a d : ZpF p Hp),
  c_f e = mkFp p /\ c_a e = fe a /\ c_d e = fe d
  /\ (exists s : ZpF p Hp, Fmul s s = a) /\ a <> F0 /\ (forall s : ZpF p Hp, Fmul s s <> d)
  /\ (forall P A, epoint e P A <-> exists A', A = zz p Hp A' /\ wrep p Hp a d e P A')
  /\ (forall A B C, Edwards.eon (ZpF p Hp) a d A -> Edwards.eon (ZpF p Hp) a d B ->
        (esum e (zz p Hp A) (zz p Hp B) C <-> C = zz p Hp (eadd (ZpF p Hp) a d A B)))
  /\ (forall A n C, Edwards.eon (ZpF p Hp) a d A ->
        (multiple (esum e) (0, 1) (zz p Hp A) n C <-> C = zz p Hp (enmul p Hp a d n A)))
  /\ (forall A, Edwards.eon (ZpF p Hp) a d A <-> eon e (zz p Hp A))
  /\ (forall A, eon e A -> exists A', A = zz p Hp A' /\ Edwards.eon (ZpF p Hp) a d A').
Proof.
  intros Ep (_ & Hp2 & Va & Vd & NA & [s SA] & ND). subst p. set (p := modulus (c_f e)) in *.
  assert (ef : c_f e = mkFp p) by (unfold p; destruct (c_f e); reflexivity).
  destruct (valid_ex _ _ Va) as [a ea], (valid_ex _ _ Vd) as [d ed].
  rewrite ea in NA, SA. rewrite ed in ND. cbn [val fe] in NA, SA, ND.
  exists Hp2, a, d.
  assert (a_sq : exists s : ZpF p Hp, Fmul s s = a).
  { exists (of_Z p s). apply of_Z_div in SA; [|lia]. rewrite of_Z_mul, of_Z_zv in SA. exact SA. }
  assert (a_nz : (a : ZpF p Hp) <> F0).
  { intro E. apply NA. rewrite E. exists 0. reflexivity. }
  assert (d_nonsq : forall s : ZpF p Hp, Fmul s s <> d).
  { intros u E. apply (ND (zv u)). apply of_Z_div; [lia|]. rewrite of_Z_mul, !of_Z_zv. exact E. }
  do 3 (split; [assumption|]). do 3 (split; [assumption|]).
  unfold esum, eon. rewrite ea, ed. fold p. cbn [val fe].
  split; [|split; [|split; [|split]]].
  - intros P A. unfold epoint, wrep. rewrite ea, ed. fold p. cbn [val fe]. split.
    + intros (EP & Vx & Vy & Vt & Vz & R & O).
      destruct (on_unzz p Hp Hp2 a d A O) as (A' & -> & O').
      exists A'. split; [reflexivity|]. split; [exact EP|]. split; [|exact O'].
      destruct (valid_ex _ _ Vx) as [X EX], (valid_ex _ _ Vy) as [Y EY], (valid_ex _ _ Vt) as [T ET], (valid_ex _ _ Vz) as [Z EZ].
      exists X, Y, T, Z. split; [unfold mk; rewrite <- EX, <- EY, <- ET, <- EZ; destruct (pc P); reflexivity|].
      apply (rep_zz p Hp Hp2). rewrite EX, EY, ET, EZ in R. exact R.
    + intros (A' & -> & EP & (X & Y & T & Z & EC & R) & O). rewrite EC. cbn [mk px py ptt pz val fe].
      split; [exact EP|]. repeat (split; [apply valid_fe; lia|]). split; [apply (rep_zz p Hp Hp2), R|].
      apply eon_zz; assumption.
  - intros A B C HA HB. apply (es_zz p Hp Hp2 a d a_sq d_nonsq A B HA HB C).
  - intros A n C HA. apply (multiple_zz p Hp Hp2 a d a_sq d_nonsq n A HA C).
  - intro A. apply eon_zz. exact Hp2.
  - intros A. apply on_unzz. exact Hp2.
Qed.
Lemma edw_open e : edw e -> exists p (Hp : prime p) (Hp2 : 2 < p) (a d : ZpF p Hp),
  c_f e = mkFp p /\ c_a e = fe a /\ c_d e = fe d
  /\ (exists s : ZpF p Hp, Fmul s s = a) /\ a <> F0 /\ (forall s : ZpF p Hp, Fmul s s <> d)
  /\ (forall P A, epoint e P A <-> exists A', A = zz p Hp A' /\ wrep p Hp a d e P A')
  /\ (forall A B C, Edwards.eon (ZpF p Hp) a d A -> Edwards.eon (ZpF p Hp) a d B ->
        (esum e (zz p Hp A) (zz p Hp B) C <-> C = zz p Hp (eadd (ZpF p Hp) a d A B)))
  /\ (forall A n C, Edwards.eon (ZpF p Hp) a d A ->
        (multiple (esum e) (0, 1) (zz p Hp A) n C <-> C = zz p Hp (enmul p Hp a d n A)))
  /\ (forall A, Edwards.eon (ZpF p Hp) a d A <-> eon e (zz p Hp A))
  /\ (forall A, eon e A -> exists A', A = zz p Hp A' /\ Edwards.eon (ZpF p Hp) a d A').
Proof.
  intro W. exists (modulus (c_f e)), (proj1 W). exact (edw_open_at e _ (proj1 W) eq_refl W).
Qed.
Ltac open_curve H := destruct (edw_open _ H) as (p & Hp & Hp2 & a & d & ef & ea & ed & AS & AN & DN & WP & WS & WM & WO & WU).
Ltac open_point H := match type of H with epoint ?e ?P ?A =>
  let HH := fresh in pose proof H as HH;
  match goal with WP : forall P A, epoint e P A <-> _ |- _ => apply WP in HH end;
  let A' := fresh A "'" in let R := fresh "R" P in
  destruct HH as (A' & ? & R); subst A end.

Lemma wrep_fun p Hp a d e P A B : wrep p Hp a d e P A -> wrep p Hp a d e P B -> A = B.
Proof.
  intros (_ & (X & Y & T & Z & E & R) & _) (_ & (X' & Y' & T' & Z' & E' & R') & _). rewrite E in E'.
  assert (EX : X = X') by (apply (fe_inj p); exact (f_equal px E')).
  assert (EY : Y = Y') by (apply (fe_inj p); exact (f_equal py E')).
  assert (ET : T = T') by (apply (fe_inj p); exact (f_equal ptt E')).
  assert (EZ : Z = Z') by (apply (fe_inj p); exact (f_equal pz E')). subst.
  eapply erep_fun; eassumption.
Qed.
Lemma wrep_iff p Hp a d e P A : (forall P A, epoint e P A <-> exists A', A = zz p Hp A' /\ wrep p Hp a d e P A') ->
  wrep p Hp a d e P A -> forall C, epoint e P C <-> C = zz p Hp A.
Proof.
  intros WP R C. rewrite WP. split; [|intros ->; eauto]. intros (A' & -> & R').
  f_equal. eapply wrep_fun; eassumption.
Qed.

Section XX.
  Variables (K : Fld) (a d : K) (AS : exists s : K, Fmul s s = a) (AN : a <> F0) (DN : forall s : K, Fmul s s <> d).
  Add Field KFX : (Fth K).
  Open Scope fld_scope.
  Lemma xx_zero y : xx K a d y = 0 <-> y * y = 1.
  Proof.
    unfold xx. pose proof (v_nz K a d AS AN DN y) as N. rewrite (Fdiv_eq_iff K _ _ _ N). rewrite <- (Fsub_zero K (y * y) 1).
    split; intro H; (etransitivity; [|etransitivity; [exact H|]]; ring).
  Qed.
  Close Scope fld_scope.
End XX.
(** *** C36 *)
(** the sum of two points of the curve is always defined: the specification's denominators never vanish *)
Lemma c36_law_is_total : forall e A B, edw e -> eon e A -> eon e B ->
  exists C, eon e C /\ forall C', esum e A B C' <-> C' = C.
Proof.
  intros e A B W HA HB. open_curve W.
  destruct (WU A HA) as (A' & -> & OA), (WU B HB) as (B' & -> & OB).
  exists (zz p Hp (eadd _ a d A' B')). split.
  - apply WO. apply (eon_add _ a d (two_K p Hp Hp2)); assumption.
  - intro C'. apply WS; assumption.
Qed.
Lemma c36_addition : forall e P Q A B, edw e -> epoint e P A -> epoint e Q B ->
  exists R, pt_add P Q = Ret R /\ forall C, epoint e R C <-> esum e A B C.
Proof.
  intros e P Q A B W HP HQ. open_curve W. open_point HP. open_point HQ.
  destruct (add_wrep p Hp Hp2 a d e ea ed AS DN P Q _ _ RP RQ) as (R & E & HR).
  exists R. split; [exact E|]. intro C. rewrite WS by apply RP || apply RQ. apply (wrep_iff _ _ _ _ _ _ _ WP HR).
Qed.
Lemma c36_negation : forall e P A, edw e -> epoint e P A ->
  exists R, pt_neg P = Ret R /\ forall C, epoint e R C <-> C = edwards_neg (modulus (c_f e)) A.
Proof.
  intros e P A W HP. open_curve W. open_point HP.
  destruct (neg_wrep p Hp Hp2 a d e ea ed P _ RP) as (R & E & HR).
  exists R. split; [exact E|]. intro C. rewrite ef. cbn [modulus]. rewrite <- (neg_zz p Hp). apply (wrep_iff _ _ _ _ _ _ _ WP HR).
Qed.
Lemma c36_subtraction : forall e P Q A B, edw e -> epoint e P A -> epoint e Q B ->
  exists R, pt_sub P Q = Ret R /\ forall C, epoint e R C <-> esum e A (edwards_neg (modulus (c_f e)) B) C.
Proof.
  intros e P Q A B W HP HQ. open_curve W. open_point HP. open_point HQ.
  destruct (sub_wrep p Hp Hp2 a d e ea ed AS DN P Q _ _ RP RQ) as (R & E & HR).
  exists R. split; [exact E|]. intro C. rewrite ef. cbn [modulus]. rewrite <- (neg_zz p Hp).
  rewrite WS; [|apply RP|apply eon_opp, RQ]. apply (wrep_iff _ _ _ _ _ _ _ WP HR).
Qed.
(** the extended coordinate of every point is consistent: t z = x y *)
Lemma c36_extended_coordinate : forall e P A, edw e -> epoint e P A ->
  (modulus (c_f e) | val (ptt (pc P)) * val (pz (pc P)) - val (px (pc P)) * val (py (pc P))).
Proof.
  intros e P [x y] W (_ & _ & _ & _ & _ & (_ & [i Ei] & [j Ej] & [k Ek]) & _). cbn [fst snd] in *.
  set (X := val (px (pc P))) in *. set (Y := val (py (pc P))) in *. set (T := val (ptt (pc P))) in *.
  set (Z := val (pz (pc P))) in *. set (p := modulus (c_f e)) in *.
  assert (X = x * Z + i * p) by lia. assert (Y = y * Z + j * p) by lia. assert (T = x * y * Z + k * p) by lia.
  exists (k * Z - (x * Z * j + i * y * Z + i * j * p)). rewrite H, H0, H1. ring.
Qed.
(** new_point accepts exactly the points of the curve, and panics on all others *)
Lemma c36_new_point : forall e x y, edw e -> valid (modulus (c_f e)) x -> valid (modulus (c_f e)) y ->
  (eon e (val x, val y) -> exists P, new_point e x y = Ret P /\ epoint e P (val x, val y))
  /\ (~ eon e (val x, val y) -> new_point e x y = Panic "not valid point").
Proof.
  intros e x y W. open_curve W. rewrite ef. cbn [modulus]. intros Vx Vy.
  destruct (valid_ex _ _ Vx) as [u ->], (valid_ex _ _ Vy) as [v ->]. cbn [val fe].
  destruct (new_point_mk p Hp Hp2 a d e ef ea ed u v) as (t & Ht & ->).
  change (zv u, zv v) with (zz p Hp (u, v)). rewrite <- WO. split; intro H.
  - apply Ht in H as Et. rewrite Et. eexists. split; [reflexivity|].
    apply WP. eexists. split; [reflexivity|]. apply wrep_mk; [apply erep_one|exact H].
  - destruct t; [exfalso; apply H, Ht; reflexivity|reflexivity].
Qed.
(** the tuples passing the curve test are the representatives of the points, and the zero tuple *)
Lemma c36_accepted_tuples : forall e c, edw e ->
  valid (modulus (c_f e)) (px c) -> valid (modulus (c_f e)) (py c) ->
  valid (modulus (c_f e)) (ptt c) -> valid (modulus (c_f e)) (pz c) ->
  exists t, is_on_curve e c = Ret t
    /\ (t = true <-> (exists A, epoint e (mkPoint e c) A)
                     \/ (val (px c) = 0 /\ val (py c) = 0 /\ val (ptt c) = 0 /\ val (pz c) = 0)).
Proof.
  intros e c W. open_curve W. rewrite ef. cbn [modulus]. intros Vx Vy Vt Vz.
  destruct (valid_ex _ _ Vx) as [X EX], (valid_ex _ _ Vy) as [Y EY], (valid_ex _ _ Vt) as [T ET], (valid_ex _ _ Vz) as [Z EZ].
  assert (EC : c = mk p Hp X Y T Z) by (unfold mk; rewrite <- EX, <- EY, <- ET, <- EZ; destruct c; reflexivity).
  rewrite EC. destruct (on_curve_mk p Hp Hp2 a d e ea ed X Y T Z) as (t & -> & Ht). exists t. split; [reflexivity|].
  cbn [mk px py ptt pz val fe].
  assert (Z0 : forall u : ZpF p Hp, u = F0 <-> zv u = 0).
  { intro u. split; [intros ->; reflexivity|]. intro E. apply Zp_eq. rewrite E. reflexivity. }
  rewrite <- !Z0, Ht. split.
  - intro H. destruct (etest_cases _ a d AS AN DN X Y T Z H) as [H0|(A & R & O)]; [right; exact H0|left].
    exists (zz p Hp A). apply WP. exists A. split; [reflexivity|]. apply wrep_mk; assumption.
  - intros [[A H]|(-> & -> & -> & ->)].
    + apply WP in H. destruct H as (A' & _ & (_ & (X' & Y' & T' & Z' & E & R) & O)). cbn [pc] in E.
      assert (E1 : X = X') by (apply (fe_inj p); exact (f_equal px E)).
      assert (E2 : Y = Y') by (apply (fe_inj p); exact (f_equal py E)).
      assert (E3 : T = T') by (apply (fe_inj p); exact (f_equal ptt E)).
      assert (E4 : Z = Z') by (apply (fe_inj p); exact (f_equal pz E)). subst.
      apply (erep_on _ a d _ _ _ _ _ R). exact O.
    + split; apply Zp_eq; reflexivity.
Qed.

(** *** C37 *)
Lemma same_wrep p Hp (Hp2 : 2 < p) a d e x y L M A :
  x = Ret L -> y = Ret M -> wrep p Hp a d e L A -> wrep p Hp a d e M A -> same x y.
Proof.
  intros -> -> HL HM. exists L, M. repeat split.
  destruct (eqb_wrep p Hp Hp2 a d e L M A A HL HM) as (t & -> & Ht). f_equal. apply Ht. reflexivity.
Qed.
Lemma c37_associative : forall e P Q R A B C, edw e -> epoint e P A -> epoint e Q B -> epoint e R C ->
  same (bind (pt_add P Q) (fun S => pt_add S R)) (bind (pt_add Q R) (fun S => pt_add P S)).
Proof.
  intros e P Q R A B C W HP HQ HR. open_curve W. open_point HP. open_point HQ. open_point HR.
  destruct (add_wrep p Hp Hp2 a d e ea ed AS DN P Q _ _ RP RQ) as (S & -> & HS). cbn [bind].
  destruct (add_wrep p Hp Hp2 a d e ea ed AS DN Q R _ _ RQ RR) as (T & -> & HT). cbn [bind].
  destruct (add_wrep p Hp Hp2 a d e ea ed AS DN S R _ _ HS RR) as (L & E1 & HL).
  destruct (add_wrep p Hp Hp2 a d e ea ed AS DN P T _ _ RP HT) as (M & E2 & HM).
  apply (same_wrep p Hp Hp2 a d e _ _ L M _ E1 E2 HL).
  rewrite (eadd_assoc _ a d (two_K p Hp Hp2) AS DN); [exact HM|apply RP|apply RQ|apply RR].
Qed.
Lemma c37_commutative : forall e P Q A B, edw e -> epoint e P A -> epoint e Q B ->
  same (pt_add P Q) (pt_add Q P).
Proof.
  intros e P Q A B W HP HQ. open_curve W. open_point HP. open_point HQ.
  destruct (add_wrep p Hp Hp2 a d e ea ed AS DN P Q _ _ RP RQ) as (L & E1 & HL).
  destruct (add_wrep p Hp Hp2 a d e ea ed AS DN Q P _ _ RQ RP) as (M & E2 & HM).
  apply (same_wrep p Hp Hp2 a d e _ _ L M _ E1 E2 HL).
  rewrite (eadd_comm _ a d). exact HM.
Qed.
Lemma c37_identity_and_inverse : forall e P A, edw e -> epoint e P A ->
  same (bind (identity e) (fun O => pt_add P O)) (Ret P) /\ same (bind (identity e) (fun O => pt_add O P)) (Ret P)
  /\ same (bind (pt_neg P) (fun N => pt_add P N)) (identity e) /\ same (pt_sub P P) (identity e).
Proof.
  intros e P A W HP. open_curve W. open_point HP.
  destruct (identity_wrep p Hp Hp2 a d e ef ea ed) as (O & EO & HO). rewrite !EO. cbn [bind].
  destruct (neg_wrep p Hp Hp2 a d e ea ed P _ RP) as (N & EN & HN). rewrite EN. cbn [bind].
  destruct (add_wrep p Hp Hp2 a d e ea ed AS DN P O _ _ RP HO) as (L1 & E1 & H1).
  destruct (add_wrep p Hp Hp2 a d e ea ed AS DN O P _ _ HO RP) as (L2 & E2 & H2).
  destruct (add_wrep p Hp Hp2 a d e ea ed AS DN P N _ _ RP HN) as (L3 & E3 & H3).
  destruct (sub_wrep p Hp Hp2 a d e ea ed AS DN P P _ _ RP RP) as (L4 & E4 & H4).
  rewrite eadd_zero in H1. rewrite eadd_0_l in H2. rewrite (eadd_opp _ a d (two_K p Hp Hp2) AS DN) in H3, H4 by apply RP.
  repeat split; eapply (same_wrep p Hp Hp2 a d e); eauto.
Qed.
Lemma c37_equality_is_congruence : forall e P P' Q Q' A A' B B', edw e ->
  epoint e P A -> epoint e P' A' -> epoint e Q B -> epoint e Q' B' ->
  pt_eqb P P' = Ret true -> pt_eqb Q Q' = Ret true ->
  same (pt_add P Q) (pt_add P' Q') /\ same (pt_sub P Q) (pt_sub P' Q') /\ same (pt_neg P) (pt_neg P').
Proof.
  intros e P P' Q Q' A A' B B' W HP HP' HQ HQ' E1 E2. open_curve W.
  apply WP in HP as (A0 & -> & RP), HP' as (A0' & -> & RP'), HQ as (B0 & -> & RQ), HQ' as (B0' & -> & RQ').
  destruct (eqb_wrep p Hp Hp2 a d e _ _ _ _ RP RP') as (t1 & F1 & G1).
  destruct (eqb_wrep p Hp Hp2 a d e _ _ _ _ RQ RQ') as (t2 & F2 & G2).
  rewrite F1 in E1. rewrite F2 in E2. injection E1 as E1. injection E2 as E2. apply G1 in E1. apply G2 in E2. subst A0' B0'.
  destruct (add_wrep p Hp Hp2 a d e ea ed AS DN P Q _ _ RP RQ) as (L1 & X1 & Y1).
  destruct (add_wrep p Hp Hp2 a d e ea ed AS DN P' Q' _ _ RP' RQ') as (L2 & X2 & Y2).
  destruct (sub_wrep p Hp Hp2 a d e ea ed AS DN P Q _ _ RP RQ) as (L3 & X3 & Y3).
  destruct (sub_wrep p Hp Hp2 a d e ea ed AS DN P' Q' _ _ RP' RQ') as (L4 & X4 & Y4).
  destruct (neg_wrep p Hp Hp2 a d e ea ed P _ RP) as (L5 & X5 & Y5).
  destruct (neg_wrep p Hp Hp2 a d e ea ed P' _ RP') as (L6 & X6 & Y6).
  repeat split; eapply (same_wrep p Hp Hp2 a d e); eauto.
Qed.

(** *** C37 *)
(** k * P is the k-fold sum of P *)
Lemma c37_scalar_multiplication : forall oc e P A k, edw e -> epoint e P A -> valid_scalar (c_r e) k ->
  Z.log2 (c_r e) < 2 ^ 63 -> (oc = true -> sk k <> 0) ->
  exists R, pt_mul oc P k = Ret R /\ forall C, epoint e R C <-> multiple (esum e) (0, 1) A (Z.to_nat (sk k)) C.
Proof.
  intros oc e P A k W HP (Er & Hk) H64 H0. open_curve W. open_point HP.
  destruct (Z.eq_dec (sk k) 0) as [E|N].
  - destruct oc; [destruct (H0 eq_refl E)|]. destruct k as [k r]. cbn [sk sr] in *. subst k.
    destruct (mul_zero_wrep p Hp Hp2 a d e ef ea ed false P _ r RP Er) as (R & HR & ->).
    exists R. split; [reflexivity|]. intro C. rewrite WM by apply RP. apply (wrep_iff _ _ _ _ _ _ _ WP HR).
  - destruct (mul_wrep p Hp Hp2 a d e ef ea ed AS DN oc P _ k RP Er ltac:(lia) (bits_small _ _ Hk H64)) as (R & E & HR).
    exists R. split; [exact E|]. intro C. rewrite WM by apply RP. apply (wrep_iff _ _ _ _ _ _ _ WP HR).
Qed.
(** with overflow checks the zero scalar panics instead of giving the identity *)
Lemma c37_zero_scalar_panics : forall e P A, edw e -> epoint e P A ->
  pt_mul true P (mkScalar 0 (c_r e)) = Panic "attempt to subtract with overflow".
Proof.
  intros e P A W HP. open_curve W. open_point HP.
  destruct (mul_zero_wrep p Hp Hp2 a d e ef ea ed true P _ (c_r e) RP eq_refl) as (R & HR & ->). reflexivity.
Qed.
Lemma enmul_mod p Hp (Hp2 : 2 < p) (a d : ZpF p Hp) (AS : exists s : ZpF p Hp, Fmul s s = a)
  (DN : forall s : ZpF p Hp, Fmul s s <> d)
  r k A : Edwards.eon (ZpF p Hp) a d A -> 0 < r -> 0 <= k -> enmul p Hp a d (Z.to_nat r) A = ezero _ ->
  enmul p Hp a d (Z.to_nat (k mod r)) A = enmul p Hp a d (Z.to_nat k) A.
Proof.
  intros O Hr Hk Z0. pose proof (Z.mod_pos_bound k r Hr) as Hm.
  assert (Hq : 0 <= k / r) by (apply Z.div_pos; lia).
  assert (G : forall n, enmul p Hp a d (n * Z.to_nat r) A = ezero _).
  { induction n as [|n IH]; [reflexivity|]. cbn [Nat.mul].
    rewrite <- (enmul_add p Hp Hp2 a d AS DN) by exact O. rewrite Z0, IH. apply eadd_zero. }
  assert (E : Z.to_nat k = (Z.to_nat (k / r) * Z.to_nat r + Z.to_nat (k mod r))%nat).
  { pose proof (Z.div_mod k r ltac:(lia)). apply Nat2Z.inj. rewrite Nat2Z.inj_add, Nat2Z.inj_mul, !Z2Nat.id by lia. lia. }
  rewrite E, <- (enmul_add p Hp Hp2 a d AS DN) by exact O. rewrite G. symmetry. apply eadd_0_l.
Qed.
(** on points killed by r, scalar multiplication is a homomorphism from the scalars modulo r *)
Lemma c37_homomorphism : forall e P A k l, edw e -> epoint e P A ->
  valid_scalar (c_r e) k -> valid_scalar (c_r e) l -> Z.log2 (c_r e) < 2 ^ 63 ->
  multiple (esum e) (0, 1) A (Z.to_nat (c_r e)) (0, 1) ->
  same (bind (pt_mul false P k) (fun X => bind (pt_mul false P l) (fun Y => pt_add X Y)))
       (bind (sc_add k l) (fun m => pt_mul false P m))
  /\ same (bind (pt_mul false P k) (fun X => pt_mul false X l))
       (bind (sc_mul k l) (fun m => pt_mul false P m)).
Proof.
  intros e P A k l W HP Vk Vl H64 HO. open_curve W. open_point HP.
  assert (M : forall m Q B, valid_scalar (c_r e) m -> wrep p Hp a d e Q B ->
    exists R, pt_mul false Q m = Ret R /\ wrep p Hp a d e R (enmul p Hp a d (Z.to_nat (sk m)) B)).
  { intros m Q B (Er & Hm) RQ. destruct (Z.eq_dec (sk m) 0) as [E|N].
    - destruct m as [m r]. cbn [sk sr] in *. subst m.
      destruct (mul_zero_wrep p Hp Hp2 a d e ef ea ed false Q _ r RQ Er) as (R & HR & ->). eauto.
    - destruct (mul_wrep p Hp Hp2 a d e ef ea ed AS DN false Q _ m RQ Er ltac:(lia) (bits_small _ _ Hm H64)) as (R & E & HR).
      eauto. }
  destruct Vk as (Ek & Hk). destruct Vl as (El & Hl).
  assert (Hr : 0 < c_r e) by lia.
  apply WM in HO; [|apply RP]. rewrite <- (zz_zero p Hp Hp2) in HO. symmetry in HO. apply zz_inj in HO.
  destruct (M k P _ (conj Ek Hk) RP) as (X & -> & HX). destruct (M l P _ (conj El Hl) RP) as (Y & EY & HY). cbn [bind].
  destruct (c20_scalar_ring (c_r e) k l Hr Ek El) as ((c1 & E1 & S1 & R1) & _ & (c3 & E3 & S3 & R3) & _).
  assert (RM : forall c n, residue (c_r e) n c -> 0 <= n -> c = n mod c_r e).
  { intros c n (Hc & [q Eq]) _. apply Z.mod_unique with q; lia. }
  split.
  - rewrite EY, E1. cbn [bind].
    destruct (add_wrep p Hp Hp2 a d e ea ed AS DN X Y _ _ HX HY) as (L & EL & HL).
    destruct (M c1 P _ (conj S1 (proj1 R1)) RP) as (N & EN & HN).
    apply (same_wrep p Hp Hp2 a d e _ _ L N _ EL EN HL).
    rewrite (enmul_add p Hp Hp2 a d AS DN) by apply RP.
    rewrite (RM _ _ R1) in HN by lia. rewrite (enmul_mod p Hp Hp2 a d AS DN) in HN by (assumption || lia || apply RP).
    rewrite Z2Nat.inj_add in HN by lia. exact HN.
  - rewrite E3. cbn [bind].
    destruct (M l X _ (conj El Hl) HX) as (L & EL & HL).
    destruct (M c3 P _ (conj S3 (proj1 R3)) RP) as (N & EN & HN).
    apply (same_wrep p Hp Hp2 a d e _ _ L N _ EL EN HL).
    rewrite (RM _ _ R3) in HN by nia. rewrite (enmul_mod p Hp Hp2 a d AS DN) in HN by (assumption || nia || apply RP).
    rewrite Z.mul_comm, Z2Nat.inj_mul in HN by lia. rewrite (enmul_mul p Hp Hp2 a d AS DN) by apply RP. exact HN.
Qed.

(** *** C38 *)
(** is_zero exactly when x = 0, that is on the identity (0,1) and on the point (0,-1) of order 2 *)
Lemma c38_is_zero : forall e P A, edw e -> epoint e P A ->
  (pt_is_zero P = true <-> fst A = 0) /\ (fst A = 0 <-> A = (0, 1) \/ A = (0, modulus (c_f e) - 1)).
Proof.
  intros e P A W HP. open_curve W. open_point HP. rewrite ef. cbn [modulus].
  assert (Z0 : forall u : ZpF p Hp, u = F0 <-> zv u = 0).
  { intro u. split; [intros ->; reflexivity|]. intro E. apply Zp_eq. rewrite E. reflexivity. }
  split; [rewrite (is_zero_wrep p Hp a d e P _ RP); apply Z0|].
  destruct A' as [x y]. unfold zz. cbn [fst snd]. split.
  - intro E. apply Z0 in E. subst x.
    assert (Z1 : zv (F1 : ZpF p Hp) = 1) by (change (1 mod p = 1); apply Z.mod_small; lia).
    assert (Zm1 : zv (Fopp F1 : ZpF p Hp) = p - 1).
    { change ((- zv (F1 : ZpF p Hp)) mod p = p - 1). rewrite Z1. symmetry. apply Z.mod_unique with (-1); lia. }
    destruct (x_zero_y _ a d y (proj2 (proj2 RP))) as [-> | ->]; [left|right]; f_equal; assumption.
  - intros [E|E]; exact (f_equal fst E).
Qed.
(** on the identity the test is true *)
Lemma c38_identity_is_zero : forall e, edw e -> exists I, identity e = Ret I /\ epoint e I (0, 1) /\ pt_is_zero I = true.
Proof.
  intros e W. open_curve W. destruct (identity_wrep p Hp Hp2 a d e ef ea ed) as (I & EI & HI). exists I. split; [exact EI|].
  split; [apply WP; exists (ezero _); split; [symmetry; apply zz_zero; exact Hp2|exact HI]|].
  apply (is_zero_wrep p Hp a d e I _ HI). reflexivity.
Qed.
(** on every curve some point other than the identity is reported as zero *)
Lemma c38_other_zero_point : forall e, edw e -> exists P I, epoint e P (0, modulus (c_f e) - 1)
  /\ pt_is_zero P = true /\ identity e = Ret I /\ pt_eqb P I = Ret false.
Proof.
  intros e W. open_curve W.
  assert (Z1 : zv (F1 : ZpF p Hp) = 1) by (change (1 mod p = 1); apply Z.mod_small; lia).
  assert (Zm1 : zv (Fopp F1 : ZpF p Hp) = p - 1).
  { change ((- zv (F1 : ZpF p Hp)) mod p = p - 1). rewrite Z1. symmetry. apply Z.mod_unique with (-1); lia. }
  set (P := mkPoint e (mk p Hp F0 (Fopp F1) (Fmul F0 (Fopp F1)) F1)).
  assert (RP : wrep p Hp a d e P (F0, Fopp F1)).
  { apply wrep_mk; [apply erep_one|apply opp_one_sq]. }
  destruct (identity_wrep p Hp Hp2 a d e ef ea ed) as (I & EI & HI). exists P, I. split; [|split; [|split; [exact EI|]]].
  - apply WP. exists (F0, Fopp F1). split; [|exact RP]. unfold zz. cbn [fst snd]. rewrite Zm1, ef. reflexivity.
  - apply (is_zero_wrep p Hp a d e P _ RP). reflexivity.
  - destruct (eqb_wrep p Hp Hp2 a d e P I _ _ RP HI) as (t & -> & Ht). destruct t; [|reflexivity]. exfalso.
    pose proof (proj1 Ht eq_refl) as E. apply (f_equal snd) in E. cbn in E. apply (opp1_neq1 _ (two_K p Hp Hp2)). symmetry. exact E.
Qed.
Lemma c38_is_zero_iff_identity_refuted : exists e P I, edw e /\ epoint e P (0, modulus (c_f e) - 1)
  /\ identity e = Ret I /\ pt_is_zero P = true /\ pt_eqb P I = Ret false.
Proof.
  set (n13 v := mkFpElt v (mkFp 13)). set (e := mkCurve (mkFp 13) (n13 12) (n13 2) 3 (n13 0) (n13 1) 4).
  assert (W : edw e).
  { split; [apply prime_small; reflexivity|]. cbn [e c_f c_a c_d n13 val modulus]. split; [lia|].
    do 2 (split; [split; [reflexivity|cbn; lia]|]). split; [intros [k E]; lia|]. split; [exists 5; exists 1; reflexivity|].
    apply (no_root_small 13 (fun x => x * x - 2)); [lia| |reflexivity].
    intro x. pose proof (Z.div_mod x 13 ltac:(lia)) as D. exists (x / 13 * (x + x mod 13)).
    set (q := x / 13) in *. set (r := x mod 13) in *. rewrite D. ring. }
  destruct (c38_other_zero_point e W) as (P & I & H1 & H2 & H3 & H4). exists e, P, I. auto.
Qed.

(** *** C32 *)
Lemma c32_edw_equality : forall e P Q A B, edw e -> epoint e P A -> epoint e Q B ->
  exists t, pt_eqb P Q = Ret t /\ (t = true <-> A = B).
Proof.
  intros e P Q A B W HP HQ. open_curve W. open_point HP. open_point HQ.
  destruct (eqb_wrep p Hp Hp2 a d e P Q _ _ RP RQ) as (t & -> & Ht). exists t. split; [reflexivity|].
  rewrite Ht. split; [congruence|apply zz_inj].
Qed.
(** a point represents one affine point, and every point of the curve is represented *)
Lemma c32_edw_representation : forall e, edw e ->
  (forall P A B, epoint e P A -> epoint e P B -> A = B)
  /\ (forall A, eon e A -> exists P, epoint e P A).
Proof.
  intros e W. open_curve W. split.
  - intros P A B HA HB. apply WP in HA as (A0 & -> & RA), HB as (B0 & -> & RB). f_equal. eapply wrep_fun; eassumption.
  - intros A HA. destruct (WU A HA) as ([x y] & -> & O).
    exists (mkPoint e (mk p Hp x y (Fmul x y) F1)). apply WP. exists (x, y). split; [reflexivity|].
    apply wrep_mk; [apply erep_one|exact O].
Qed.
(** the tuple (0,0,0,0) passes the curve test and is equal to every point: the equality above holds only
    because no operation produces it (C36, C37) *)
Lemma c32_edw_zero_tuple : forall e P A, edw e -> epoint e P A ->
  let z := mkFpElt 0 (c_f e) in let O := mkPoint e (mkProy z z z z) in
  is_on_curve e (pc O) = Ret true /\ pt_eqb O P = Ret true /\ pt_eqb P O = Ret true /\ (forall B, ~ epoint e O B).
Proof.
  intros e P A W HP z O. open_curve W. open_point HP. destruct RP as (EP & (X & Y & T & Z & EC & R) & _).
  assert (EO : pc O = mk p Hp F0 F0 F0 F0) by (unfold O, z, mk, fe; rewrite ef; reflexivity).
  assert (M0 : forall u : ZpF p Hp, zmul u (of_Z p 0) = of_Z p 0) by (intro u; apply Zp_eq; cbn; rewrite Z.mul_0_r; reflexivity).
  assert (M1 : forall u : ZpF p Hp, zmul (of_Z p 0) u = of_Z p 0) by (intro u; apply Zp_eq; cbn; reflexivity).
  split; [|split; [|split]].
  - rewrite EO. destruct (on_curve_mk p Hp Hp2 a d e ea ed F0 F0 F0 F0) as (t & -> & Ht). f_equal. apply Ht.
    split; apply Zp_eq; reflexivity.
  - unfold pt_eqb. rewrite EO, EC, EP. cbn [pe O mk px py ptt pz]. rewrite curve_eqb_refl. fes. f_equal. cbn [andb].
    rewrite !andb_true_iff. repeat split; apply fpelt_eqb_fe; (etransitivity; [apply M1|symmetry; apply M1]).
  - unfold pt_eqb. rewrite EO, EC, EP. cbn [pe O mk px py ptt pz]. rewrite curve_eqb_refl. fes. f_equal. cbn [andb].
    rewrite !andb_true_iff. repeat split; apply fpelt_eqb_fe; (etransitivity; [apply M0|symmetry; apply M0]).
  - intros [x y] (_ & _ & _ & _ & _ & (R' & _) & _). apply R'. reflexivity.
Qed.

(** *** C31 *)
(** normalize keeps every point, the identity included *)
Lemma c31_edw_normalize : forall e P A, edw e -> epoint e P A ->
  exists R, normalize P = Ret R /\ epoint e R A
    /\ val (px (pc R)) = fst A /\ val (py (pc R)) = snd A /\ val (pz (pc R)) = 1.
Proof.
  intros e P A W HP. open_curve W. open_point HP.
  rewrite (normalize_wrep p Hp Hp2 a d e P A' RP). eexists. split; [reflexivity|]. split.
  - apply WP. exists A'. split; [reflexivity|]. destruct A' as [x y]. apply wrep_mk; [apply erep_one|apply RP].
  - repeat split. cbn. apply Z.mod_small. lia.
Qed.

(** *** C39 *)
(** fixed length, y little-endian with the low bit of x on top, whatever the compression flag *)
Lemma c39_encode : forall e P x y c n, edw e -> epoint e P (x, y) -> ed_size (modulus (c_f e)) n ->
  exists buf, encode P c = Ret buf /\ ed_text n x y buf.
Proof.
  intros e P x y c n W HP Hn. open_curve W. pose proof HP as H. apply WP in H. destruct H as ([u v] & EA & RP).
  pose proof (f_equal fst EA) as E1. pose proof (f_equal snd EA) as E2. cbn in E1, E2. subst x y.
  rewrite ef in Hn. cbn [modulus] in Hn. rewrite (ed_size_unique p Hp2 n Hn). apply (encode_wrep p Hp Hp2 a d e ef P (u, v) c RP).
Qed.
(** the size is floor(bits(p)/8) + 1 *)
Lemma c39_size : forall p n, 2 < p -> (ed_size p n <-> n = (Z.log2 p + 1) / 8 + 1).
Proof.
  intros p n Hp2.
  assert (E : enc_size (mkFp p) = (Z.log2 p + 1) / 8 + 1).
  { unfold enc_size. cbn [modulus]. unfold bits. destruct (Z.eqb_spec p 0); [lia|]. rewrite Z.abs_eq by lia.
    replace (Z.log2 p + 1 + 1 + 7) with (Z.log2 p + 1 + 1 * 8) by lia. apply Z.div_add. lia. }
  rewrite <- E. split; [apply ed_size_unique, Hp2|intros ->; apply ne_ed_size, Hp2].
Qed.
Section Decode.
  Variables (p : Z) (Hp : prime p) (Hp2 : 2 < p) (a d : ZpF p Hp) (e : Curve).
  Hypotheses (ef : c_f e = mkFp p) (ea : c_a e = fe a) (ed : c_d e = fe d)
    (AS : exists s : ZpF p Hp, Fmul s s = a) (AN : a <> F0) (DN : forall s : ZpF p Hp, Fmul s s <> d) (Hm : sqrt_modulus p).
  Local Notation ne := (enc_size (mkFp p)).
  Lemma same_point (x x' y : ZpF p Hp) : Edwards.eon _ a d (x, y) -> Edwards.eon _ a d (x', y) -> zv x mod 2 = zv x' mod 2 -> x = x'.
  Proof.
    intros O O' E. apply (eon_xx _ a d AS AN DN) in O, O'. rewrite <- O' in O.
    destruct (Fsqr_eq _ _ _ O) as [?|E']; [assumption|].
    destruct (Feqd x' F0) as [->|N]; [rewrite E'; apply (WeierP.Fopp_0 (ZpF p Hp))|].
    exfalso. subst x. rewrite !Zmod_even, (WeierP.parity_opp p Hp Hp2) in E by exact N. destruct (Z.even (zv x')); discriminate E.
  Qed.
  Lemma text_decodes (x y : ZpF p Hp) buf : Edwards.eon _ a d (x, y) -> ed_text ne (zv x) (zv y) buf ->
    exists Q, decode e buf = Ret (Ok Q) /\ wrep p Hp a d e Q (x, y).
  Proof.
    intros O (L & B & V).
    destruct (decode_cases p Hp Hp2 a d e ef ea ed AS AN DN Hm buf B) as [(L' & _)|(v & s & _ & Rv & Rs & V' & C)]; [contradiction|].
    destruct (p_half p Hp2) as (_ & Ph & _). pose proof (zv_range p y ltac:(lia)) as Ry. pose proof (Z.mod_pos_bound (zv x) 2 ltac:(lia)).
    rewrite V in V'. apply (split_unique p) in V'; [|lia|lia|lia|lia]. destruct V' as [<- <-]. rewrite of_Z_zv in C.
    destruct C as [(G & _)|[(S1 & _ & X0 & _)|[(_ & x' & Q & D & R & E)|(_ & _ & N & _)]]].
    - lia.
    - exfalso. apply (eon_xx _ a d AS AN DN) in O. rewrite X0 in O. apply (Fsqr_zero (ZpF p Hp)) in O. subst x. discriminate S1.
    - exists Q. split; [exact D|]. rewrite <- (same_point x' x y); [exact R|apply R|exact O|exact E].
    - destruct (N x O).
  Qed.
  Lemma ok_text buf Q : Forall is_byte buf -> decode e buf = Ret (Ok Q) ->
    exists A, wrep p Hp a d e Q A /\ ed_text ne (zv (fst A)) (zv (snd A)) buf.
  Proof.
    intros B D. destruct (decode_cases p Hp Hp2 a d e ef ea ed AS AN DN Hm buf B) as [(L' & m & E)|(v & s & L & Rv & Rs & V & C)]; [congruence|].
    destruct C as [(_ & m & E)|[(_ & _ & _ & m & E)|[(G & x & Q' & D' & R & E)|(_ & _ & _ & m & E)]]]; try congruence.
    rewrite D' in D. injection D as <-. exists (x, of_Z p v). split; [exact R|]. cbn [fst snd].
    split; [exact L|]. split; [exact B|]. rewrite V, E, zv_of_Z, Z.mod_small by lia. reflexivity.
  Qed.
End Decode.
Lemma c39_round_trip : forall e P A c, edw e -> sqrt_modulus (modulus (c_f e)) -> epoint e P A ->
  exists buf Q, encode P c = Ret buf /\ decode e buf = Ret (Ok Q) /\ epoint e Q A /\ pt_eqb Q P = Ret true.
Proof.
  intros e P A c W Hm HP. open_curve W. open_point HP. rewrite ef in Hm. destruct A' as [x y].
  destruct (encode_wrep p Hp Hp2 a d e ef P (x, y) c RP) as (buf & E & T). exists buf.
  destruct (text_decodes p Hp Hp2 a d e ef ea ed AS AN DN Hm x y buf (proj2 (proj2 RP)) T) as (Q & D & RQ).
  exists Q. split; [exact E|]. split; [exact D|]. split; [apply WP; eauto|].
  destruct (eqb_wrep p Hp Hp2 a d e Q P _ _ RQ RP) as (t & -> & Ht). f_equal. apply Ht. reflexivity.
Qed.
(** decode answers Ok exactly on the encodings of the points of the curve *)
Lemma c39_decode_ok : forall e buf n, edw e -> sqrt_modulus (modulus (c_f e)) -> Forall is_byte buf ->
  ed_size (modulus (c_f e)) n ->
  (forall Q, decode e buf = Ret (Ok Q) -> exists x y, ed_text n x y buf /\ eon e (x, y) /\ epoint e Q (x, y))
  /\ (forall x y, ed_text n x y buf -> eon e (x, y) -> exists Q, decode e buf = Ret (Ok Q) /\ epoint e Q (x, y)).
Proof.
  intros e buf n W Hm B Hn. open_curve W. rewrite ef in Hn, Hm. cbn [modulus] in Hn, Hm. rewrite (ed_size_unique p Hp2 n Hn). split.
  - intros Q D. destruct (ok_text p Hp Hp2 a d e ef ea ed AS AN DN Hm buf Q B D) as ([x y] & R & T).
    exists (zv x), (zv y). split; [exact T|]. split; [apply (WO (x, y)), R|]. apply WP. exists (x, y). auto.
  - intros x y T O. pose proof O as (Cx & Cy & _). rewrite ef in Cx, Cy. cbn [modulus] in *.
    destruct (coord_K p Hp x Cx) as [u ->], (coord_K p Hp y Cy) as [v ->].
    destruct (text_decodes p Hp Hp2 a d e ef ea ed AS AN DN Hm u v buf (proj2 (WO (u, v)) O) T) as (Q & D & RQ).
    exists Q. split; [exact D|]. apply WP. exists (u, v). auto.
Qed.
(** the encoding is canonical: whatever decode accepts is the encoding of the point it returns *)
Lemma c39_decode_encode : forall e buf Q c, edw e -> sqrt_modulus (modulus (c_f e)) -> Forall is_byte buf ->
  decode e buf = Ret (Ok Q) -> encode Q c = Ret buf.
Proof.
  intros e buf Q c W Hm B D. open_curve W. rewrite ef in Hm.
  destruct (ok_text p Hp Hp2 a d e ef ea ed AS AN DN Hm buf Q B D) as (A & R & T).
  destruct (encode_wrep p Hp Hp2 a d e ef Q A c R) as (buf' & -> & T'). f_equal. eapply ed_text_unique; eassumption.
Qed.
(** different points have different encodings, whatever the modulus *)
Lemma c39_encode_injective : forall e P Q A B c c' buf, edw e ->
  epoint e P A -> epoint e Q B -> encode P c = Ret buf -> encode Q c' = Ret buf -> A = B.
Proof.
  intros e P Q A B c c' buf W HP HQ EP EQ.
  assert (Hn : ed_size (modulus (c_f e)) ((Z.log2 (modulus (c_f e)) + 1) / 8 + 1)) by (apply c39_size; [apply W|reflexivity]).
  set (n := (Z.log2 (modulus (c_f e)) + 1) / 8 + 1) in *. clearbody n.
  open_curve W. pose proof HP as H1. pose proof HQ as H2. apply WP in H1. apply WP in H2. destruct H1 as ([u v] & -> & R1), H2 as ([u' v'] & -> & R2).
  destruct (c39_encode e P _ _ c n W HP Hn) as (b1 & E1 & (_ & _ & V1)). destruct (c39_encode e Q _ _ c' n W HQ Hn) as (b2 & E2 & (_ & _ & V2)).
  assert (b1 = buf) by congruence. assert (b2 = buf) by congruence. subst b1 b2. rewrite V1 in V2. clear V1.
  rewrite ef in Hn. cbn [modulus] in Hn. assert (Hb : 2 * p < 2 ^ (8 * n)).
  { destruct Hn as (Hn0 & _ & Hn). replace (2 ^ (8 * n)) with (256 ^ n); [exact Hn|]. rewrite Z.pow_mul_r by lia. reflexivity. }
  assert (Hn0 : 0 < n) by apply Hn. replace (8 * n) with (Z.succ (8 * n - 1)) in Hb by lia. rewrite Z.pow_succ_r in Hb by lia.
  pose proof (zv_range p u ltac:(lia)) as Ru. pose proof (zv_range p v ltac:(lia)) as Rv. pose proof (zv_range p u' ltac:(lia)) as Ru'. pose proof (zv_range p v' ltac:(lia)) as Rv'.
  pose proof (Z.mod_pos_bound (zv u) 2 ltac:(lia)) as M1. pose proof (Z.mod_pos_bound (zv u') 2 ltac:(lia)) as M2.
  change (zv v + zv u mod 2 * 2 ^ (8 * n - 1) = zv v' + zv u' mod 2 * 2 ^ (8 * n - 1)) in V2.
  assert (PE : zv u mod 2 = zv u' mod 2 /\ zv v = zv v').
  { revert V2 Hb Rv Rv' M1 M2. generalize (zv u mod 2) (zv u' mod 2) (zv v) (zv v') (2 ^ (8 * n - 1)). intros s s' w w' N. intros. assert (s = s') by nia. split; [assumption|]. subst s'. lia. }
  destruct PE as (PE & VE). apply Zp_eq in VE. subst v'.
  pose proof (proj1 (eon_xx (ZpF p Hp) a d AS AN DN u v) (proj2 (proj2 R1))) as X1. pose proof (proj1 (eon_xx (ZpF p Hp) a d AS AN DN u' v) (proj2 (proj2 R2))) as X2.
  rewrite <- X2 in X1. destruct (Fsqr_eq (ZpF p Hp) u u' X1) as [->|N]; [reflexivity|].
  assert (Z1 : zv u = (- zv u') mod p) by (rewrite N; reflexivity). f_equal.
  destruct (Z.eq_dec (zv u') 0) as [Z0|Z0].
  - f_equal. apply Zp_eq. rewrite Z0 in Z1 |- *. exact Z1.
  - exfalso. assert (Z2 : zv u = p - zv u') by (rewrite Z1; symmetry; apply (Z.mod_unique _ p (-1)); lia).
    assert (Od : p mod 2 = 1).
    { destruct (Z.eq_dec (p mod 2) 0) as [E|E]; [|pose proof (Z.mod_pos_bound p 2 ltac:(lia)); lia]. apply Z.mod_divide in E; [|lia].
      apply (prime_div_prime 2 p prime_2 Hp) in E. lia. }
    rewrite Z2, Zminus_mod, Od in PE. assert (zv u' mod 2 = 0 \/ zv u' mod 2 = 1) as [E|E] by lia; rewrite E in PE; discriminate PE.
Qed.
(** Err exactly on a wrong length, on a value y not below p, and on the sign bit set with x = 0 (y = 1 or -1) *)
Lemma c39_decode_err : forall e buf n, edw e -> sqrt_modulus (modulus (c_f e)) -> Forall is_byte buf ->
  ed_size (modulus (c_f e)) n ->
  ((exists m, decode e buf = Ret (Err m)) <->
   Z.of_nat (length buf) <> n \/
   exists y s, le_value buf = y + s * 2 ^ (8 * n - 1) /\ 0 <= y < 2 ^ (8 * n - 1) /\ 0 <= s <= 1
     /\ (modulus (c_f e) <= y \/ (s = 1 /\ (modulus (c_f e) | y * y - 1)))).
Proof.
  intros e buf n W Hm B Hn. open_curve W. rewrite ef in Hn, Hm |- *. cbn [modulus] in Hn, Hm |- *. rewrite (ed_size_unique p Hp2 n Hn).
  assert (XX : forall y, xx (ZpF p Hp) a d (of_Z p y) = F0 <-> (p | y * y - 1)).
  { intro y. rewrite (xx_zero (ZpF p Hp) a d AS AN DN). rewrite <- of_Z_div by lia. rewrite of_Z_mul. reflexivity. }
  destruct (decode_cases p Hp Hp2 a d e ef ea ed AS AN DN Hm buf B) as [(L' & m & E)|(v & s & L & Rv & Rs & V & C)].
  - split; [intros _; left; exact L'|eauto].
  - split.
    + intros (m & D). right. exists v, s. do 3 (split; [assumption|]).
      destruct C as [(G & _)|[(S1 & _ & X0 & _)|[(G & x & Q' & D' & R & E)|(_ & _ & _ & m' & E)]]]; try congruence; [left; exact G|right].
      split; [exact S1|]. apply XX, X0.
    + intros [L'|(y & t & V' & Ry & Rt & C')]; [contradiction|]. rewrite V in V'. apply (split_unique p) in V'; [|lia|lia|lia|lia].
      destruct V' as [<- <-].
      destruct C as [(G & E)|[(S1 & _ & X0 & E)|[(G & x & Q' & D' & R & E)|(G & [S0|X0] & N & m' & E)]]]; try exact E; exfalso.
      * destruct C' as [C'|(S1 & X0)]; [lia|]. apply XX in X0. destruct R as (_ & _ & O). apply (eon_xx _ a d AS AN DN) in O. rewrite X0 in O.
        apply (Fsqr_zero (ZpF p Hp)) in O. subst x. rewrite S1 in E. discriminate E.
      * destruct C' as [C'|(S1 & _)]; lia.
      * destruct C' as [C'|(_ & X1)]; [lia|]. apply X0, XX, X1.
Qed.
(** panic exactly when the length and the value y are right but no point of the curve has this y *)
Lemma c39_decode_panics : forall e buf n, edw e -> sqrt_modulus (modulus (c_f e)) -> Forall is_byte buf ->
  ed_size (modulus (c_f e)) n ->
  ((exists m, decode e buf = Panic m) <->
   Z.of_nat (length buf) = n /\
   exists y s, le_value buf = y + s * 2 ^ (8 * n - 1) /\ 0 <= y < modulus (c_f e) /\ 0 <= s <= 1
     /\ forall x, ~ eon e (x, y)).
Proof.
  intros e buf n W Hm B Hn. open_curve W. rewrite ef in Hn, Hm |- *. cbn [modulus] in Hn, Hm |- *. rewrite (ed_size_unique p Hp2 n Hn).
  assert (NN : forall y, 0 <= y < p -> ((forall x : ZpF p Hp, ~ Edwards.eon _ a d (x, of_Z p y)) <-> forall x, ~ eon e (x, y))).
  { intros y Hy. split.
    - intros N x O. pose proof O as (Cx & _). rewrite ef in Cx. cbn [modulus] in Cx. apply (N (of_Z p x)). apply WO.
      rewrite <- (zz_of p Hp) by assumption. exact O.
    - intros N x O. apply (N (zv x)). apply WO in O. unfold zz in O. cbn [fst snd] in O. rewrite (coord_of p) in O by exact Hy. exact O. }
  destruct (p_half p Hp2) as (_ & Ph & _).
  destruct (decode_cases p Hp Hp2 a d e ef ea ed AS AN DN Hm buf B) as [(L' & m & E)|(v & s & L & Rv & Rs & V & C)].
  - split; [intros (m' & D); congruence|intros (L & _); contradiction].
  - split.
    + intros (m & D). split; [exact L|]. exists v, s. split; [exact V|].
      destruct C as [(G & m' & E)|[(S1 & _ & X0 & m' & E)|[(G & x & Q' & D' & R & E)|(G & _ & N & m' & E)]]]; try congruence.
      split; [lia|]. split; [exact Rs|]. apply NN; [lia|exact N].
    + intros (_ & y & t & V' & Ry & Rt & N). rewrite V in V'. apply (split_unique p) in V'; [|lia|lia|lia|lia].
      destruct V' as [<- <-]. pose proof (proj2 (NN v Ry) N) as N'. clear N. rename N' into N.
      destruct C as [(G & E)|[(S1 & _ & X0 & E)|[(G & x & Q' & D' & R & E)|(G & _ & _ & m' & E)]]]; [lia| | |eauto]; exfalso.
      * apply (N F0). apply (eon_xx _ a d AS AN DN). rewrite X0. apply Zp_eq. reflexivity.
      * apply (N x), R.
Qed.

(** *** C37: histories *)
Lemma scalar_of e k : 0 < c_r e -> exists m, new_scalar e k = Ret m /\ valid_scalar (c_r e) m /\ sk m = k mod c_r e.
Proof.
  intro H. destruct (c20_new_scalar (c_r e) k H) as (m & E & Er & R). exists m. split; [exact E|].
  split; [split; [exact Er|apply R]|apply residue_is_mod, R].
Qed.
Lemma eon_dec e u v : edw e -> valid (modulus (c_f e)) u -> valid (modulus (c_f e)) v ->
  eon e (val u, val v) \/ ~ eon e (val u, val v).
Proof.
  intros W Vu Vv. unfold eon, on_edwards, coord. pose proof (prime_ge_2 _ (proj1 W)).
  match goal with |- context [(?m | ?z)] => destruct (Zdivide_dec m z) as [D|D] end.
  - left. split; [apply Vu|]. split; [apply Vv|exact D].
  - right. intros (_ & _ & D'). contradiction.
Qed.
Lemma generator_new e : valid (modulus (c_f e)) (c_gx e) -> valid (modulus (c_f e)) (c_gy e) ->
  get_generator e = new_point e (c_gx e) (c_gy e).
Proof. intros Vx Vy. reflexivity. Qed.

(** whatever a history of operations returns is the point that the history means *)
Lemma c37_history_sound : forall oc e t P, egroup e -> term_bytes t -> run oc e t = Ret P ->
  exists A, emeans oc e t A /\ epoint e P A.
Proof.
  intros oc e t P (W & Hm & Hr & H64 & Vgx & Vgy). pose proof (proj1 W) as HpP. revert P.
  induction t as [x y| | |buf|t IHt u IHu|t IHt u IHu|t IHt|t IHt k|t IHt]; intros P B E; cbn [run term_bytes] in *.
  - destruct (elt_res (c_f e) x HpP) as (u & Eu & Vu & Ru), (elt_res (c_f e) y HpP) as (v & Ev & Vv & Rv).
    rewrite Eu, Ev in E. cbn [bind] in E. destruct (c36_new_point e u v W Vu Vv) as [Y N].
    destruct (eon_dec e u v W Vu Vv) as [O|O]; [|rewrite (N O) in E; discriminate].
    destruct (Y O) as (P' & E' & H). rewrite E' in E. injection E as <-. eexists. split; [|exact H].
    pose proof (prime_ge_2 _ HpP). constructor; [rewrite Ru; apply residue_mod; lia|rewrite Rv; apply residue_mod; lia|exact O].
  - exists (0, 1). split; [constructor|]. destruct (c38_identity_is_zero e W) as (I & EI & HI & _). congruence.
  - rewrite (generator_new e Vgx Vgy) in E.
    destruct (c36_new_point e _ _ W Vgx Vgy) as [Y N].
    destruct (eon_dec e _ _ W Vgx Vgy) as [O|O]; [|rewrite (N O) in E; discriminate].
    destruct (Y O) as (P' & E' & H). rewrite E' in E. injection E as <-. eexists. split; [constructor; exact O|exact H].
  - destruct (decode e buf) as [[Q|m]|m] eqn:D; cbn [bind] in E; try discriminate. injection E as <-.
    pose proof (ne_ed_size (modulus (c_f e)) (proj1 (proj2 W))) as Hn.
    destruct (proj1 (c39_decode_ok e buf _ W Hm B Hn) Q D) as (x & y & S & O & H).
    eexists. split; [econstructor; eassumption|exact H].
  - destruct (run oc e t) as [X|] eqn:Et; [|discriminate]. destruct (run oc e u) as [Y|] eqn:Eu; [|discriminate]. cbn [bind] in E.
    destruct (IHt X (proj1 B) eq_refl) as (A & MA & HA), (IHu Y (proj2 B) eq_refl) as (A' & MA' & HA').
    destruct (c36_addition e X Y A A' W HA HA') as (R & ER & HR). rewrite ER in E. injection E as <-.
    destruct (c36_law_is_total e A A' W) as (C & OC & SC); [apply HA|apply HA'|].
    exists C. assert (esum e A A' C) by (apply SC; reflexivity). split; [econstructor; eassumption|apply HR; assumption].
  - destruct (run oc e t) as [X|] eqn:Et; [|discriminate]. destruct (run oc e u) as [Y|] eqn:Eu; [|discriminate]. cbn [bind] in E.
    destruct (IHt X (proj1 B) eq_refl) as (A & MA & HA), (IHu Y (proj2 B) eq_refl) as (A' & MA' & HA').
    destruct (c36_subtraction e X Y A A' W HA HA') as (R & ER & HR). rewrite ER in E. injection E as <-.
    destruct (c36_negation e Y A' W HA') as (N & EN & HN).
    destruct (c36_law_is_total e A (edwards_neg (modulus (c_f e)) A') W) as (C & OC & SC); [apply HA|apply (proj2 (HN _) eq_refl)|].
    exists C. assert (esum e A (edwards_neg (modulus (c_f e)) A') C) by (apply SC; reflexivity).
    split; [econstructor; eassumption|apply HR; assumption].
  - destruct (run oc e t) as [X|] eqn:Et; [|discriminate]. cbn [bind] in E. destruct (IHt X B eq_refl) as (A & MA & HA).
    destruct (c36_negation e X A W HA) as (R & ER & HR). rewrite ER in E. injection E as <-.
    eexists. split; [constructor; exact MA|apply HR; reflexivity].
  - destruct (run oc e t) as [X|] eqn:Et; [|discriminate]. cbn [bind] in E. destruct (IHt X B eq_refl) as (A & MA & HA).
    destruct (scalar_of e k Hr) as (m & Em & Vm & Km). rewrite Em in E. cbn [bind] in E.
    assert (NZ : oc = true -> sk m <> 0).
    { intros -> Z0. destruct m as [m r]. cbn [sk] in Z0. destruct Vm as [Er _]. cbn [sr] in Er. rewrite Z0, Er in E.
      rewrite (c37_zero_scalar_panics e X A W HA) in E. discriminate. }
    destruct (c37_scalar_multiplication oc e X A m W HA Vm H64 NZ) as (R & ER & HR). rewrite ER in E. injection E as <-.
    pose proof W as W0. open_curve W0. pose proof HA as ZA. apply WP in ZA as (A0 & -> & RA).
    set (C := zz p Hp (enmul p Hp a d (Z.to_nat (sk m)) A0)).
    assert (SC : multiple (esum e) (0, 1) (zz p Hp A0) (Z.to_nat (sk m)) C) by (apply WM; [apply RA|reflexivity]).
    exists C. split; [|apply HR, SC]. econstructor; [exact MA| |exact NZ|exact SC]. rewrite Km. apply residue_mod, Hr.
  - destruct (run oc e t) as [X|] eqn:Et; [|discriminate]. cbn [bind] in E. destruct (IHt X B eq_refl) as (A & MA & HA).
    destruct (c31_edw_normalize e X A W HA) as (R & ER & HR & _). rewrite ER in E. injection E as <-.
    exists A. split; [constructor; exact MA|exact HR].
Qed.
(** and a history that means a point never panics *)
Lemma c37_history_complete : forall oc e t A, egroup e -> term_bytes t -> emeans oc e t A ->
  exists P, run oc e t = Ret P /\ epoint e P A.
Proof.
  intros oc e t A (W & Hm & Hr & H64 & Vgx & Vgy) B M. pose proof (proj1 W) as HpP.
  induction M as [x y u v Ru Rv O| |O|n x y buf Hn S O|t u A A' C M1 IH1 M2 IH2 SC|t u A A' C M1 IH1 M2 IH2 SC|t A M IH|t k j A C M IH R NZ SC|t A M IH];
    cbn [run term_bytes] in *.
  - destruct (elt_res (c_f e) x HpP) as (x' & Eu & Vu & Xu), (elt_res (c_f e) y HpP) as (y' & Ev & Vv & Xv).
    rewrite Eu, Ev. cbn [bind]. apply residue_is_mod in Ru, Rv. rewrite <- Ru in Xu. rewrite <- Rv in Xv. clear Ru Rv. subst u v.
    destruct (c36_new_point e x' y' W Vu Vv) as [Y _]. apply Y, O.
  - destruct (c38_identity_is_zero e W) as (I & EI & HI & _). exists I. split; [exact EI|exact HI].
  - rewrite (generator_new e Vgx Vgy). destruct (c36_new_point e _ _ W Vgx Vgy) as [Y _]. apply Y, O.
  - destruct (proj2 (c39_decode_ok e buf n W Hm B Hn) x y S O) as (Q & -> & HQ). exists Q. split; [reflexivity|exact HQ].
  - destruct (IH1 (proj1 B)) as (X & -> & HX), (IH2 (proj2 B)) as (Y & -> & HY). cbn [bind].
    destruct (c36_addition e X Y A A' W HX HY) as (R & ER & HR). exists R. split; [exact ER|apply HR, SC].
  - destruct (IH1 (proj1 B)) as (X & -> & HX), (IH2 (proj2 B)) as (Y & -> & HY). cbn [bind].
    destruct (c36_subtraction e X Y A A' W HX HY) as (R & ER & HR). exists R. split; [exact ER|apply HR, SC].
  - destruct (IH B) as (X & -> & HX). cbn [bind].
    destruct (c36_negation e X A W HX) as (R & ER & HR). exists R. split; [exact ER|apply HR; reflexivity].
  - destruct (IH B) as (X & -> & HX). cbn [bind].
    destruct (scalar_of e k Hr) as (m & -> & Vm & Km). cbn [bind]. apply residue_is_mod in R. rewrite <- R in Km. clear R. subst j.
    destruct (c37_scalar_multiplication oc e X A m W HX Vm H64 NZ) as (Q & EQ & HQ). exists Q. split; [exact EQ|apply HQ, SC].
  - destruct (IH B) as (X & -> & HX). cbn [bind].
    destruct (c31_edw_normalize e X A W HX) as (R & ER & HR & _). exists R. split; [exact ER|exact HR].
Qed.

(** *** C49 *)
Lemma curve_eqb_eq e1 e2 : curve_eqb e1 e2 = true <-> e1 = e2.
Proof.
  split; [|intros ->; apply curve_eqb_refl].
  destruct e1 as [[f] a d r gx gy h], e2 as [[f'] a' d' r' gx' gy' h']. unfold curve_eqb, fp_eqb. cbn [c_f c_a c_d c_r c_gx c_gy c_h modulus].
  rewrite !andb_true_iff, !Z.eqb_eq. intros ((((((-> & Ea) & Ed) & ->) & Ex) & Ey) & ->).
  apply WeierProps.fpelt_eqb_eq in Ea, Ed, Ex, Ey. congruence.
Qed.
Lemma c49_edw_different_curves : forall P Q, pe P <> pe Q -> pt_add P Q = Panic "points of different curves".
Proof.
  intros P Q N. unfold pt_add. destruct (curve_eqb (pe P) (pe Q)) eqn:E; [apply curve_eqb_eq in E; contradiction|reflexivity].
Qed.
Lemma c49_edw_different_orders : forall oc P k, sr k <> c_r (pe P) -> pt_mul oc P k = Panic "Scalar don't match with point".
Proof. intros oc P k N. unfold pt_mul. destruct (Z.eqb_spec (c_r (pe P)) (sr k)); [congruence|reflexivity]. Qed.
(** comparing points of different curves is false over one field, but panics over different fields *)
Lemma c49_edw_equality_across_curves : forall e1 e2 P Q A B, edw e1 -> edw e2 -> e1 <> e2 -> epoint e1 P A -> epoint e2 Q B ->
  (modulus (c_f e1) = modulus (c_f e2) -> pt_eqb P Q = Ret false)
  /\ (modulus (c_f e1) <> modulus (c_f e2) -> pt_eqb P Q = Panic "elements of different fields").
Proof.
  intros e1 e2 P Q A B (Hp & Hp2 & _) _ N (EP & Vx & Vy & Vt & Vz & _) (EQ & Ux & Uy & Ut & Uz & _). split; intro E.
  - rewrite <- E in *. set (p := modulus (c_f e1)) in *.
    destruct (valid_ex _ _ Vx) as [x1 X1], (valid_ex _ _ Vy) as [y1 Y1], (valid_ex _ _ Vt) as [t1 T1], (valid_ex _ _ Vz) as [z1 Z1].
    destruct (valid_ex _ _ Ux) as [x2 X2], (valid_ex _ _ Uy) as [y2 Y2], (valid_ex _ _ Ut) as [t2 T2], (valid_ex _ _ Uz) as [z2 Z2].
    unfold pt_eqb. rewrite X1, Y1, T1, Z1, X2, Y2, T2, Z2, EP, EQ. fes.
    destruct (curve_eqb e1 e2) eqn:C; [apply curve_eqb_eq in C; contradiction|reflexivity].
  - unfold pt_eqb, mul. rewrite (proj1 Vx), (proj1 Uz). unfold fp_eqb. cbn [modulus].
    destruct (Z.eqb_spec (modulus (c_f e1)) (modulus (c_f e2))); [contradiction|reflexivity].
Qed.

(** *** Examples: -x^2 + y^2 = 1 + 2 x^2 y^2 modulo 29, a group of order 28 *)
Definition n29 (v : Z) : FpElt := mkFpElt v (mkFp 29).
Definition E29 : Curve := mkCurve (mkFp 29) (n29 28) (n29 2) 7 (n29 2) (n29 22) 4.
Definition pt29 (x y t z : Z) : Point := mkPoint E29 (mkProy (n29 x) (n29 y) (n29 t) (n29 z)).
Lemma edw29 : edw E29.
Proof.
  split; [apply prime_small; reflexivity|]. cbn [E29 c_f c_a c_d n29 val modulus]. split; [lia|].
  do 2 (split; [split; [reflexivity|cbn; lia]|]). split; [intros [k E]; lia|]. split; [exists 12; exists 4; reflexivity|].
  apply (no_root_small 29 (fun x => x * x - 2)); [lia| |reflexivity].
  intro x. pose proof (Z.div_mod x 29 ltac:(lia)) as D. exists (x / 29 * (x + x mod 29)).
  set (q := x / 29) in *. set (r := x mod 29) in *. rewrite D. ring.
Qed.
Ltac epoint_ex i j k l := split; [reflexivity|]; do 4 (split; [split; [reflexivity|cbn; lia]|]);
  split; [|split; [unfold coord; cbn; lia|]; split; [unfold coord; cbn; lia|exists l; reflexivity]];
  split; [discriminate|]; split; [exists i; reflexivity|]; split; [exists j; reflexivity|exists k; reflexivity].
Lemma gen29 : epoint E29 (pt29 2 22 15 1) (2, 22).
Proof. epoint_ex 0 0 (-1) (-113). Qed.
Lemma other29 : epoint E29 (pt29 6 10 1 2) (3, 5).
Proof. epoint_ex 0 0 (-1) (-6). Qed.
Lemma two29 : epoint E29 (pt29 0 26 0 3) (0, 28).
Proof. epoint_ex 0 (-2) 0 27. Qed.
Lemma egroup29 : egroup E29.
Proof.
  split; [exact edw29|]. split; [right; reflexivity|]. cbn [E29 c_r c_f c_gx c_gy n29 modulus].
  split; [lia|]. split; [reflexivity|]. split; (split; [reflexivity|cbn; lia]).
Qed.
Example c36_ex : edw E29 /\ epoint E29 (pt29 2 22 15 1) (2, 22) /\ epoint E29 (pt29 6 10 1 2) (3, 5)
  /\ pt_add (pt29 2 22 15 1) (pt29 6 10 1 2) = Ret (pt29 7 0 0 3)
  /\ pt_neg (pt29 6 10 1 2) = Ret (pt29 23 10 28 2)
  /\ new_point E29 (n29 3) (n29 6) = Panic "not valid point"
  /\ is_on_curve E29 (mkProy (n29 6) (n29 10) (n29 2) (n29 2)) = Ret false.
Proof. split; [exact edw29|]. split; [exact gen29|]. split; [exact other29|]. vm_compute. auto 6. Qed.
(** when d is a square the formulas are not complete: on -x^2 + y^2 = 1 + 4 x^2 y^2 modulo 13 the sum of (2,2)
    and (2,-2) is the zero tuple, which equals every point *)
Lemma c36_addition_on_any_curve_refuted : exists e P Q R,
  prime (modulus (c_f e)) /\ epoint e P (2, 2) /\ epoint e Q (2, 11) /\ pt_add P Q = Ret R
  /\ (forall A, ~ epoint e R A) /\ pt_eqb R P = Ret true /\ pt_eqb R Q = Ret true /\ pt_eqb P Q = Ret false.
Proof.
  set (n13 v := mkFpElt v (mkFp 13)). set (e := mkCurve (mkFp 13) (n13 12) (n13 4) 3 (n13 2) (n13 2) 4).
  exists e, (mkPoint e (mkProy (n13 2) (n13 2) (n13 4) (n13 1))), (mkPoint e (mkProy (n13 2) (n13 11) (n13 9) (n13 1))),
    (mkPoint e (mkProy (n13 0) (n13 0) (n13 0) (n13 0))).
  split; [apply prime_small; reflexivity|]. split; [epoint_ex 0 0 0 (-1)|]. split; [epoint_ex 0 0 (-1) (-136)|].
  split; [vm_compute; reflexivity|]. split; [|repeat split].
  intros [x y] (_ & _ & _ & _ & _ & (R' & _) & _). apply R'. reflexivity.
Qed.
Example c37_ex : egroup E29
  /\ run true E29 (TMul (TAdd TGenerator (TDecode [133])) 3) = Ret (pt29 26 0 0 22)
  /\ emeans true E29 (TDecode [133]) (3, 5)
  /\ pt_mul true (pt29 2 22 15 1) (mkScalar 2 7) = Ret (pt29 15 7 24 8)
  /\ pt_mul false (pt29 2 22 15 1) (mkScalar 0 7) = Ret (pt29 0 1 0 1).
Proof.
  split; [exact egroup29|]. split; [vm_compute; reflexivity|]. split; [|vm_compute; auto].
  apply (em_decode _ _ 1); [unfold ed_size; cbn; lia| |].
  - split; [reflexivity|]. split; [repeat constructor; lia|reflexivity].
  - split; [unfold coord; cbn; lia|]. split; [unfold coord; cbn; lia|exists (-6); reflexivity].
Qed.
Example c38_ex : epoint E29 (pt29 0 26 0 3) (0, 28) /\ pt_is_zero (pt29 0 26 0 3) = true
  /\ pt_is_zero (pt29 6 10 1 2) = false /\ pt_eqb (pt29 0 26 0 3) (pt29 0 1 0 1) = Ret false.
Proof. split; [exact two29|]. repeat split. Qed.
Example c39_ex : ed_size 29 1 /\ encode (pt29 6 10 1 2) true = Ret [133] /\ encode (pt29 6 10 1 2) false = Ret [133]
  /\ decode E29 [133] = Ret (Ok (pt29 3 5 15 1)) /\ decode E29 [5] = Ret (Ok (pt29 26 5 14 1))
  /\ decode E29 [1] = Ret (Ok (pt29 0 1 0 1)) /\ (exists m, decode E29 [129] = Ret (Err m))
  /\ (exists m, decode E29 [30] = Ret (Err m)) /\ (exists m, decode E29 [2] = Panic m).
Proof.
  split; [unfold ed_size; cbn; lia|]. do 5 (split; [vm_compute; reflexivity|]).
  split; [eexists; vm_compute; reflexivity|]. split; eexists; vm_compute; reflexivity.
Qed.
Example c31_edw_ex : normalize (pt29 6 10 1 2) = Ret (pt29 3 5 15 1) /\ normalize (pt29 0 3 0 3) = Ret (pt29 0 1 0 1).
Proof. split; vm_compute; reflexivity. Qed.
Example c32_edw_ex : pt_eqb (pt29 6 10 1 2) (pt29 3 5 15 1) = Ret true /\ pt_eqb (pt29 6 10 1 2) (pt29 2 22 15 1) = Ret false.
Proof. split; reflexivity. Qed.
Example c49_edw_ex : pt_add (pt29 2 22 15 1) (mkPoint (mkCurve (mkFp 29) (n29 28) (n29 2) 7 (n29 2) (n29 22) 8) (pc (pt29 2 22 15 1)))
    = Panic "points of different curves"
  /\ pt_mul true (pt29 2 22 15 1) (mkScalar 3 13) = Panic "Scalar don't match with point".
Proof. split; reflexivity. Qed.
