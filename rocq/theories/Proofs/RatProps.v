(** Rational maps and isogenies: C43-C47. *)
From Coq Require Import ZArith Znumtheory Lia String Ascii Bool List.
From Verif.Math Require Import Fld Zp Residue ECGroup RCB Edwards Birat.
From Verif.Spec Require Import Arith Curve Instances RatMaps.
From Verif.Model Require Import Out BigInt PrimeField Instances RationalMaps.
From Verif.Model Require WCurve MCurve ECurve.
From Verif.Proofs Require Import FieldP FieldProps CurveP RatP.
From Verif.Proofs Require WeierP MontP EdwP WeierProps MontProps EdwProps InstShip InstProps.
From Verif.Spec Require Export Morphisms.
Import EPoints(edw, epoint, esum, eon).
Import MPoints(mont, mpoint, msum, mon).
Import ListNotations.
Open Scope Z_scope.

(** *** C43 *)
Ltac open_birat H :=
  let We := fresh "We" in let Wm := fresh "Wm" in let Ep := fresh "Ep" in let Vc := fresh "Vc" in let B1 := fresh "B1" in let B2 := fresh "B2" in
  pose proof H as (We & Wm & Ep & Vc & [B1 B2]);
  match type of H with birat ?m =>
    set (p := modulus (ECurve.c_f (ed_e0 m))) in *; pose proof (proj1 We : prime p) as Hp;
    destruct (EdwProps.edw_open_at (ed_e0 m) p Hp eq_refl We) as (Hp2 & a & d & ef0 & ea0 & ed0 & AS & AN & DN & EP & ES & EM & EO & EU);
    destruct (MontProps.mont_open_at (ed_e1 m) p Hp Ep Wm) as (Hp2' & A & b & s & ef1 & ea1 & eb1 & es1 & b1 & NS & NR & MP & MS & MM & MO & MU);
    destruct (valid_ex _ _ Vc) as [c ec]; change (Zp p) with (car (ZpF p Hp)) in c;
    rewrite ea0, ea1, ec in B1; rewrite ed0, ea1, ec in B2; cbn [val fe] in B1, B2;
    assert (Ha : Fmul a (Fmul c c) = Fadd A (Fadd F1 F1)) by
      (apply of_Z_div in B1; [|lia]; revert B1; change 2 with (1 + 1); pushZ; exact (fun h => h));
    assert (Hd : Fmul d (Fmul c c) = Fsub A (Fadd F1 F1)) by
      (apply of_Z_div in B2; [|lia]; revert B2; change 2 with (1 + 1); pushZ; exact (fun h => h));
    clear B1 B2
  end.

(** the map of points is a bijection between the two curves *)
Lemma c43_bijection : forall m, birat m ->
  (forall E, eon (ed_e0 m) E -> exists M, mon (ed_e1 m) M /\ forall M', bmap m E M' <-> M' = M)
  /\ (forall M, mon (ed_e1 m) M -> exists E, eon (ed_e0 m) E /\ forall E', eon (ed_e0 m) E' -> (bmap m E' M <-> E' = E)).
Proof.
  intros m W. open_birat W. unfold bmap. fold p. rewrite ec. cbn [val fe]. split.
  - intros E HE. destruct (EU E HE) as (E' & -> & OE). exists (ap p Hp (beta (ZpF p Hp) c E')). split.
    + apply MO. apply (on_beta _ a d A c AS DN Ha Hd). exact OE.
    + intro M'. apply (birational_beta p Hp Hp2 a d c AS DN). exact OE.
  - intros M HM. destruct (MU M HM) as (M' & -> & OM). exists (EdwP.zz p Hp (alpha (ZpF p Hp) c M')). split.
    + apply EO. apply (eon_alpha _ a d A c (two_K p Hp Hp2) DN Ha Hd). exact OM.
    + intros E' HE. destruct (EU E' HE) as (E'' & -> & OE).
      rewrite (birational_alpha p Hp Hp2 a d A c AS AN DN Ha Hd E'' M' OM OE). split; [intros ->; reflexivity|apply EdwP.zz_inj].
Qed.
(** and a homomorphism *)
Lemma c43_homomorphism : forall m E1 E2 E3 M1 M2 M3, birat m -> eon (ed_e0 m) E1 -> eon (ed_e0 m) E2 ->
  bmap m E1 M1 -> bmap m E2 M2 -> esum (ed_e0 m) E1 E2 E3 -> (bmap m E3 M3 <-> msum (ed_e1 m) M1 M2 M3).
Proof.
  intros m E1 E2 E3 M1 M2 M3 W H1 H2. open_birat W. unfold bmap. fold p. rewrite ec. cbn [val fe].
  destruct (EU E1 H1) as (F1' & -> & O1), (EU E2 H2) as (F2' & -> & O2).
  rewrite !(birational_beta p Hp Hp2 a d c AS DN) by assumption. intros -> ->. rewrite ES by assumption. intros ->.
  rewrite (birational_beta p Hp Hp2 a d c AS DN) by (apply (eon_add _ a d (two_K p Hp Hp2)); assumption).
  rewrite MS by (apply (on_beta _ a d A c AS DN Ha Hd); assumption).
  rewrite (beta_add _ a d A c (two_K p Hp Hp2) AS AN DN Ha Hd) by assumption. reflexivity.
Qed.
(** push computes the map at every point but (0, -1) *)
Lemma c43_push : forall m P E, birat m -> epoint (ed_e0 m) P E -> E <> (0, modulus (ECurve.c_f (ed_e0 m)) - 1) ->
  exists Q, ed25519_push m P = Ret Q /\ forall M, mpoint (ed_e1 m) Q M <-> bmap m E M.
Proof.
  intros m P E W HP N. open_birat W. unfold bmap. fold p in N |- *. rewrite ec. cbn [val fe].
  apply EP in HP. destruct HP as (E' & -> & R).
  destruct (push_wrep p Hp Hp2 a d A c AS DN Ha Hd m b ef1 ea1 eb1 b1 ec P E' R) as (Q & EQ & RQ).
  { intros ->. apply N. apply (zz_two p Hp Hp2). }
  exists Q. split; [exact EQ|]. intro M. rewrite (birational_beta p Hp Hp2 a d c AS DN) by apply R.
  apply (MontProps.wrep_iff p Hp A (ed_e1 m) Q _ MP RQ).
Qed.
(** every representative of (0, -1), whose image is (0, 0), is sent to the identity *)
Lemma c43_push_two_refuted : forall m P, birat m -> epoint (ed_e0 m) P (0, modulus (ECurve.c_f (ed_e0 m)) - 1) ->
  bmap m (0, modulus (ECurve.c_f (ed_e0 m)) - 1) (Affine 0 0)
  /\ exists Q, ed25519_push m P = Ret Q /\ forall M, mpoint (ed_e1 m) Q M <-> M = Infinity.
Proof.
  intros m P W HP. open_birat W. unfold bmap. fold p in HP |- *. split; [right; left; split; reflexivity|].
  apply EP in HP. destruct HP as (E' & EE & R). rewrite <- (zz_two p Hp Hp2) in EE. apply EdwP.zz_inj in EE. subst E'.
  destruct (push_two p Hp Hp2 a d A m b ef1 ea1 eb1 b1 P R) as (Q & EQ & RQ). exists Q. split; [exact EQ|].
  intro M. apply (MontProps.wrep_iff p Hp A (ed_e1 m) Q _ MP RQ).
Qed.
(** pull computes the inverse map at every point but (0, 0) *)
Lemma c43_pull : forall m Q M, birat m -> mpoint (ed_e1 m) Q M -> M <> Affine 0 0 ->
  exists P, ed25519_pull m Q = Ret P /\ forall E, epoint (ed_e0 m) P E <-> eon (ed_e0 m) E /\ bmap m E M.
Proof.
  intros m Q M W HQ N. open_birat W. unfold bmap. fold p. rewrite ec. cbn [val fe].
  apply MP in HQ. destruct HQ as (M' & -> & R).
  destruct (pull_wrep p Hp Hp2 a d A c AS AN DN Ha Hd m ef0 ea0 ed0 ec Q M' R) as (P & E & RP).
  { intros ->. apply N. reflexivity. }
  exists P. split; [exact E|]. intro C. rewrite (EdwProps.wrep_iff p Hp a d (ed_e0 m) P _ EP RP). split.
  - intros ->. split; [apply EO; apply RP|]. apply (birational_alpha p Hp Hp2 a d A c AS AN DN Ha Hd); [apply R|apply RP|reflexivity].
  - intros [HC HB]. destruct (EU C HC) as (C' & -> & OC). f_equal.
    apply (birational_alpha p Hp Hp2 a d A c AS AN DN Ha Hd) in HB; [exact HB|apply R|exact OC].
Qed.
(** (0, 0) is sent to (0, -1) when it is represented with z = 1 *)
Lemma c43_pull_two_normalised : forall m Q, birat m -> mpoint (ed_e1 m) Q (Affine 0 0) -> val (MCurve.pz (MCurve.pc Q)) = 1 ->
  exists P, ed25519_pull m Q = Ret P /\ forall E, epoint (ed_e0 m) P E <-> E = (0, modulus (ECurve.c_f (ed_e0 m)) - 1).
Proof.
  intros m Q W HQ Z1. open_birat W. fold p. pose proof HQ as (_ & _ & _ & Vz & _). apply MP in HQ. destruct HQ as (M' & EM' & R).
  change (Affine 0 0) with (ap p Hp (Aff (ZpF p Hp) F0 F0)) in EM'. apply ap_inj in EM'. subst M'.
  rewrite Ep in Vz. destruct (valid_ex _ _ Vz) as [z ez]. rewrite ez in Z1. cbn [val fe] in Z1.
  destruct (pull_two_one p Hp Hp2 a d A c AS AN DN Ha Hd m ef0 ea0 ed0 Q R) as (P & E & RP).
  { rewrite ez. f_equal. apply Zp_eq. rewrite Z1, (zv_1 p Hp Hp2). reflexivity. }
  exists P. split; [exact E|]. intro C. rewrite <- (zz_two p Hp Hp2). apply (EdwProps.wrep_iff p Hp a d (ed_e0 m) P _ EP RP).
Qed.
(** and otherwise to the tuple (0, 0, 0, 0), which represents no point *)
Lemma c43_pull_two_refuted : forall m Q, birat m -> mpoint (ed_e1 m) Q (Affine 0 0) -> val (MCurve.pz (MCurve.pc Q)) <> 1 ->
  exists P, ed25519_pull m Q = Ret P /\ val (ECurve.px (ECurve.pc P)) = 0 /\ val (ECurve.py (ECurve.pc P)) = 0
  /\ val (ECurve.ptt (ECurve.pc P)) = 0 /\ val (ECurve.pz (ECurve.pc P)) = 0 /\ forall E, ~ epoint (ed_e0 m) P E.
Proof.
  intros m Q W HQ Z1. open_birat W. apply MP in HQ. destruct HQ as (M' & EM' & R).
  change (Affine 0 0) with (ap p Hp (Aff (ZpF p Hp) F0 F0)) in EM'. apply ap_inj in EM'. subst M'.
  rewrite (pull_two_other p Hp Hp2 a d A c AS AN DN Ha Hd m ea0 ed0 ec Q R).
  - eexists. split; [reflexivity|]. do 4 (split; [reflexivity|]). intros E (_ & _ & _ & _ & _ & (H & _) & _). apply H. reflexivity.
  - intro E. apply Z1. rewrite E. cbn [val fe]. apply (zv_1 p Hp Hp2).
Qed.
Lemma bmap_two m E : birat m -> eon (ed_e0 m) E -> bmap m E (Affine 0 0) -> E = (0, modulus (ECurve.c_f (ed_e0 m)) - 1).
Proof.
  intros W HE HB. destruct (proj2 (c43_bijection m W) (Affine 0 0)) as (E0 & H0 & U).
  - destruct (proj1 (c43_bijection m W) E HE) as (M & HM & UM). apply UM in HB. rewrite HB. exact HM.
  - apply U in HB; [|exact HE]. rewrite HB. symmetry. apply U; [|right; left; split; reflexivity].
    destruct W as ((P0 & P2 & _) & _). set (p := modulus _) in *. unfold eon, EPoints.eon, on_edwards. fold p. split; [split; lia|]. split; [split; lia|].
    exists (p - 2). ring.
Qed.
Lemma epoint_eon e P E : epoint e P E -> eon e E.
Proof. intros (_ & _ & _ & _ & _ & _ & H). exact H. Qed.
Lemma mpoint_mon e P M : mpoint e P M -> mon e M.
Proof. intros (_ & _ & _ & _ & _ & H). exact H. Qed.

(** pull after push is the identity except at (0, -1), and push after pull except at (0, 0) *)
Lemma c43_pull_push : forall m P E, birat m -> epoint (ed_e0 m) P E -> E <> (0, modulus (ECurve.c_f (ed_e0 m)) - 1) ->
  exists Q P', ed25519_push m P = Ret Q /\ ed25519_pull m Q = Ret P' /\ forall C, epoint (ed_e0 m) P' C <-> C = E.
Proof.
  intros m P E W HP N. pose proof (epoint_eon _ _ _ HP) as HE.
  destruct (c43_push m P E W HP N) as (Q & EQ & HQ). destruct (proj1 (c43_bijection m W) E HE) as (M & HM & UM).
  assert (B : bmap m E M) by (apply UM; reflexivity).
  destruct (c43_pull m Q M W (proj2 (HQ M) B)) as (P' & EP & HP').
  { intros ->. apply N. apply (bmap_two m E W HE B). }
  exists Q, P'. split; [exact EQ|]. split; [exact EP|]. intro C. rewrite HP'.
  destruct (proj2 (c43_bijection m W) M HM) as (E' & HE' & UE). split.
  - intros [HC BC]. apply UE in BC; [|exact HC]. apply UE in B; [|exact HE]. congruence.
  - intros ->. split; assumption.
Qed.
Lemma c43_push_pull : forall m Q M, birat m -> mpoint (ed_e1 m) Q M -> M <> Affine 0 0 ->
  exists P Q', ed25519_pull m Q = Ret P /\ ed25519_push m P = Ret Q' /\ forall C, mpoint (ed_e1 m) Q' C <-> C = M.
Proof.
  intros m Q M W HQ N. pose proof (mpoint_mon _ _ _ HQ) as HM.
  destruct (c43_pull m Q M W HQ N) as (P & EP & HP). destruct (proj2 (c43_bijection m W) M HM) as (E & HE & UE).
  assert (B : bmap m E M) by (apply UE; [exact HE|reflexivity]).
  destruct (proj1 (c43_bijection m W) E HE) as (M1 & HM1 & UM).
  destruct (c43_push m P E W (proj2 (HP E) (conj HE B))) as (Q' & EQ & HQ').
  { intros E0. apply N. apply UM in B. rewrite B. symmetry. apply UM. right. left. split; [exact E0|reflexivity]. }
  exists P, Q'. split; [exact EP|]. split; [exact EQ|]. intro C. rewrite HQ'. apply UM in B. rewrite B. apply UM.
Qed.
(** push commutes with the additions of the two curves as long as (0, -1) is not involved *)
Lemma c43_push_add : forall m P1 P2 E1 E2 E3, birat m -> epoint (ed_e0 m) P1 E1 -> epoint (ed_e0 m) P2 E2 ->
  esum (ed_e0 m) E1 E2 E3 -> let T := (0, modulus (ECurve.c_f (ed_e0 m)) - 1) in E1 <> T -> E2 <> T -> E3 <> T ->
  exists P3 Q1 Q2 Q3 Q3', ECurve.pt_add P1 P2 = Ret P3 /\ ed25519_push m P3 = Ret Q3
  /\ ed25519_push m P1 = Ret Q1 /\ ed25519_push m P2 = Ret Q2 /\ MCurve.pt_add Q1 Q2 = Ret Q3'
  /\ (exists M, mpoint (ed_e1 m) Q3 M) /\ forall M, mpoint (ed_e1 m) Q3 M <-> mpoint (ed_e1 m) Q3' M.
Proof.
  intros m P1 P2 E1 E2 E3 W H1 H2 HS T N1 N2 N3.
  pose proof (epoint_eon _ _ _ H1) as O1. pose proof (epoint_eon _ _ _ H2) as O2.
  destruct (EdwProps.c36_addition (ed_e0 m) P1 P2 E1 E2 (proj1 W) H1 H2) as (P3 & A3 & U3).
  assert (H3 : epoint (ed_e0 m) P3 E3) by (apply U3; exact HS).
  destruct (c43_push m P1 E1 W H1 N1) as (Q1 & X1 & V1), (c43_push m P2 E2 W H2 N2) as (Q2 & X2 & V2), (c43_push m P3 E3 W H3 N3) as (Q3 & X3 & V3).
  destruct (proj1 (c43_bijection m W) E1 O1) as (M1 & _ & B1), (proj1 (c43_bijection m W) E2 O2) as (M2 & _ & B2),
    (proj1 (c43_bijection m W) E3 (epoint_eon _ _ _ H3)) as (M3 & _ & B3).
  assert (Y1 : mpoint (ed_e1 m) Q1 M1) by (apply V1, B1; reflexivity). assert (Y2 : mpoint (ed_e1 m) Q2 M2) by (apply V2, B2; reflexivity).
  destruct (MontProps.c33_addition (ed_e1 m) Q1 Q2 M1 M2 (proj1 (proj2 W)) Y1 Y2) as (Q3' & A3' & U3').
  exists P3, Q1, Q2, Q3, Q3'. do 5 (split; [assumption|]). split; [exists M3; apply V3, B3; reflexivity|].
  intro M. rewrite V3, U3'. apply (c43_homomorphism m E1 E2 E3 M1 M2 M W O1 O2); [apply B1; reflexivity|apply B2; reflexivity|exact HS].
Qed.
(** the shipped map is of this kind *)
Lemma c43_shipped : exists m, edwards25519_to_curve25519 = Ret m /\ EDWARDS25519 = Ret (ed_e0 m) /\ CURVE25519 = Ret (ed_e1 m) /\ birat m.
Proof.
  destruct InstProps.c48_EDWARDS25519 as (e0 & X0 & p0 & a0 & d0 & _ & _ & _ & _ & (W0 & _) & _).
  destruct InstProps.c48_CURVE25519 as (e1 & X1 & p1 & a1 & _ & _ & _ & _ & _ & _ & (W1 & _) & _).
  assert (F0 : ECurve.c_f e0 = mkFp (e_p std_EDWARDS25519)) by (destruct (ECurve.c_f e0); cbn in p0; rewrite p0; reflexivity).
  set (c := 6853475219497561581579357271197624642482790079785650197046958215289687604742).
  assert (C : from_str (ECurve.c_f e0) "6853475219497561581579357271197624642482790079785650197046958215289687604742" =
    Ret (mkFpElt c (mkFp (e_p std_EDWARDS25519)))) by (rewrite F0; vm_compute; reflexivity).
  exists (mkEd2Mt25519 e0 e1 (mkFpElt c (mkFp (e_p std_EDWARDS25519)))). unfold edwards25519_to_curve25519. rewrite X0, X1. cbn [bind]. rewrite C.
  split; [reflexivity|]. split; [reflexivity|]. split; [reflexivity|]. split; [exact W0|]. split; [exact W1|]. cbn [ed_e0 ed_e1 ed_invsqr_d val].
  rewrite p0, p1, a0, d0, a1. split; [reflexivity|]. split; [split; [reflexivity|split; [vm_compute; discriminate|vm_compute; reflexivity]]|].
  unfold birat_params. split; (apply Z.mod_divide; [vm_compute; discriminate|vm_compute; reflexivity]).
Qed.
(** push is not a homomorphism: if 2 P = (0, -1) then push(P + P) is the identity and push(P) + push(P) is (0, 0) *)
Lemma c43_push_double_refuted : forall m P E, let T := (0, modulus (ECurve.c_f (ed_e0 m)) - 1) in
  birat m -> epoint (ed_e0 m) P E -> E <> T -> esum (ed_e0 m) E E T ->
  exists P2 Q2 Q QQ, ECurve.pt_add P P = Ret P2 /\ ed25519_push m P2 = Ret Q2
  /\ ed25519_push m P = Ret Q /\ MCurve.pt_add Q Q = Ret QQ
  /\ (forall M, mpoint (ed_e1 m) Q2 M <-> M = Infinity) /\ (forall M, mpoint (ed_e1 m) QQ M <-> M = Affine 0 0).
Proof.
  intros m P E T W HP N HS. pose proof (epoint_eon _ _ _ HP) as HE.
  destruct (EdwProps.c36_addition (ed_e0 m) P P E E (proj1 W) HP HP) as (P2 & A2 & U2).
  assert (H2 : epoint (ed_e0 m) P2 T) by (apply U2; exact HS).
  destruct (c43_push_two_refuted m P2 W H2) as (BT & Q2 & X2 & V2).
  destruct (c43_push m P E W HP N) as (Q & X & V). destruct (proj1 (c43_bijection m W) E HE) as (M & _ & B).
  assert (Y : mpoint (ed_e1 m) Q M) by (apply V, B; reflexivity).
  destruct (MontProps.c33_addition (ed_e1 m) Q Q M M (proj1 (proj2 W)) Y Y) as (QQ & AQ & UQ).
  exists P2, Q2, Q, QQ. do 4 (split; [assumption|]). split; [exact V2|]. intro M'. rewrite UQ.
  rewrite <- (c43_homomorphism m E E T M M M' W HE HE (proj2 (B M) eq_refl) (proj2 (B M) eq_refl) HS).
  destruct (proj1 (c43_bijection m W) T (epoint_eon _ _ _ H2)) as (MT & _ & UT). rewrite UT. apply UT in BT. rewrite BT. reflexivity.
Qed.
(** (i, 0) with i^2 = -1 is such a point of edwards25519 *)
Example c43_order_four : exists m P E, edwards25519_to_curve25519 = Ret m /\ epoint (ed_e0 m) P E
  /\ E <> (0, modulus (ECurve.c_f (ed_e0 m)) - 1) /\ esum (ed_e0 m) E E (0, modulus (ECurve.c_f (ed_e0 m)) - 1).
Proof.
  destruct c43_shipped as (m & X & _ & _ & (W & _)).
  destruct InstProps.c48_EDWARDS25519 as (e0 & X0 & p0 & a0 & d0 & _).
  assert (E0 : ed_e0 m = e0).
  { revert X. unfold edwards25519_to_curve25519. rewrite X0. cbn [bind].
    destruct CURVE25519; cbn [bind]; [|discriminate]. destruct (from_str _ _); cbn [bind]; [|discriminate]. intro X. inversion X. reflexivity. }
  set (i := 19681161376707505956807079304988542015446066515923890162744021073123829784752).
  assert (V : forall z, 0 <= z < e_p std_EDWARDS25519 -> valid (modulus (ECurve.c_f (ed_e0 m))) (mkFpElt z (mkFp (e_p std_EDWARDS25519)))).
  { intros z Hz. rewrite E0, p0. split; [reflexivity|exact Hz]. }
  destruct (EdwProps.c36_new_point (ed_e0 m) _ _ W (V i ltac:(vm_compute; split; [discriminate|reflexivity])) (V 0 ltac:(vm_compute; split; [discriminate|reflexivity]))) as [H _].
  cbn [val] in H. destruct H as (P & _ & HP).
  { unfold EPoints.eon, on_edwards, coord. rewrite E0, p0, a0, d0. split; [vm_compute; split; [discriminate|reflexivity]|].
    split; [vm_compute; split; [discriminate|reflexivity]|]. apply Z.mod_divide; [vm_compute; discriminate|vm_compute; reflexivity]. }
  exists m, P, (i, 0). split; [exact X|]. split; [exact HP|]. rewrite E0, p0. split.
  - intro F. apply (f_equal fst) in F. discriminate F.
  - unfold esum, EPoints.esum, edwards_sum, coord. rewrite p0, a0, d0.
    split; [vm_compute; split; [discriminate|reflexivity]|]. split; [vm_compute; split; [discriminate|reflexivity]|].
    split; [rewrite <- Z.mod_divide by (vm_compute; discriminate); vm_compute; discriminate|].
    split; [rewrite <- Z.mod_divide by (vm_compute; discriminate); vm_compute; discriminate|].
    split; (apply Z.mod_divide; [vm_compute; discriminate|vm_compute; reflexivity]).
Qed.
