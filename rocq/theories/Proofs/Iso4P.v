(** The 4-isogeny of the model on representatives of points. *)
From Coq Require Import ZArith Znumtheory Lia String Bool List Ring Field.
From Verif.Math Require Import Fld Zp Residue ECGroup RCB Edwards Iso4.
From Verif.Spec Require Import Arith Curve RatMaps.
From Verif.Model Require Import Out BigInt PrimeField RationalMaps.
From Verif.Model Require MCurve ECurve.
From Verif.Proofs Require Import FieldP FieldProps CurveP.
From Verif.Proofs Require WeierP MontP EdwP MontProps EdwProps MapsP.
From Verif.Proofs Require Import RatP.
Import ListNotations.
Open Scope Z_scope.

Section Alg.
  Variable K : Fld.
  Add Field KF : (Fth K).
  Open Scope fld_scope.
  Variables d A : K.
  Hypothesis two : (2 : K) <> 0.
  Hypothesis d_nonsq : forall s : K, s * s <> d.
  Hypothesis HA : A = 2 - 2 * 2 * d.
  Hypothesis A_nonsq : forall s : K, s * s <> A * A - 2 * 2.
  Notation phi := (phi K).
  Notation psi := (psi K).
  Notation on := (on K A 1 0).

  Lemma phi_iff x y u v : x <> 0 ->
    (u * (x * x) = y * y /\ v * (x * x * x) = (2 - x * x - y * y) * y <-> phi (x, y) = Aff K u v).
  Proof.
    intro N. cbn. destruct (Feqd x 0) as [?|_]; [contradiction|].
    assert (N2 : x * x <> 0) by (apply Fmul_nonzero; exact N). assert (N3 : x * x * x <> 0) by (apply Fmul_nonzero; assumption). split.
    - intros [E1 E2]. f_equal; apply (Fdiv_eq_iff K); try assumption; symmetry; [exact E1|].
      rewrite E2. ring.
    - intro E. assert (E1 : y * y / (x * x) = u) by congruence.
      assert (E2 : y * (2 - x * x - y * y) / (x * x * x) = v) by congruence. split.
      + apply (Fdiv_eq_iff K) in E1; [|exact N2]. symmetry. exact E1.
      + apply (Fdiv_eq_iff K) in E2; [|exact N3]. rewrite <- E2. ring.
  Qed.
  Definition d0 (u v : K) : K := u * u * (u * u) - 2 * (u * u) + 2 * 2 * (v * v) + 1.
  Definition d1 (u v : K) : K := u * u * (u * u) * u - 2 * (u * u) * (v * v) - 2 * (u * u * u) - 2 * (v * v) + u.
  Definition e1 (u v : K) : K := u * u * (u * u) * u - 2 * (u * u * u) - 2 * 2 * u * (v * v) + u.
  Lemma d0_z0 u v : d0 u v = z0 K u v. Proof. unfold d0, z0, n2. ring. Qed.
  Lemma d1_z1 u v : d1 u v = z1 K u v. Proof. unfold d1, z1, n2. ring. Qed.
  Lemma psi_iff x y u v : on (Aff K u v) -> u <> 0 ->
    (x * d0 u v = 2 * 2 * v * (u * u - 1) /\ y * d1 u v = - e1 u v <-> (x, y) = psi (Aff K u v)).
  Proof.
    intros H N. pose proof (z0_nz K d A two d_nonsq HA u v H N) as Z0. pose proof (z1_nz K A A_nonsq u v H N) as Z1.
    cbn. destruct (Feqd u 0) as [?|_]; [contradiction|]. rewrite d0_z0, d1_z1. split.
    - intros [E1 E2]. f_equal; symmetry; apply (Fdiv_eq_iff K); try assumption; symmetry; [exact E1|].
      rewrite E2. unfold e1, n2. ring.
    - intro E. apply pair_equal_spec in E. destruct E as [E1 E2]. rewrite E1, E2. split; rewrite Fdiv_mul by assumption; [reflexivity|]. unfold e1, n2. ring.
  Qed.
  Lemma phi_rep X Y T Z x y : EdwP.erep K X Y T Z (x, y) -> x <> 0 ->
    rep K (X * (Y * Y)) (Y * (2 * (Z * Z) - Y * Y - X * X)) (X * (X * X)) (phi (x, y)).
  Proof.
    intros (HZ & EX & EY & _) N. cbn [fst snd] in *. cbn [Iso4.phi].
    destruct (Feqd x 0) as [?|_]; [contradiction|]. cbn. rewrite EX, EY. split; [repeat apply Fmul_nonzero; assumption|split; field; assumption].
  Qed.
  Lemma phi_zero P : fst P = 0 -> phi P = Inf K.
  Proof. destruct P as [x y]. cbn [fst]. intros ->. cbn. destruct (Feqd 0 (0 : K)) as [_|Q]; [reflexivity|destruct (Q eq_refl)]. Qed.
  Lemma phi_inf P : phi P = Inf K -> fst P = 0.
  Proof. destruct P as [x y]. cbn. destruct (Feqd x 0) as [E|Q]; [intros _; exact E|discriminate]. Qed.
  Definition cx (X Y Z : K) := 2 * 2 * Y * Z * (X * X - Z * Z).
  Definition cz0 (X Y Z : K) := X * X * (X * X) - 2 * (X * X) * (Z * Z) + Z * Z * (Z * Z) + 2 * 2 * (Y * Y) * (Z * Z).
  Definition cy (X Y Z : K) := - (X * X * X * (X * X) - 2 * (X * X * X) * (Z * Z) + X * (Z * Z * (Z * Z)) - 2 * 2 * X * (Y * Y) * (Z * Z)).
  Definition cz1 (X Y Z : K) := X * X * X * (X * X) - 2 * (X * X * X) * (Z * Z) + X * (Z * Z * (Z * Z)) - 2 * (X * X) * (Y * Y) * Z - 2 * (Y * Y) * (Z * Z * Z).
  Lemma psi_rep X Y Z u v : rep K X Y Z (Aff K u v) -> on (Aff K u v) -> u <> 0 ->
    EdwP.erep K (cx X Y Z * cz1 X Y Z) (cy X Y Z * cz0 X Y Z) (cx X Y Z * cy X Y Z) (cz0 X Y Z * cz1 X Y Z) (psi (Aff K u v)).
  Proof.
    intros (HZ & EX & EY) H N. pose proof (z0_nz K d A two d_nonsq HA u v H N) as Z0. pose proof (z1_nz K A A_nonsq u v H N) as Z1.
    assert (E0 : cz0 X Y Z = z0 K u v * (Z * Z * (Z * Z))) by (unfold cz0, z0, n2; rewrite EX, EY; ring).
    assert (E1 : cz1 X Y Z = z1 K u v * (Z * Z * (Z * Z) * Z)) by (unfold cz1, z1, n2; rewrite EX, EY; ring).
    assert (E2 : cx X Y Z = 2 * 2 * v * (u * u - 1) * (Z * Z * (Z * Z))) by (unfold cx; rewrite EX, EY; ring).
    assert (E3 : cy X Y Z = - (u * (n2 K u - 2 * 2 * (v * v))) * (Z * Z * (Z * Z) * Z)) by (unfold cy, n2; rewrite EX, EY; ring).
    rewrite E0, E1, E2, E3. cbn [Iso4.psi]. destruct (Feqd u 0) as [?|_]; [contradiction|]. unfold EdwP.erep. cbn [fst snd].
    clear E0 E1 E2 E3. set (a0 := z0 K u v) in *. set (a1 := z1 K u v) in *. set (a2 := n2 K u). clearbody a0 a1 a2.
    split; [repeat apply Fmul_nonzero; assumption|]. repeat split; field; repeat split; assumption.
  Qed.
  Lemma u_zero v : on (Aff K 0 v) -> v = 0.
  Proof. cbn. unfold cubic. intro H. apply (Fsqr_zero K). rewrite H. ring. Qed.
  Lemma psi_bad X Y Z v : rep K X Y Z (Aff K 0 v) -> on (Aff K 0 v) ->
    cx X Y Z * cz1 X Y Z = 0 /\ cy X Y Z * cz0 X Y Z = 0 /\ cx X Y Z * cy X Y Z = 0 /\ cz0 X Y Z * cz1 X Y Z = 0.
  Proof.
    intros (HZ & EX & EY) H. rewrite (u_zero v H) in EY. unfold cx, cy, cz0, cz1. rewrite EX, EY. repeat split; ring.
  Qed.
End Alg.

Section Iso.
  Variable p : Z.
  Hypothesis Hp : prime p.
  Hypothesis Hp2 : 2 < p.
  Local Notation K := (ZpF p Hp).
  Local Notation two := (two_K p Hp Hp2).
  Variables a d A : K.
  Hypothesis a1 : a = F1.
  Hypothesis d_nonsq : forall s : K, Fmul s s <> d.
  Hypothesis HA : A = Fsub (Fadd F1 F1) (Fmul (Fmul (Fadd F1 F1) (Fadd F1 F1)) d).
  Hypothesis A_nonsq : forall s : K, Fmul s s <> Fsub (Fmul A A) (Fmul (Fadd F1 F1) (Fadd F1 F1)).
  Local Notation eon := (eon K F1 d).
  Local Notation on := (on K A F1 F0).
  Local Notation phi := (phi K).
  Local Notation psi := (psi K).
  Local Notation zz := (EdwP.zz p Hp).
  Local Notation ap := (ap p Hp).

  Lemma phi_K (x y u v : K) :
    ((p | zv u * zv x ^ 2 - zv y ^ 2) /\ (p | zv v * zv x ^ 3 - (2 - zv x ^ 2 - zv y ^ 2) * zv y))
    <-> (Fmul u (Fmul x x) = Fmul y y
         /\ Fmul v (Fmul (Fmul x x) x) = Fmul (Fsub (Fsub (Fadd F1 F1) (Fmul x x)) (Fmul y y)) y).
  Proof.
    rewrite <- !of_Z_div by lia.
    replace (zv x ^ 3) with (zv x * zv x * zv x) by ring. rewrite !Z.pow_2_r. change 2 with (1 + 1).
    split; intros [H1 H2]; (split; [revert H1|revert H2]; pushZ; exact (fun h => h)).
  Qed.
  Lemma isogeny4_phi P M : isogeny4 p (zz P) M <-> M = ap (phi P).
  Proof.
    destruct P as [x y]. unfold isogeny4, EdwP.zz. cbn [fst snd]. rewrite (dvd_zv p Hp Hp2). destruct (Feqd x F0) as [E|N].
    - rewrite (phi_zero K (x, y) E). split.
      + intros [[_ ->]|(u & v & _ & _ & _ & N & _)]; [reflexivity|destruct N; apply (dvd_zv p Hp Hp2); exact E].
      + intros ->. left. split; [exact E|reflexivity].
    - split.
      + intros [[E _]|(u & v & -> & Cu & Cv & _ & D)]; [contradiction|].
        destruct (WeierProps.coord_K p Hp u Cu) as [u' ->], (WeierProps.coord_K p Hp v Cv) as [v' ->].
        change (Affine (zv u') (zv v')) with (ap (Aff K u' v')). f_equal. symmetry.
        apply (phi_iff K x y u' v' N), phi_K. exact D.
      + intros ->. right. destruct (phi (x, y)) as [|u v] eqn:E; [destruct (N (phi_inf K _ E))|].
        exists (zv u), (zv v). split; [reflexivity|]. split; [apply zv_range; lia|]. split; [apply zv_range; lia|]. split; [rewrite (dvd_zv p Hp Hp2); exact N|].
        apply phi_K, (phi_iff K x y u v N). exact E.
  Qed.
  Lemma psi_K (x y u v : K) :
    ((p | zv x * (zv u ^ 4 - 2 * zv u ^ 2 + 4 * zv v ^ 2 + 1) - 4 * zv v * (zv u ^ 2 - 1))
     /\ (p | zv y * (zv u ^ 5 - 2 * zv u ^ 2 * zv v ^ 2 - 2 * zv u ^ 3 - 2 * zv v ^ 2 + zv u) + (zv u ^ 5 - 2 * zv u ^ 3 - 4 * zv u * zv v ^ 2 + zv u)))
    <-> (Fmul x (d0 K u v) = Fmul (Fmul (Fmul (Fadd F1 F1) (Fadd F1 F1)) v) (Fsub (Fmul u u) F1) /\ Fmul y (d1 K u v) = Fopp (e1 K u v)).
  Proof.
    replace (zv u ^ 4) with (zv u * zv u * (zv u * zv u)) by ring. replace (zv u ^ 5) with (zv u * zv u * (zv u * zv u) * zv u) by ring.
    replace (zv u ^ 3) with (zv u * zv u * zv u) by ring. rewrite !Z.pow_2_r.
    set (s := zv u * zv u * (zv u * zv u) * zv u - 2 * (zv u * zv u * zv u) - 4 * zv u * (zv v * zv v) + zv u).
    match goal with |- _ /\ (p | ?a + s) <-> _ => replace (a + s) with (a - - s) by ring end. unfold s. clear s.
    rewrite <- !of_Z_div by lia. change 4 with ((1 + 1) * (1 + 1)). change 2 with (1 + 1). unfold d0, d1, e1.
    split; intros [H1 H2]; (split; [revert H1|revert H2]; pushZ; exact (fun h => h)).
  Qed.
  Lemma isogeny4_psi M E : on M -> (isogeny4_dual p (ap M) E <-> E = zz (psi M)).
  Proof.
    intro H. unfold isogeny4_dual. destruct M as [|u v].
    - cbn [CurveP.ap Iso4.psi]. rewrite (zz_zero' p Hp Hp2). split.
      + intros [[_ E0]|(u & v & E0 & _)]; [exact E0|discriminate E0].
      + intros ->. left. split; [left; reflexivity|reflexivity].
    - cbn [CurveP.ap]. destruct (Feqd u F0) as [E0|N].
      + cbn [Iso4.psi]. destruct (Feqd u F0) as [_|N]; [|contradiction]. rewrite (zz_zero' p Hp Hp2). split.
        * intros [[_ ->]|(u' & v' & Q & N & _)]; [reflexivity|]. exfalso. apply N. injection Q as <- <-. rewrite (dvd_zv p Hp Hp2). exact E0.
        * intros ->. left. split; [right; exists (zv v); rewrite E0; reflexivity|reflexivity].
      + split.
        * intros [[[Q|[v' Q]] _]|(u' & v' & Q & _ & Cx & Cy & D)].
          -- discriminate Q.
          -- exfalso. apply N. apply Zp_eq. injection Q as Q _. rewrite Q. reflexivity.
          -- injection Q as <- <-. destruct E as [x y]. cbn [fst snd] in *.
             destruct (WeierProps.coord_K p Hp x Cx) as [x' ->], (WeierProps.coord_K p Hp y Cy) as [y' ->].
             change (zv x', zv y') with (zz (x', y')). f_equal. apply (psi_iff K d A two d_nonsq HA A_nonsq x' y' u v H N), psi_K. exact D.
        * intros ->. right. exists (zv u), (zv v). split; [reflexivity|]. split; [rewrite (dvd_zv p Hp Hp2); exact N|].
          destruct (psi (Aff K u v)) as [x y] eqn:E. unfold EdwP.zz. cbn [fst snd].
          split; [apply zv_range; lia|]. split; [apply zv_range; lia|]. apply psi_K.
          apply (psi_iff K d A two d_nonsq HA A_nonsq x y u v H N). symmetry. exact E.
  Qed.

  Variable m : Ed4isoMt448.
  Hypothesis ef0 : ECurve.c_f (e4_e0 m) = mkFp p.
  Hypothesis ea0 : ECurve.c_a (e4_e0 m) = fe a.
  Hypothesis ed0 : ECurve.c_d (e4_e0 m) = fe d.
  Variable b : K.
  Hypothesis ef1 : MCurve.c_f (e4_e1 m) = mkFp p.
  Hypothesis ea1 : MCurve.c_a (e4_e1 m) = fe A.
  Hypothesis eb1 : MCurve.c_b (e4_e1 m) = fe b.
  Hypothesis b1 : b = F1.
  Local Notation erep := (EdwP.wrep p Hp a d (e4_e0 m)).
  Local Notation mrep := (MontP.wrep p Hp A (e4_e1 m)).

  Lemma push4_wrep P E : erep P E -> exists Q, ed448_push m P = Ret Q /\ mrep Q (phi E).
  Proof.
    intros HP. unfold ed448_push. pose proof (EdwP.is_zero_wrep p Hp a d _ P E HP) as IZ.
    destruct (ECurve.pt_is_zero P).
    - destruct (MontP.identity_wrep p Hp Hp2 A b (e4_e1 m) ef1 ea1 eb1 b1) as (Q & EQ & HQ). exists Q. split; [exact EQ|].
      rewrite (phi_zero K E); [exact HQ|apply IZ; reflexivity].
    - assert (NX : fst E <> F0) by (intro Z; apply IZ in Z; discriminate Z).
      destruct HP as (EP & (X & Y & T & Z & CP & RP) & OE). rewrite CP. cbn [ECurve.px ECurve.py ECurve.pz EdwP.mk]. rewrite ef1. fes.
      destruct E as [x y]. pose proof (phi_rep K X Y T Z x y RP NX) as R.
      rewrite a1 in OE. pose proof (on_phi K d A HA (x, y) OE) as O.
      rewrite (MapsP.of_Z_2 p).
      match goal with |- context [MCurve.new_proy_point _ ?t] => change t with (MontP.mk p Hp (Fmul X (Fmul Y Y)) (Fmul Y (Fsub (Fsub (Fmul (Fadd F1 F1) (Fmul Z Z)) (Fmul Y Y)) (Fmul X X))) (Fmul X (Fmul X X))) end.
      rewrite (MontP.new_proy_mk p Hp Hp2 A b (e4_e1 m) ea1 eb1 b1 _ _ _ _ R O).
      eexists. split; [reflexivity|]. apply MontP.wrep_mk; assumption.
  Qed.
  Lemma pull4_wrep Q M : mrep Q M -> M <> Aff K F0 F0 -> exists P, ed448_pull m Q = Ret P /\ erep P (psi M).
  Proof.
    intros HQ N. unfold ed448_pull. pose proof (MontP.is_zero_wrep p Hp A _ Q M HQ) as IZ.
    destruct (MCurve.pt_is_zero Q).
    - rewrite (proj1 IZ eq_refl). apply (EdwP.identity_wrep p Hp Hp2 a d (e4_e0 m) ef0 ea0 ed0).
    - destruct M as [|u v]; [discriminate (proj2 IZ eq_refl)|].
      destruct HQ as (EQ & (X & Y & Z & CQ & RQ) & OM).
      assert (NU : u <> F0). { intro E. apply N. rewrite E in *. f_equal. apply (u_zero K A). exact OM. }
      rewrite CQ. cbn [MCurve.px MCurve.py MCurve.pz MontP.mk]. rewrite ef0. fes. rewrite (MapsP.of_Z_2 p), (MapsP.of_Z_4 p).
      pose proof (psi_rep K d A two d_nonsq HA A_nonsq X Y Z u v RQ OM NU) as R.
      pose proof (eon_psi K d A two d_nonsq HA A_nonsq _ OM) as O. rewrite <- a1 in O.
      match goal with |- context [ECurve.new_proy_point _ ?t] => change t with (EdwP.mk p Hp (Fmul (cx K X Y Z) (cz1 K X Y Z)) (Fmul (cy K X Y Z) (cz0 K X Y Z)) (Fmul (cx K X Y Z) (cy K X Y Z)) (Fmul (cz0 K X Y Z) (cz1 K X Y Z))) end.
      rewrite (EdwP.new_proy_mk p Hp Hp2 a d (e4_e0 m) ea0 ed0 _ _ _ _ _ R O).
      eexists. split; [reflexivity|]. apply EdwP.wrep_mk; assumption.
  Qed.
  Lemma pull4_bad Q : mrep Q (Aff K F0 F0) ->
    ed448_pull m Q = Ret (ECurve.mkPoint (e4_e0 m) (EdwP.mk p Hp F0 F0 F0 F0)).
  Proof.
    intros HQ. unfold ed448_pull. pose proof (MontP.is_zero_wrep p Hp A _ Q _ HQ) as IZ.
    destruct (MCurve.pt_is_zero Q); [discriminate (proj1 IZ eq_refl)|].
    destruct HQ as (EQ & (X & Y & Z & CQ & RQ) & OM).
    rewrite CQ. cbn [MCurve.px MCurve.py MCurve.pz MontP.mk]. rewrite ef0. fes. rewrite (MapsP.of_Z_2 p), (MapsP.of_Z_4 p).
    destruct (psi_bad K A X Y Z F0 RQ OM) as (E1 & E2 & E3 & E4).
    match goal with |- context [ECurve.new_proy_point _ ?t] => change t with (EdwP.mk p Hp (Fmul (cx K X Y Z) (cz1 K X Y Z)) (Fmul (cy K X Y Z) (cz0 K X Y Z)) (Fmul (cx K X Y Z) (cy K X Y Z)) (Fmul (cz0 K X Y Z) (cz1 K X Y Z))) end.
    rewrite E1, E2, E3, E4. unfold ECurve.new_proy_point.
    destruct (EdwP.on_curve_mk p Hp Hp2 a d (e4_e0 m) ea0 ed0 F0 F0 F0 F0) as (t & -> & Ht). cbn [bind].
    rewrite (proj2 Ht (etest_zero K a d)). reflexivity.
  Qed.
  Lemma bad_eqb P E : erep P E -> ECurve.pt_eqb (ECurve.mkPoint (e4_e0 m) (EdwP.mk p Hp F0 F0 F0 F0)) P = Ret true.
  Proof.
    intros (EP & (X & Y & T & Z & CP & RP) & OA). unfold ECurve.pt_eqb. rewrite CP. cbn [ECurve.pe ECurve.pc]. rewrite EP, EdwP.curve_eqb_refl.
    cbn [ECurve.px ECurve.py ECurve.ptt ECurve.pz EdwP.mk]. fes. f_equal. cbn [andb].
    assert (Q : forall u v : K, fpelt_eqb (fe (Fmul F0 u)) (fe (Fmul F0 v)) = true).
    { intros u v. apply fpelt_eqb_fe. rewrite !(zmul_0l K). reflexivity. }
    repeat match goal with |- context [fpelt_eqb (fe ?u) (fe ?v)] => rewrite (Q _ _ : fpelt_eqb (fe u) (fe v) = true) end. reflexivity.
  Qed.
End Iso.
