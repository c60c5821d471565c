(** Properties C40 to C42: the maps from the field to the curves. *)
From Coq Require Import ZArith Znumtheory Lia String Bool List.
From Verif.Math Require Import Fld Zp Residue MapAlg.
From Verif.Spec Require Import Arith Curve Maps.
From Verif.Model Require Import Out BigInt PrimeField Maps.
From Verif.Model Require WCurve MCurve.
From Verif.Proofs Require Import FieldP FieldProps CurveP SmallP MapsP.
From Verif.Proofs Require WeierP WeierProps MontProps.
From Verif.Spec Require Export Morphisms.
Import ListNotations.
Open Scope Z_scope.
Open Scope string_scope.

Lemma wfield_open e : wfield e -> exists p (Hp : prime p) (a b : ZpF p Hp), 2 < p /\ sqrt_modulus p
  /\ WCurve.c_f e = mkFp p /\ WCurve.c_a e = fe a /\ WCurve.c_b e = fe b.
Proof.
  intros (Hp & Hp2 & Hm & Va & Vb). exists (modulus (WCurve.c_f e)), Hp.
  destruct (valid_ex _ _ Va) as [a Ea], (valid_ex _ _ Vb) as [b Eb]. exists a, b.
  repeat (split; [assumption|]). split; [destruct (WCurve.c_f e); reflexivity|]. split; assumption.
Qed.
Lemma mfield_open e : mfield e -> exists p (Hp : prime p) (a b : ZpF p Hp), 2 < p /\ sqrt_modulus p
  /\ MCurve.c_f e = mkFp p /\ MCurve.c_a e = fe a /\ MCurve.c_b e = fe b.
Proof.
  intros (Hp & Hp2 & Hm & Va & Vb). exists (modulus (MCurve.c_f e)), Hp.
  destruct (valid_ex _ _ Va) as [a Ea], (valid_ex _ _ Vb) as [b Eb]. exists a, b.
  repeat (split; [assumption|]). split; [destruct (MCurve.c_f e); reflexivity|]. split; assumption.
Qed.
Ltac open_w H := destruct (wfield_open _ H) as (p & Hp & a & b & Hp2 & Hm & ef & ea & eb); rewrite ef; cbn [modulus].
Ltac open_m H := destruct (mfield_open _ H) as (p & Hp & a & b & Hp2 & Hm & ef & ea & eb); rewrite ef; cbn [modulus].

Section Dec.
  Variables (p : Z) (Hp : prime p) (Hp2 : 2 < p).
  Local Notation K := (ZpF p Hp).
  Lemma sw_ok_dec (a b z : K) : {sw_ok p Hp a b z} + {~ sw_ok p Hp a b z}.
  Proof.
    unfold sw_ok. destruct (Feqd a F0); [right; tauto|]. destruct (Feqd b F0); [right; tauto|].
    destruct (sqd p Hp Hp2 z); [right; tauto|]. destruct (Feqd z (Fopp F1)); [right; tauto|].
    destruct (sqd p Hp Hp2 (g K a b (Fmul b (Finv (Fmul z a))))); [left; tauto|right; tauto].
  Qed.
  Lemma sv_ok_dec (a b z : K) : {sv_ok p Hp a b z} + {~ sv_ok p Hp a b z}.
  Proof.
    unfold sv_ok. destruct (Feqd (g K a b z) F0); [right; tauto|]. destruct (Feqd (sv_h K a z) F0); [right; tauto|].
    destruct (sqd p Hp Hp2 (Fmul (Fopp (sv_h K a z)) (Finv (Fmul (Fmul (Fadd F1 F1) (Fadd F1 F1)) (g K a b z))))); [|right; tauto].
    destruct (sqd p Hp Hp2 (g K a b z)); [left; tauto|]. destruct (sqd p Hp Hp2 (g K a b (sk_c2 K z))); [left|right]; tauto.
  Qed.
End Dec.

Section Odd.
  Variables (p : Z) (Hp : prime p) (Hp2 : 2 < p).
  Local Notation K := (ZpF p Hp).
  Lemma sw_x_opp (a b z u : K) : sw_x p Hp Hp2 a b z (Fopp u) = sw_x p Hp Hp2 a b z u.
  Proof.
    assert (E : sw_x1 K a b z (Fopp u) = sw_x1 K a b z u) by (unfold sw_x1, sw_n, sw_t; rewrite !(opp_sq K); reflexivity).
    unfold sw_x. rewrite E. unfold sw_t. rewrite (opp_sq K). reflexivity.
  Qed.
  Lemma sign_opp (u y : K) : zv u <> 0 -> sign_follows (zv u) (zv y) -> sign_follows (zv (Fopp u : K)) (zv (Fopp y : K)).
  Proof.
    intros Nu S. destruct (Feqd y F0) as [->|Ny]; [left; rewrite (opp_zero K); reflexivity|].
    destruct S as [S|S]; [destruct Ny; apply Zp_eq; exact S|]. right.
    rewrite !(WeierP.parity_opp p Hp Hp2), S; [reflexivity| |exact Ny]. intro O. apply Nu. rewrite O. reflexivity.
  Qed.
End Odd.

(** *** C40 *)
(** SSWU::new accepts exactly the parameters of RFC 9380 *)
Lemma c40_new : forall e z, wfield e -> valid (modulus (WCurve.c_f e)) z ->
  (sswu_params (modulus (WCurve.c_f e)) (val (WCurve.c_a e)) (val (WCurve.c_b e)) (val z) -> exists m, sswu_new e z = Ret m)
  /\ (~ sswu_params (modulus (WCurve.c_f e)) (val (WCurve.c_a e)) (val (WCurve.c_b e)) (val z) ->
      sswu_new e z = Panic "wrong input parameters").
Proof.
  intros e z W. open_w W. intro Vz. destruct (valid_ex _ _ Vz) as [k ->]. rewrite ea, eb. cbn [val fe].
  rewrite (sswu_params_K p Hp Hp2 a b k). destruct (sswu_new_K p Hp Hp2 a b e ef ea eb k) as [H1 H2]. split; intro H.
  - eexists. apply H1, H.
  - apply H2, H.
Qed.
(** the map of accepted parameters returns, for every u, the point of the specification *)
Lemma c40_map : forall e z u m, wfield e -> valid (modulus (WCurve.c_f e)) z -> valid (modulus (WCurve.c_f e)) u ->
  sswu_new e z = Ret m ->
  exists P, sswu_map m u = Ret P /\ forall x y, WPoints.wpoint e P (Affine x y) <->
    sswu_point (modulus (WCurve.c_f e)) (val (WCurve.c_a e)) (val (WCurve.c_b e)) (val z) (val u) x y.
Proof.
  intros e z u m W. open_w W. intros Vz Vu. destruct (valid_ex _ _ Vz) as [k ->], (valid_ex _ _ Vu) as [v ->]. rewrite ea, eb. cbn [val fe].
  destruct (sswu_new_K p Hp Hp2 a b e ef ea eb k) as [H1 H2]. intro E.
  destruct (sw_ok_dec p Hp Hp2 a b k) as [H|H]; [|rewrite (H2 H) in E; discriminate]. rewrite (H1 H) in E. injection E as <-.
  exact (sswu_result p Hp Hp2 Hm a b e ef ea eb k v H).
Qed.
(** in particular it never panics, its result is an affine point of the curve, and the sign of y is that of u *)
Lemma c40_on_curve : forall e z u m, wfield e -> valid (modulus (WCurve.c_f e)) z -> valid (modulus (WCurve.c_f e)) u ->
  sswu_new e z = Ret m ->
  exists P x y, sswu_map m u = Ret P /\ WPoints.wpoint e P (Affine x y)
    /\ on_cubic (modulus (WCurve.c_f e)) 1 0 (val (WCurve.c_a e)) (val (WCurve.c_b e)) (Affine x y)
    /\ sign_follows (val u) y.
Proof.
  intros e z u m W Vz Vu E. destruct (c40_map e z u m W Vz Vu E) as (P & EP & HP).
  revert W Vz Vu E HP. intros W. open_w W. intros Vz Vu. destruct (valid_ex _ _ Vz) as [k ->], (valid_ex _ _ Vu) as [v ->].
  rewrite ea, eb. cbn [val fe]. intros E HP.
  destruct (sswu_new_K p Hp Hp2 a b e ef ea eb k) as [H1 H2].
  destruct (sw_ok_dec p Hp Hp2 a b k) as [H|H]; [|rewrite (H2 H) in E; discriminate]. clear E.
  destruct (sswu_map_K p Hp Hp2 Hm a b e ef ea eb k v H) as (y & Ey & Sy & Em).
  exists P, (zv (sw_x p Hp Hp2 a b k v)), (zv y). split; [exact EP|].
  assert (HA : WPoints.wpoint e P (Affine (zv (sw_x p Hp Hp2 a b k v)) (zv y))).
  { apply HP. apply (sswu_point_K p Hp Hp2 a b k v _ _ H). exists y. auto. }
  split; [exact HA|]. split; [|exact Sy]. destruct HA as (_ & _ & _ & _ & _ & O). rewrite ef, ea, eb in O. exact O.
Qed.
(** opposite inputs have opposite images *)
Lemma c40_odd : forall e z u m P x y, wfield e -> valid (modulus (WCurve.c_f e)) z -> valid (modulus (WCurve.c_f e)) u ->
  sswu_new e z = Ret m -> val u <> 0 -> sswu_map m u = Ret P -> WPoints.wpoint e P (Affine x y) ->
  exists v Q, neg u = Ret v /\ sswu_map m v = Ret Q
    /\ WPoints.wpoint e Q (negative (modulus (WCurve.c_f e)) (Affine x y)).
Proof.
  intros e z u m P x y W. open_w W. intros Vz Vu. destruct (valid_ex _ _ Vz) as [k ->], (valid_ex _ _ Vu) as [v ->]. cbn [val fe].
  intros E Nu EP HP. destruct (sswu_new_K p Hp Hp2 a b e ef ea eb k) as [H1 H2].
  destruct (sw_ok_dec p Hp Hp2 a b k) as [H|H]; [|rewrite (H2 H) in E; discriminate]. rewrite (H1 H) in E. injection E as <-.
  destruct (sswu_result p Hp Hp2 Hm a b e ef ea eb k v H) as (P' & EP' & HP'). rewrite EP in EP'. injection EP' as <-.
  apply HP', (sswu_point_K p Hp Hp2 a b k v _ _ H) in HP. destruct HP as (Y & -> & -> & EY & SY).
  exists (fe (zopp v : ZpF p Hp)). rewrite neg_fe by lia.
  destruct (sswu_result p Hp Hp2 Hm a b e ef ea eb k (zopp v) H) as (Q & EQ & HQ). exists Q. split; [reflexivity|]. split; [exact EQ|].
  cbn [negative]. replace ((- zv Y) mod p) with (zv (Fopp Y : ZpF p Hp)) by reflexivity.
  apply HQ, (sswu_point_K p Hp Hp2 a b k (zopp v) _ _ H). exists (Fopp Y).
  assert (EX : sw_x p Hp Hp2 a b k (zopp v) = sw_x p Hp Hp2 a b k v) by apply sw_x_opp. rewrite EX.
  split; [reflexivity|]. split; [reflexivity|]. split; [rewrite (opp_sq (ZpF p Hp)); exact EY|]. apply sign_opp; assumption.
Qed.

(** *** C41 *)
(** SVDW::new accepts exactly the parameters of RFC 9380 *)
Lemma c41_new : forall e z, wfield e -> valid (modulus (WCurve.c_f e)) z ->
  (svdw_params (modulus (WCurve.c_f e)) (val (WCurve.c_a e)) (val (WCurve.c_b e)) (val z) -> exists m, svdw_new e z = Ret m)
  /\ (~ svdw_params (modulus (WCurve.c_f e)) (val (WCurve.c_a e)) (val (WCurve.c_b e)) (val z) ->
      svdw_new e z = Panic "wrong input parameters").
Proof.
  intros e z W. open_w W. intro Vz. destruct (valid_ex _ _ Vz) as [k ->]. rewrite ea, eb. cbn [val fe].
  rewrite (svdw_params_K p Hp Hp2 a b k). destruct (svdw_new_K p Hp Hp2 Hm a b e ef ea eb k) as [H1 H2]. split; intro H.
  - destruct (H1 H) as (c3 & E & _). eexists. exact E.
  - apply H2, H.
Qed.
(** the map of accepted parameters returns, for every u, the point of the specification *)
Lemma c41_map : forall e z u m, wfield e -> valid (modulus (WCurve.c_f e)) z -> valid (modulus (WCurve.c_f e)) u ->
  svdw_new e z = Ret m ->
  exists P, svdw_map m u = Ret P /\ forall x y, WPoints.wpoint e P (Affine x y) <->
    svdw_point (modulus (WCurve.c_f e)) (val (WCurve.c_a e)) (val (WCurve.c_b e)) (val z) (val u) x y.
Proof.
  intros e z u m W. open_w W. intros Vz Vu. destruct (valid_ex _ _ Vz) as [k ->], (valid_ex _ _ Vu) as [v ->]. rewrite ea, eb. cbn [val fe].
  destruct (svdw_new_K p Hp Hp2 Hm a b e ef ea eb k) as [H1 H2]. intro E.
  destruct (sv_ok_dec p Hp Hp2 a b k) as [H|H]; [|rewrite (H2 H) in E; discriminate].
  destruct (H1 H) as (c3 & E' & S3 & V3). rewrite E' in E. injection E as <-.
  exact (svdw_result p Hp Hp2 Hm a b e ef ea eb k c3 S3 V3 v H).
Qed.
(** in particular it never panics, its result is an affine point of the curve, and the sign of y is that of u *)
Lemma c41_on_curve : forall e z u m, wfield e -> valid (modulus (WCurve.c_f e)) z -> valid (modulus (WCurve.c_f e)) u ->
  svdw_new e z = Ret m ->
  exists P x y, svdw_map m u = Ret P /\ WPoints.wpoint e P (Affine x y)
    /\ on_cubic (modulus (WCurve.c_f e)) 1 0 (val (WCurve.c_a e)) (val (WCurve.c_b e)) (Affine x y)
    /\ sign_follows (val u) y.
Proof.
  intros e z u m W. open_w W. intros Vz Vu. destruct (valid_ex _ _ Vz) as [k ->], (valid_ex _ _ Vu) as [v ->].
  rewrite ea, eb. cbn [val fe]. intro E.
  destruct (svdw_new_K p Hp Hp2 Hm a b e ef ea eb k) as [H1 H2].
  destruct (sv_ok_dec p Hp Hp2 a b k) as [H|H]; [|rewrite (H2 H) in E; discriminate].
  destruct (H1 H) as (c3 & E' & S3 & V3). rewrite E' in E. injection E as <-.
  destruct (svdw_result p Hp Hp2 Hm a b e ef ea eb k c3 S3 V3 v H) as (P & EP & HP).
  destruct (svdw_map_K p Hp Hp2 Hm a b e ef ea eb k c3 S3 v H) as (y & Ey & Sy & _).
  exists P, (zv (sv_x p Hp Hp2 a b k c3 v)), (zv y). split; [exact EP|].
  assert (HA : WPoints.wpoint e P (Affine (zv (sv_x p Hp Hp2 a b k c3 v)) (zv y))).
  { apply HP. apply (svdw_point_K p Hp Hp2 a b k c3 S3 V3 v _ _ H). exists y. auto. }
  split; [exact HA|]. split; [|exact Sy]. destruct HA as (_ & _ & _ & _ & _ & O). rewrite ef, ea, eb in O. exact O.
Qed.

(** *** C42 *)
(** Ell2::new only checks that the coefficients are not zero *)
Lemma c42_new : forall e z, mfield e -> valid (modulus (MCurve.c_f e)) z ->
  (val (MCurve.c_a e) <> 0 -> val (MCurve.c_b e) <> 0 -> exists m, ell2_new e z = Ret m)
  /\ (val (MCurve.c_a e) = 0 \/ val (MCurve.c_b e) = 0 -> ell2_new e z = Panic "wrong input parameters").
Proof.
  intros e z W. open_m W. intro Vz. destruct (valid_ex _ _ Vz) as [k ->]. rewrite ea, eb. cbn [val fe].
  destruct (ell2_new_K p Hp Hp2 a b e ea eb k) as [H1 H2].
  assert (Z0 : forall x : ZpF p Hp, x = F0 <-> zv x = 0) by (intro x; split; [intros ->; reflexivity|intro O; apply Zp_eq; exact O]).
  rewrite !Z0 in H1, H2. split.
  - intros Na Nb. eexists. apply H1. auto.
  - intro O. apply H2. tauto.
Qed.
(** when b = 1 or b = -1 the map returns the point of the specification whenever there is one, and panics
    otherwise; there is one for all u when z is not a square *)
Lemma c42_map : forall e z u m, mfield e -> valid (modulus (MCurve.c_f e)) z -> valid (modulus (MCurve.c_f e)) u ->
  (modulus (MCurve.c_f e) | val (MCurve.c_b e) * val (MCurve.c_b e) - 1) -> ell2_new e z = Ret m ->
  (forall x0 y0, ell2_point (modulus (MCurve.c_f e)) (val (MCurve.c_a e)) (val (MCurve.c_b e)) (val z) (val u) x0 y0 ->
     exists P, ell2_map m u = Ret P /\ forall x y, MPoints.mpoint e P (Affine x y) <->
       ell2_point (modulus (MCurve.c_f e)) (val (MCurve.c_a e)) (val (MCurve.c_b e)) (val z) (val u) x y)
  /\ ((forall x y, ~ ell2_point (modulus (MCurve.c_f e)) (val (MCurve.c_a e)) (val (MCurve.c_b e)) (val z) (val u) x y) ->
      ell2_map m u = Panic "not valid point").
Proof.
  intros e z u m W. open_m W. intros Vz Vu. destruct (valid_ex _ _ Vz) as [k ->], (valid_ex _ _ Vu) as [v ->]. rewrite ea, eb. cbn [val fe].
  intros B E. destruct (ell2_new_K p Hp Hp2 a b e ea eb k) as [H1 H2].
  assert (B2 : Fmul b b = (F1 : ZpF p Hp)).
  { apply (of_Z_div p (zv b * zv b) 1) in B; [|lia]. revert B. pushZ. exact (fun h => h). }
  assert (N : a <> F0 /\ b <> F0).
  { destruct (Feqd a F0) as [O|Na]; [rewrite H2 in E by tauto; discriminate|]. destruct (Feqd b F0) as [O|Nb]; [rewrite H2 in E by tauto; discriminate|]. auto. }
  rewrite (H1 N) in E. injection E as <-. exact (ell2_result p Hp Hp2 Hm a b e ef ea eb k B2 v).
Qed.
Lemma c42_total : forall e z u m, mfield e -> valid (modulus (MCurve.c_f e)) z -> valid (modulus (MCurve.c_f e)) u ->
  (modulus (MCurve.c_f e) | val (MCurve.c_b e) * val (MCurve.c_b e) - 1) -> ell2_new e z = Ret m ->
  ~ square_mod (modulus (MCurve.c_f e)) (val z) ->
  exists P x y, ell2_map m u = Ret P /\ MPoints.mpoint e P (Affine x y)
    /\ ell2_point (modulus (MCurve.c_f e)) (val (MCurve.c_a e)) (val (MCurve.c_b e)) (val z) (val u) x y.
Proof.
  intros e z u m W Vz Vu B E Nz. destruct (c42_map e z u m W Vz Vu B E) as [H _]. revert W Vz Vu B E Nz H.
  intro W. open_m W. intros Vz Vu. destruct (valid_ex _ _ Vz) as [k ->], (valid_ex _ _ Vu) as [v ->]. rewrite ea, eb. cbn [val fe].
  intros B E Nz H.
  assert (B2 : Fmul b b = (F1 : ZpF p Hp)).
  { apply (of_Z_div p (zv b * zv b) 1) in B; [|lia]. revert B. pushZ. exact (fun h => h). }
  rewrite (sq_Z p Hp), of_Z_zv in Nz.
  destruct (ell2_exists p Hp Hp2 Hm a b e ef eb k B2 v Nz) as (x & y & Hxy).
  destruct (H x y Hxy) as (P & EP & HP). exists P, x, y. split; [exact EP|]. split; [apply HP, Hxy|exact Hxy].
Qed.
(** for the other values of b, accepted by Ell2::new, the map never returns anything else than (0,0) *)
Lemma c42_other_b : forall e z u m, mfield e -> valid (modulus (MCurve.c_f e)) z -> valid (modulus (MCurve.c_f e)) u ->
  ~ (modulus (MCurve.c_f e) | val (MCurve.c_b e) * val (MCurve.c_b e) - 1) -> ell2_new e z = Ret m ->
  ~ square_mod (modulus (MCurve.c_f e)) (val z) ->
  ell2_map m u = Panic "not valid point"
  \/ exists P, ell2_map m u = Ret P /\ forall A, MPoints.mpoint e P A <-> A = Affine 0 0.
Proof.
  intros e z u m W. open_m W. intros Vz Vu. destruct (valid_ex _ _ Vz) as [k ->], (valid_ex _ _ Vu) as [v ->]. rewrite eb. cbn [val fe].
  intros B E Nz. destruct (ell2_new_K p Hp Hp2 a b e ea eb k) as [H1 H2].
  assert (B2 : Fmul b b <> (F1 : ZpF p Hp)).
  { intro O. apply B. apply of_Z_div; [lia|]. pushZ. exact O. }
  rewrite (sq_Z p Hp), of_Z_zv in Nz.
  assert (N : a <> F0 /\ b <> F0).
  { destruct (Feqd a F0) as [O|Na]; [rewrite H2 in E by tauto; discriminate|]. destruct (Feqd b F0) as [O|Nb]; [rewrite H2 in E by tauto; discriminate|]. auto. }
  rewrite (H1 N) in E. injection E as <-. destruct N. apply (ell2_wrong_b p Hp Hp2 Hm a b e ef ea eb k v Nz); assumption.
Qed.
(** opposite inputs have the same image *)
Lemma c42_even : forall e z u m, mfield e -> valid (modulus (MCurve.c_f e)) z -> valid (modulus (MCurve.c_f e)) u ->
  ell2_new e z = Ret m -> exists v, neg u = Ret v /\ ell2_map m v = ell2_map m u.
Proof.
  intros e z u m W. open_m W. intros Vz Vu. destruct (valid_ex _ _ Vz) as [k ->], (valid_ex _ _ Vu) as [v ->]. intro E.
  exists (fe (zopp v : ZpF p Hp)). split; [apply neg_fe; lia|].
  assert (S : sqr (fe (zopp v : ZpF p Hp)) = sqr (fe v)).
  { rewrite !sqr_fe by lia. f_equal. f_equal. exact (opp_sq (ZpF p Hp) v). }
  unfold ell2_map. rewrite S. reflexivity.
Qed.

(** *** examples *)
Definition n11 (x : Z) : FpElt := mkFpElt x (mkFp 11).
Definition W11 : WCurve.Curve := WCurve.mkCurve (mkFp 11) (n11 1) (n11 1) 7 (n11 0) (n11 1) 1.
Definition V11 : WCurve.Curve := WCurve.mkCurve (mkFp 11) (n11 0) (n11 1) 7 (n11 0) (n11 1) 1.
Definition M11 (b : Z) : MCurve.Curve := MCurve.mkCurve (mkFp 11) (n11 5) (n11 b) (n11 1) 7 (n11 0) (n11 1) 1.
Lemma prime11 : prime 11. Proof. apply prime_small. reflexivity. Qed.
Lemma valid11 x : 0 <= x < 11 -> valid 11 (n11 x). Proof. intro H. split; [reflexivity|exact H]. Qed.
Lemma wfield11 : wfield W11.
Proof. split; [exact prime11|]. split; [cbn; lia|]. split; [left; reflexivity|]. split; split; cbn; (reflexivity || lia). Qed.
Lemma vfield11 : wfield V11.
Proof. split; [exact prime11|]. split; [cbn; lia|]. split; [left; reflexivity|]. split; split; cbn; (reflexivity || lia). Qed.
Lemma mfield11 b : 0 <= b < 11 -> mfield (M11 b).
Proof. intro. split; [exact prime11|]. split; [cbn; lia|]. split; [left; reflexivity|]. split; split; cbn; (reflexivity || lia). Qed.
Lemma nonsq11 : ~ square_mod 11 2.
Proof.
  intros [y D]. revert D. apply (no_root_small 11 (fun y => y * y - 2)); [lia| |reflexivity].
  intro x. exists ((x / 11) * (x + x mod 11)). pose proof (Z.div_mod x 11 ltac:(lia)). nia.
Qed.
Definition w11 (x y : Z) : WCurve.Point := WCurve.mkPoint W11 (WCurve.mkProy (n11 x) (n11 y) (n11 1)).
Definition v11 (x y : Z) : WCurve.Point := WCurve.mkPoint V11 (WCurve.mkProy (n11 x) (n11 y) (n11 1)).
Definition m11 (b x y : Z) : MCurve.Point := MCurve.mkPoint (M11 b) (MCurve.mkProy (n11 x) (n11 y) (n11 1)).
(** ordinary inputs with either candidate, and the exceptional inputs u = 0 and z u^2 = -1 *)
Example c40_ex : wfield W11 /\ exists m, sswu_new W11 (n11 2) = Ret m
  /\ sswu_map m (n11 0) = Ret (w11 6 6) /\ sswu_map m (n11 4) = Ret (w11 6 6) /\ sswu_map m (n11 7) = Ret (w11 6 5)
  /\ sswu_map m (n11 1) = Ret (w11 8 9) /\ sswu_map m (n11 2) = Ret (w11 8 2)
  /\ sswu_new W11 (n11 10) = Panic "wrong input parameters".
Proof. split; [exact wfield11|]. eexists. split; [vm_compute; reflexivity|]. repeat split; vm_compute; reflexivity. Qed.
Example c41_ex : wfield V11 /\ exists m, svdw_new V11 (n11 1) = Ret m
  /\ svdw_map m (n11 0) = Ret (v11 5 4) /\ svdw_map m (n11 1) = Ret (v11 0 1) /\ svdw_map m (n11 2) = Ret (v11 9 2)
  /\ svdw_map m (n11 5) = Ret (v11 10 0) /\ svdw_map m (n11 6) = Ret (v11 0 10)
  /\ svdw_new V11 (n11 0) = Panic "wrong input parameters".
Proof. split; [exact vfield11|]. eexists. split; [vm_compute; reflexivity|]. repeat split; vm_compute; reflexivity. Qed.
Example c42_ex : mfield (M11 1) /\ mfield (M11 10) /\ ~ square_mod 11 2
  /\ (exists m, ell2_new (M11 1) (n11 2) = Ret m /\ ell2_map m (n11 0) = Ret (m11 1 0 0) /\ ell2_map m (n11 1) = Ret (m11 1 4 4)
      /\ ell2_map m (n11 2) = Ret (m11 1 8 9))
  /\ (exists m, ell2_new (M11 10) (n11 2) = Ret m /\ ell2_map m (n11 0) = Ret (m11 10 6 4)
      /\ ell2_map m (n11 1) = Ret (m11 10 2 6)).
Proof.
  split; [apply mfield11; lia|]. split; [apply mfield11; lia|]. split; [exact nonsq11|].
  split; eexists; (split; [vm_compute; reflexivity|]); repeat split; vm_compute; reflexivity.
Qed.
(** Ell2::new accepts a square z and any b <> 0, for which the map panics *)
Lemma c42_accepted_parameters_never_panic_refuted : exists e z u m, mfield e /\ valid (modulus (MCurve.c_f e)) z
  /\ valid (modulus (MCurve.c_f e)) u /\ val (MCurve.c_b e) = 1 /\ ell2_new e z = Ret m /\ ell2_map m u = Panic "not valid point".
Proof.
  exists (M11 1), (n11 1), (n11 3). eexists. split; [apply mfield11; lia|]. split; [apply valid11; lia|]. split; [apply valid11; lia|].
  split; [reflexivity|]. split; vm_compute; reflexivity.
Qed.
Lemma c42_all_b_refuted : exists e z u m, mfield e /\ valid (modulus (MCurve.c_f e)) z
  /\ valid (modulus (MCurve.c_f e)) u /\ ~ square_mod (modulus (MCurve.c_f e)) (val z)
  /\ ell2_new e z = Ret m /\ ell2_map m u = Panic "not valid point".
Proof.
  exists (M11 2), (n11 2), (n11 1). eexists. split; [apply mfield11; lia|]. split; [apply valid11; lia|]. split; [apply valid11; lia|].
  split; [exact nonsq11|]. split; vm_compute; reflexivity.
Qed.
