(** The rational maps of the model on representatives of points. *)
From Coq Require Import ZArith Znumtheory Lia String Bool List Ring Field.
From Verif.Math Require Import Fld Zp Residue ECGroup RCB Edwards Birat.
From Verif.Spec Require Import Arith Curve RatMaps.
From Verif.Model Require Import Out BigInt PrimeField RationalMaps.
From Verif.Model Require MCurve ECurve.
From Verif.Proofs Require Import FieldP FieldProps CurveP.
From Verif.Proofs Require WeierP MontP EdwP MontProps EdwProps.
Import ListNotations.
Open Scope Z_scope.

Section Alg.
  Variable K : Fld.
  Add Field KF : (Fth K).
  Open Scope fld_scope.
  Variables a d A c : K.
  Hypothesis two : (2 : K) <> 0.
  Hypothesis a_sq : exists s : K, s * s = a.
  Hypothesis a_nz : a <> 0.
  Hypothesis d_nonsq : forall s : K, s * s <> d.
  Hypothesis Ha : a * (c * c) = A + 2.
  Hypothesis Hd : d * (c * c) = A - 2.
  Notation beta := (beta K c).
  Notation alpha := (alpha K c).

  Lemma one_y x y : eon K a d (x, y) -> x <> 0 -> 1 - y <> 0.
  Proof. intros H N E. apply N. apply (y_one K a d a_sq d_nonsq). replace (1 : K) with y; [exact H|]. symmetry. apply (Fsub_zero K). exact E. Qed.
  Lemma beta_iff x y u v : eon K a d (x, y) -> x <> 0 ->
    (u * (1 - y) = 1 + y /\ v * x = c * u <-> beta (x, y) = Aff K u v).
  Proof.
    intros H N. pose proof (one_y x y H N) as N1. cbn. destruct (Feqd x 0) as [?|_]; [contradiction|]. split.
    - intros [E1 E2]. assert (EU : (1 + y) / (1 - y) = u) by (apply (Fdiv_eq_iff K _ _ _ N1); symmetry; exact E1).
      rewrite EU. f_equal. apply (Fdiv_eq_iff K _ _ _ N). symmetry. exact E2.
    - intro E. assert (E1 : (1 + y) / (1 - y) = u) by congruence.
      assert (E2 : c * ((1 + y) / (1 - y)) / x = v) by congruence. rewrite E1 in E2.
      split; [symmetry; apply (Fdiv_eq_iff K _ _ _ N1); exact E1|]. symmetry. apply (Fdiv_eq_iff K _ _ _ N). exact E2.
  Qed.
  Lemma push_rep X Y T Z x y : EdwP.erep K X Y T Z (x, y) -> eon K a d (x, y) -> x <> 0 ->
    rep K (X * (Z + Y)) (c * Z * (Z + Y)) (X * (Z - Y)) (beta (x, y)).
  Proof.
    intros (HZ & EX & EY & _) H N. pose proof (one_y x y H N) as N1. cbn [fst snd] in *. cbn [Birat.beta].
    destruct (Feqd x 0) as [?|_]; [contradiction|]. cbn. rewrite EX, EY. split; [|split; field; repeat split; assumption].
    intro E. apply (Fmul_nonzero K (x * (1 - y)) (Z * Z)).
    - apply Fmul_nonzero; assumption.
    - apply Fmul_nonzero; assumption.
    - etransitivity; [|exact E]. ring.
  Qed.
  Lemma push_zero P : eon K a d P -> fst P = 0 -> P <> (0, - (1)) -> beta P = Inf K.
  Proof.
    destruct P as [x y]. cbn [fst]. intros H -> N. destruct (x_zero K a d y H) as [->| ->]; [|destruct (N eq_refl)].
    cbn. destruct (Feqd 0 (0 : K)) as [_|Q]; [|destruct (Q eq_refl)]. destruct (Feqd 1 (1 : K)) as [_|Q]; [reflexivity|destruct (Q eq_refl)].
  Qed.
  Lemma pull_rep X Y Z u v : rep K X Y Z (Aff K u v) -> on K A 1 0 (Aff K u v) -> v <> 0 ->
    EdwP.erep K (c * X * (X + Z)) (Y * (X - Z)) (c * X * (X - Z)) (Y * (X + Z)) (alpha (Aff K u v)).
  Proof.
    intros (HZ & EX & EY) H N. pose proof (u_m1 K a d A c two d_nonsq Ha Hd u v H) as N1.
    cbn [Birat.alpha]. destruct (Feqd v 0) as [?|_]; [contradiction|]. unfold EdwP.erep. cbn [fst snd]. rewrite EX, EY.
    split; [|split; [|split]; field; repeat split; assumption].
    intro E. apply (Fmul_nonzero K (v * (u + 1)) (Z * Z)).
    - apply Fmul_nonzero; assumption.
    - apply Fmul_nonzero; assumption.
    - etransitivity; [|exact E]. ring.
  Qed.
  Lemma pull_bad X Y Z : rep K X Y Z (Aff K 0 0) -> X = 0 /\ Y = 0.
  Proof. intros (_ & -> & ->). split; ring. Qed.
  Lemma zmul_0 (x y : K) : x * 0 * y = 0. Proof. ring. Qed.
  Lemma zmul_0l (y : K) : 0 * y = 0. Proof. ring. Qed.
  Lemma erep_two : EdwP.erep K 0 (- (1)) 0 1 (0, - (1)).
  Proof. unfold EdwP.erep. cbn [fst snd]. split; [apply F_1_neq_0|]. repeat split; ring. Qed.
  Lemma two_eon : eon K a d (0, - (1)).
  Proof. cbn. ring. Qed.
  Lemma etest_zero : EdwP.etest K a d 0 0 0 0.
  Proof. unfold EdwP.etest. split; ring. Qed.
  Lemma not_erep_zero T P : ~ EdwP.erep K 0 0 T 0 P.
  Proof. intros [H _]. apply H. reflexivity. Qed.
  Lemma lin1 (x y : K) : x * (1 - y) - (1 + y) = 0 <-> x * (1 - y) = 1 + y.
  Proof. apply Fsub_zero. Qed.
End Alg.

Section Bir.
  Variable p : Z.
  Hypothesis Hp : prime p.
  Hypothesis Hp2 : 2 < p.
  Local Notation K := (ZpF p Hp).
  Local Notation two := (two_K p Hp Hp2).
  Variables a d A c : K.
  Hypothesis a_sq : exists s : K, Fmul s s = a.
  Hypothesis a_nz : a <> F0.
  Hypothesis d_nonsq : forall s : K, Fmul s s <> d.
  Hypothesis Ha : Fmul a (Fmul c c) = Fadd A (Fadd F1 F1).
  Hypothesis Hd : Fmul d (Fmul c c) = Fsub A (Fadd F1 F1).
  Local Notation eon := (eon K a d).
  Local Notation on := (on K A F1 F0).
  Local Notation beta := (beta K c).
  Local Notation alpha := (alpha K c).
  Local Notation zz := (EdwP.zz p Hp).
  Local Notation ap := (ap p Hp).

  Lemma zv_m1 : zv (Fopp F1 : K) = p - 1.
  Proof.
    change ((- (1 mod p)) mod p = p - 1). rewrite (Z.mod_small 1) by lia. symmetry. apply Z.mod_unique with (-1); lia.
  Qed.
  Lemma zv_1 : zv (F1 : K) = 1. Proof. change (1 mod p = 1). apply Z.mod_small. lia. Qed.
  Lemma zz_two : zz (F0 : K, Fopp F1 : K) = (0, p - 1).
  Proof. unfold EdwP.zz. cbn [fst snd]. rewrite zv_m1. reflexivity. Qed.
  Lemma zz_zero' : zz (F0 : K, F1 : K) = (0, 1).
  Proof. unfold EdwP.zz. cbn [fst snd]. rewrite zv_1. reflexivity. Qed.
  Lemma ap_origin : ap (Aff K F0 F0) = Affine 0 0. Proof. reflexivity. Qed.
  Lemma dvd_zv (x : K) : (p | zv x) <-> x = F0.
  Proof.
    pose proof (of_Z_div p (zv x) 0 ltac:(lia)) as E. rewrite Z.sub_0_r, of_Z_zv in E. symmetry. exact E.
  Qed.
  Lemma gen_K (x y u v : K) :
    ((p | zv u * (1 - zv y) - (1 + zv y)) /\ (p | zv v * zv x - zv c * zv u))
    <-> (Fmul u (Fsub F1 y) = Fadd F1 y /\ Fmul v x = Fmul c u).
  Proof.
    rewrite <- !of_Z_div by lia. split; intros [H1 H2]; (split; [revert H1|revert H2]; pushZ; exact (fun h => h)).
  Qed.
  Lemma birational_beta P M : eon P -> (birational p (zv c) (zz P) M <-> M = ap (beta P)).
  Proof.
    destruct P as [x y]. intro H. unfold birational. destruct (Feqd x F0) as [->|N].
    - cbn [Birat.beta]. destruct (Feqd F0 (F0 : K)) as [_|Q]; [|destruct (Q eq_refl)].
      assert (NX : forall C : Prop, ~ (p | fst (zz (F0 : K, y))) -> C) by (intros C Q; destruct Q; exists 0; reflexivity).
      destruct (x_zero K a d y H) as [->| ->].
      + destruct (Feqd F1 (F1 : K)) as [_|Q]; [|destruct (Q eq_refl)]. cbn [CurveP.ap]. split.
        * intros [[_ E]|[[E _]|(u & v & _ & _ & _ & Q & _)]]; [exact E| |exact (NX _ Q)].
          exfalso. rewrite zz_zero' in E. pose proof (f_equal snd E) as E'. cbn in E'. lia.
        * intros ->. left. rewrite zz_zero'. split; reflexivity.
      + destruct (Feqd (Fopp F1) (F1 : K)) as [Q|_].
        { exfalso. apply (f_equal (fun t : K => zv t)) in Q. rewrite zv_m1, zv_1 in Q. lia. }
        change (ap (Aff K F0 F0)) with (Affine 0 0). split.
        * intros [[E _]|[[_ E]|(u & v & _ & _ & _ & Q & _)]]; [|exact E|exact (NX _ Q)].
          exfalso. rewrite zz_two in E. pose proof (f_equal snd E) as E'. cbn in E'. lia.
        * intros ->. right. left. rewrite zz_two. split; reflexivity.
    - assert (N0 : zv x <> 0) by (intro E; apply N, Zp_eq; rewrite E; reflexivity). split.
      + intros [[E _]|[[E _]|(u & v & -> & Cu & Cv & _ & D1 & D2)]].
        * exfalso. exact (N0 (f_equal fst E)).
        * exfalso. exact (N0 (f_equal fst E)).
        * destruct (WeierProps.coord_K p Hp u Cu) as [u' ->], (WeierProps.coord_K p Hp v Cv) as [v' ->].
          change (Affine (zv u') (zv v')) with (ap (Aff K u' v')). f_equal. symmetry.
          apply (beta_iff K a d c a_sq d_nonsq x y u' v' H N). apply gen_K. split; assumption.
      + intros ->. right. right. destruct (beta (x, y)) as [|u v] eqn:E.
        * exfalso. cbn [Birat.beta] in E. destruct (Feqd x F0) as [?|_]; [contradiction|discriminate E].
        * exists (zv u), (zv v). split; [reflexivity|]. split; [apply zv_range; lia|]. split; [apply zv_range; lia|].
          split; [cbn; rewrite dvd_zv; exact N|].
          apply gen_K. apply (beta_iff K a d c a_sq d_nonsq x y u v H N). exact E.
  Qed.
  Lemma birational_alpha P M : on M -> eon P -> (birational p (zv c) (zz P) (ap M) <-> P = alpha M).
  Proof.
    intros HM HP. rewrite (birational_beta P _ HP). split; intro E.
    - apply (ap_inj p Hp) in E. rewrite E. symmetry. apply (alpha_beta K a d A c two a_sq d_nonsq Ha Hd). exact HP.
    - rewrite E. f_equal. symmetry. apply (beta_alpha K a d A c two a_sq a_nz d_nonsq Ha Hd). exact HM.
  Qed.

  Variable m : Ed2Mt25519.
  Hypothesis ef0 : ECurve.c_f (ed_e0 m) = mkFp p.
  Hypothesis ea0 : ECurve.c_a (ed_e0 m) = fe a.
  Hypothesis ed0 : ECurve.c_d (ed_e0 m) = fe d.
  Variable b s : K.
  Hypothesis ef1 : MCurve.c_f (ed_e1 m) = mkFp p.
  Hypothesis ea1 : MCurve.c_a (ed_e1 m) = fe A.
  Hypothesis eb1 : MCurve.c_b (ed_e1 m) = fe b.
  Hypothesis b1 : b = F1.
  Hypothesis ec : ed_invsqr_d m = fe c.
  Local Notation erep := (EdwP.wrep p Hp a d (ed_e0 m)).
  Local Notation mrep := (MontP.wrep p Hp A (ed_e1 m)).

  Lemma push_wrep P E : erep P E -> E <> (F0, Fopp F1) -> exists Q, ed25519_push m P = Ret Q /\ mrep Q (beta E).
  Proof.
    intros HP N. unfold ed25519_push. pose proof (EdwP.is_zero_wrep p Hp a d _ P E HP) as IZ.
    destruct (ECurve.pt_is_zero P).
    - destruct (MontP.identity_wrep p Hp Hp2 A b (ed_e1 m) ef1 ea1 eb1 b1) as (Q & EQ & HQ). exists Q. split; [exact EQ|].
      rewrite (push_zero K a d c E); [exact HQ|apply HP|apply IZ; reflexivity|exact N].
    - assert (NX : fst E <> F0) by (intro Z; apply IZ in Z; discriminate Z).
      destruct HP as (EP & (X & Y & T & Z & CP & RP) & OE). rewrite CP. cbn [ECurve.px ECurve.py ECurve.pz EdwP.mk]. rewrite ec. fes.
      destruct E as [x y]. pose proof (push_rep K a d c a_sq d_nonsq X Y T Z x y RP OE NX) as R.
      pose proof (on_beta K a d A c a_sq d_nonsq Ha Hd (x, y) OE) as O.
      match goal with |- context [MCurve.new_proy_point _ ?t] => change t with (MontP.mk p Hp (Fmul X (Fadd Z Y)) (Fmul (Fmul c Z) (Fadd Z Y)) (Fmul X (Fsub Z Y))) end.
      rewrite (MontP.new_proy_mk p Hp Hp2 A b (ed_e1 m) ea1 eb1 b1 _ _ _ _ R O).
      eexists. split; [reflexivity|]. apply MontP.wrep_mk; assumption.
  Qed.
  Lemma push_two P : erep P (F0, Fopp F1) -> exists Q, ed25519_push m P = Ret Q /\ mrep Q (Inf K).
  Proof.
    intros HP. unfold ed25519_push. pose proof (EdwP.is_zero_wrep p Hp a d _ P _ HP) as IZ.
    assert (ECurve.pt_is_zero P = true) as -> by (apply IZ; reflexivity).
    apply (MontP.identity_wrep p Hp Hp2 A b (ed_e1 m) ef1 ea1 eb1 b1).
  Qed.
  Lemma torsion_test Q M : mrep Q M -> (MCurve.is_two_torsion Q = true <-> M = Aff K F0 F0 /\ MCurve.pz (MCurve.pc Q) = fe (F1 : K)).
  Proof.
    intros (EQ & (X & Y & Z & CQ & RQ) & OM). unfold MCurve.is_two_torsion. rewrite CQ. cbn [MCurve.py MCurve.pz MontP.mk].
    rewrite andb_true_iff, is_zero_fe, is_one_fe by lia. change (of_Z p 1) with (F1 : K). split.
    - intros [-> ->]. split; [|reflexivity]. destruct M as [|u v]; [destruct RQ as (_ & NY & _); destruct (NY eq_refl)|].
      destruct RQ as (_ & EX & EY). assert (V : v = F0).
      { destruct (Fmul_integral K v F1 (eq_sym EY)) as [V|V]; [exact V|destruct (F_1_neq_0 K V)]. }
      rewrite V in *. f_equal. apply (v_zero K a d A c two a_sq a_nz d_nonsq Ha Hd). exact OM.
    - intros [-> E]. destruct (pull_bad K _ _ _ RQ) as [_ EY]. split; [exact EY|]. apply (fe_inj p). exact E.
  Qed.
  Lemma pull_wrep Q M : mrep Q M -> M <> Aff K F0 F0 -> exists P, ed25519_pull m Q = Ret P /\ erep P (alpha M).
  Proof.
    intros HQ N. unfold ed25519_pull. pose proof (MontP.is_zero_wrep p Hp A _ Q M HQ) as IZ.
    pose proof (torsion_test Q M HQ) as TT.
    destruct (MCurve.pt_is_zero Q).
    - rewrite (proj1 IZ eq_refl). apply (EdwP.identity_wrep p Hp Hp2 a d (ed_e0 m) ef0 ea0 ed0).
    - destruct (MCurve.is_two_torsion Q); [destruct (N (proj1 (proj1 TT eq_refl)))|].
      destruct M as [|u v]; [discriminate (proj2 IZ eq_refl)|].
      assert (NV : v <> F0). { intro E. apply N. rewrite E in HQ |- *. f_equal. apply (v_zero K a d A c two a_sq a_nz d_nonsq Ha Hd). apply HQ. }
      destruct HQ as (EQ & (X & Y & Z & CQ & RQ) & OM). rewrite CQ. cbn [MCurve.px MCurve.py MCurve.pz MontP.mk]. rewrite ec. fes.
      pose proof (pull_rep K a d A c two d_nonsq Ha Hd X Y Z u v RQ OM NV) as R.
      pose proof (eon_alpha K a d A c two d_nonsq Ha Hd _ OM) as O.
      match goal with |- context [ECurve.new_proy_point _ ?t] => change t with (EdwP.mk p Hp (Fmul (Fmul c X) (Fadd X Z)) (Fmul Y (Fsub X Z)) (Fmul (Fmul c X) (Fsub X Z)) (Fmul Y (Fadd X Z))) end.
      rewrite (EdwP.new_proy_mk p Hp Hp2 a d (ed_e0 m) ea0 ed0 _ _ _ _ _ R O).
      eexists. split; [reflexivity|]. apply EdwP.wrep_mk; assumption.
  Qed.
  Lemma pull_two_one Q : mrep Q (Aff K F0 F0) -> MCurve.pz (MCurve.pc Q) = fe (F1 : K) ->
    exists P, ed25519_pull m Q = Ret P /\ erep P (F0, Fopp F1).
  Proof.
    intros HQ E. unfold ed25519_pull. pose proof (MontP.is_zero_wrep p Hp A _ Q _ HQ) as IZ.
    pose proof (torsion_test Q _ HQ) as TT.
    destruct (MCurve.pt_is_zero Q); [discriminate (proj1 IZ eq_refl)|].
    rewrite (proj2 TT (conj eq_refl E)). rewrite ef0. fes.
    match goal with |- context [ECurve.new_proy_point _ ?t] => change t with (EdwP.mk p Hp (F0 : K) (Fopp F1) F0 F1) end.
    rewrite (EdwP.new_proy_mk p Hp Hp2 a d (ed_e0 m) ea0 ed0 _ _ _ _ _ (erep_two K) (two_eon K a d)).
    eexists. split; [reflexivity|]. apply EdwP.wrep_mk; [apply erep_two|apply two_eon].
  Qed.
  Lemma pull_two_other Q : mrep Q (Aff K F0 F0) -> MCurve.pz (MCurve.pc Q) <> fe (F1 : K) ->
    ed25519_pull m Q = Ret (ECurve.mkPoint (ed_e0 m) (EdwP.mk p Hp F0 F0 F0 F0)).
  Proof.
    intros HQ E. unfold ed25519_pull. pose proof (MontP.is_zero_wrep p Hp A _ Q _ HQ) as IZ.
    pose proof (torsion_test Q _ HQ) as TT.
    destruct (MCurve.pt_is_zero Q); [discriminate (proj1 IZ eq_refl)|].
    destruct (MCurve.is_two_torsion Q); [destruct (E (proj2 (proj1 TT eq_refl)))|].
    destruct HQ as (EQ & (X & Y & Z & CQ & RQ) & OM). rewrite CQ. cbn [MCurve.px MCurve.py MCurve.pz MontP.mk]. rewrite ec.
    destruct (pull_bad K _ _ _ RQ) as [-> ->]. fes.
    match goal with |- context [ECurve.new_proy_point _ ?t] => change t with (EdwP.mk p Hp (Fmul (Fmul c F0) (Fadd F0 Z)) (Fmul F0 (Fsub F0 Z)) (Fmul (Fmul c F0) (Fsub F0 Z)) (Fmul F0 (Fadd F0 Z))) end.
    rewrite !zmul_0, !zmul_0l. unfold ECurve.new_proy_point.
    destruct (EdwP.on_curve_mk p Hp Hp2 a d (ed_e0 m) ea0 ed0 F0 F0 F0 F0) as (t & -> & Ht). cbn [bind].
    rewrite (proj2 Ht (etest_zero K a d)). reflexivity.
  Qed.
End Bir.
