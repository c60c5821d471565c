(** Doubles, points of order two, and the automorphism (x, y) -> (w x, y) of y^2 = x^3 + b. *)
From Coq Require Import Ring Field Setoid List ZArith Lia.
From Verif.Math Require Import Fld ECGroup Edwards FinGroup.

Section Cubic.
  Variable K : Fld.
  Add Field KF : (Fth K).
  Open Scope fld_scope.
  Hypothesis two : (2 : K) <> 0.
  Lemma opp_0 : - 0 = (0 : K). Proof. ring. Qed.
  Lemma add_opp (x : K) : x + - x = 0. Proof. ring. Qed.
  Section Any.
    Variables a2 a4 a6 : K.
    Hypothesis nonsing : forall x, cubic K a2 a4 a6 x = 0 -> dcubic K a2 a4 x <> 0.
    Lemma cubic_group : group (on K a2 a4 a6) (padd K a2 a4) (popp K) (Inf K).
    Proof.
      split.
      - exact I.
      - intros A B. apply on_padd, two.
      - intros A. apply on_popp.
      - intros A B. apply padd_comm.
      - intros A B C. apply padd_assoc; assumption.
      - intros A _. apply padd_inf_r.
      - intros A _. apply padd_opp_r.
    Qed.
    Lemma two_torsion P : on K a2 a4 a6 P -> padd K a2 a4 P P = Inf K -> P = Inf K \/ exists x, P = Aff K x 0 /\ cubic K a2 a4 a6 x = 0.
    Proof.
      intros O E. pose proof (padd_inf_opp K a2 a4 a6 two nonsing P P O O E) as E'. destruct P as [|x y]; [left; reflexivity|right].
      cbn [popp] in E'. injection E' as E'. apply opp_self_zero in E'; [|exact two]. subst y. exists x. split; [reflexivity|].
      cbn [on] in O. rewrite <- O. ring.
    Qed.
  End Any.

  (** *** Montgomery *)
  Section Mont.
    Variable a : K.
    Lemma mont_double_square x y : on K a 1 0 (Aff K x y) -> y <> 0 ->
      exists t u, padd K a 1 (Aff K x y) (Aff K x y) = Aff K (t * t) u.
    Proof.
      intros O N. rewrite padd_dbl by assumption. unfold third. cbn [on] in O.
      exists ((x * x - 1) / (2 * y)). eexists. f_equal.
      apply (Fcancel_l K (2 * y * (2 * y))); [fnz|].
      transitivity (dcubic K a 1 x * dcubic K a 1 x - 2 * 2 * (y * y) * (a + x + x)).
      - set (l := dcubic K a 1 x / (2 * y)). assert (E : l * (2 * y) = dcubic K a 1 x) by (apply Fdiv_mul; fnz). rewrite <- E. ring.
      - set (l := (x * x - 1) / (2 * y)). assert (E : l * (2 * y) = x * x - 1) by (apply Fdiv_mul; fnz).
        transitivity ((l * (2 * y)) * (l * (2 * y))); [|ring]. rewrite E, O. unfold cubic, dcubic. ring.
    Qed.
    Lemma mont_two_torsion : (forall s : K, s * s <> a * a - 2 * 2) -> forall x, cubic K a 1 0 x = 0 -> x = 0.
    Proof.
      intros N x E. assert (E' : x * (x * x + a * x + 1) = 0) by (rewrite <- E; unfold cubic; ring).
      apply Fmul_integral in E'. destruct E' as [|E']; [assumption|exfalso]. apply (N (2 * x + a)).
      transitivity (2 * 2 * (x * x + a * x + 1) + (a * a - 2 * 2)); [ring|]. rewrite E'. ring.
    Qed.
  End Mont.

  Lemma dbl_slope (a2 a4 l x y x3 y3 : K) : y <> 0 -> l * (y + y) = (x * x + x * x + x * x) + (a2 * x + a2 * x) + a4 ->
    x3 = l * l - a2 - x - x -> y3 = l * (x - x3) - y -> padd K a2 a4 (Aff K x y) (Aff K x y) = Aff K x3 y3.
  Proof.
    intros N E -> ->. rewrite padd_dbl by assumption. replace (dcubic K a2 a4 x / (2 * y)) with l; [reflexivity|].
    symmetry. apply (Fdiv_eq_iff K); [fnz|]. transitivity (l * (y + y)); [|ring]. rewrite E. unfold dcubic. ring.
  Qed.

  (** *** y^2 = x^3 + b and a cube root of one *)
  Section Rot.
    Variables b w : K.
    Hypothesis w3 : w * w + w + 1 = 0.
    Hypothesis w1 : w <> 1.
    Definition rot (P : pt K) : pt K := match P with Inf _ => Inf K | Aff _ x y => Aff K (w * x) y end.
    Lemma w_cube : w * w * w = 1.
    Proof. apply (proj1 (Fsub_zero K _ _)). transitivity ((w - 1) * (w * w + w + 1)); [ring|]. rewrite w3. ring. Qed.
    Lemma w_nz : w <> 0.
    Proof. intro E. pose proof w_cube as C. rewrite E in C. apply (F_1_neq_0 K). rewrite <- C. ring. Qed.
    Lemma on_rot P : on K 0 0 b P -> on K 0 0 b (rot P).
    Proof.
      destruct P as [|x y]; [trivial|]. cbn [rot on]. intros ->. unfold cubic.
      transitivity (w * w * w * (x * x * x) + b); [rewrite w_cube; ring|ring].
    Qed.
    Lemma third_rot (l x1 y1 x2 : K) : rot (third K 0 l x1 y1 x2) = third K 0 (w * w * l) (w * x1) y1 (w * x2).
    Proof.
      unfold third, rot.
      assert (E : w * (l * l - 0 - x1 - x2) = w * w * l * (w * w * l) - 0 - w * x1 - w * x2).
      { transitivity (w * w * w * w * l * l - w * x1 - w * x2); [rewrite w_cube; ring|ring]. }
      rewrite <- E. f_equal. set (x3 := l * l - 0 - x1 - x2).
      transitivity (w * w * w * (l * (x1 - x3)) - y1); [rewrite w_cube; ring|ring].
    Qed.
    Lemma rot_add P Q : on K 0 0 b P -> on K 0 0 b Q -> rot (padd K 0 0 P Q) = padd K 0 0 (rot P) (rot Q).
    Proof.
      intros OP OQ. destruct (view_all K 0 0 b P Q OP OQ) as [Q|P|P|x y N|x1 y1 x2 y2 N].
      - reflexivity.
      - rewrite !padd_inf_r. reflexivity.
      - rewrite padd_opp_r. destruct P as [|x y]; [reflexivity|]. symmetry. exact (padd_opp_r K 0 0 (Aff K (w * x) y)).
      - cbn [rot]. rewrite !padd_dbl by assumption. rewrite third_rot. f_equal. unfold dcubic. field; fnz.
      - cbn [rot]. assert (N' : w * x1 <> w * x2) by (intro E; apply N; exact (Fcancel_l K w _ _ w_nz E)).
        rewrite !padd_gen by assumption. rewrite third_rot. f_equal.
        assert (D : x2 - x1 <> 0) by (apply Fsub_nonzero; congruence). assert (D' : w * x2 - w * x1 <> 0) by (apply Fsub_nonzero; congruence).
        apply (Fcancel_l K (w * x2 - w * x1)); [exact D'|]. transitivity (y2 - y1); [|rewrite <- (Fdiv_mul K (y2 - y1) _ D') at 1; ring].
        transitivity (w * w * w * ((y2 - y1) / (x2 - x1) * (x2 - x1))); [ring|]. rewrite w_cube, Fdiv_mul by exact D. ring.
    Qed.
    Hypothesis nb : b <> 0.
    Lemma rot_sum P : on K 0 0 b P -> padd K 0 0 (padd K 0 0 (rot (rot P)) (rot P)) P = Inf K.
    Proof.
      destruct P as [|x y]; [reflexivity|]. intro O.
      assert (ww : w * w = - w - 1). { apply (proj1 (Fsub_zero K _ _)). rewrite <- w3. ring. }
      assert (E : padd K 0 0 (rot (rot (Aff K x y))) (rot (Aff K x y)) = popp K (Aff K x y)); [|rewrite E; apply padd_opp_l].
      cbn [rot popp]. destruct (Feqd x 0) as [->|N].
      - replace (w * (w * 0)) with (0 : K) by ring. replace (w * 0) with (0 : K) by ring.
        destruct (Feqd y 0) as [->|Ny].
        + exfalso. apply nb. cbn [on] in O. unfold cubic in O. transitivity (0 * 0 * 0 + 0 * (0 * 0) + 0 * 0 + b); [ring|]. rewrite <- O. ring.
        + rewrite padd_dbl by assumption. unfold third, dcubic. f_equal; field; fnz.
      - assert (N' : w * (w * x) <> w * x).
        { intro E. apply Fcancel_l in E; [|exact w_nz]. apply w1. apply (Fcancel_l K x); [exact N|]. rewrite <- E at 2. ring. }
        rewrite padd_gen by exact N'. replace (y - y) with (0 : K) by ring.
        assert (L : 0 / (w * x - w * (w * x)) = 0) by (field; apply Fsub_nonzero; congruence). rewrite L. unfold third.
        f_equal; [|ring]. transitivity (- (w * w + w) * x); [ring|]. rewrite ww. ring.
    Qed.
  End Rot.
End Cubic.

Section Edw.
  Variable K : Fld.
  Add Field KG : (Fth K).
  Open Scope fld_scope.
  Variables a d : K.
  Hypothesis two : (2 : K) <> 0.
  Hypothesis a_sq : exists s : K, s * s = a.
  Hypothesis a_nz : a <> 0.
  Hypothesis d_nonsq : forall s : K, s * s <> d.
  Lemma edw_group : group (eon K a d) (eadd K a d) (eopp K) (ezero K).
  Proof.
    split.
    - apply eon_zero.
    - intros A B. apply eon_add; assumption.
    - intros A. apply eon_opp.
    - intros A B _ _. apply eadd_comm.
    - intros A B C. apply eadd_assoc; assumption.
    - intros A _. apply eadd_zero.
    - intros A O. apply eadd_opp; assumption.
  Qed.
  Lemma edw_two_torsion P : eon K a d P -> eadd K a d P P = ezero K -> P = ezero K \/ P = (0, - (1)).
  Proof.
    intros O E. pose proof (den_plus K a d two a_sq d_nonsq P P O O) as DP. pose proof (den_minus K a d two a_sq d_nonsq P P O O) as DM.
    destruct P as [x y]. unfold eadd, ezero, exy in *. cbn [fst snd] in *. unfold eon in O. cbn [fst snd] in O.
    set (D := d * (x * x * (y * y))) in *. pose proof (f_equal fst E) as E1. pose proof (f_equal snd E) as E2. cbn [fst snd] in E1, E2. clear E.
    apply (Fdiv_eq_iff K) in E1; [|exact DP]. apply (Fdiv_eq_iff K) in E2; [|exact DM].
    assert (XY : x * y = 0). { apply (Fcancel_l K 2); [exact two|]. transitivity (x * y + y * x); [ring|]. rewrite E1. ring. }
    apply Fmul_integral in XY. destruct XY as [->| ->].
    - assert (Y : y * y = 1 * 1). { transitivity (a * (0 * 0) + y * y); [ring|]. rewrite O. ring. }
      apply Fsqr_eq in Y. destruct Y as [->| ->]; [left|right]; reflexivity.
    - exfalso. assert (A : a * (x * x) = 1). { transitivity (a * (x * x) + 0 * 0); [ring|]. rewrite O. ring. }
      assert (B : - (a * (x * x)) = 1). { transitivity (0 * 0 - a * (x * x)); [ring|]. rewrite E2. unfold D. ring. }
      apply two. transitivity (a * (x * x) + - (a * (x * x))); [rewrite B, A; ring|ring].
  Qed.
  (** for a double, (1 - y^2) (a - d) is a square *)
  Lemma edw_double_square P : eon K a d P -> exists t, t * t = (1 - snd (eadd K a d P P) * snd (eadd K a d P P)) * (a - d).
  Proof.
    intro O. pose proof (den_minus K a d two a_sq d_nonsq P P O O) as DM.
    destruct P as [x y]. unfold eadd, exy in *. cbn [fst snd] in *. unfold eon in O. cbn [fst snd] in O.
    exists (2 * x * y * (a - d) / (1 - d * (x * x * (y * y)))).
    set (D := d * (x * x * (y * y))) in *. set (q := (y * y - a * (x * x)) / (1 - D)). set (t := 2 * x * y * (a - d) / (1 - D)).
    assert (Eq : q * (1 - D) = y * y - a * (x * x)) by (apply Fdiv_mul; exact DM).
    assert (Et : t * (1 - D) = 2 * x * y * (a - d)) by (apply Fdiv_mul; exact DM). clearbody q t.
    apply (Fcancel_l K ((1 - D) * (1 - D))); [fnz|].
    transitivity ((t * (1 - D)) * (t * (1 - D))); [ring|]. rewrite Et.
    transitivity (((1 - D) * (1 - D) - (q * (1 - D)) * (q * (1 - D))) * (a - d)); [|ring]. rewrite Eq.
    assert (O' : a * (x * x) + y * y = 1 + D) by (unfold D; rewrite O; ring).
    assert (Ey : y * y = 1 + D - a * (x * x)) by (rewrite <- O'; ring).
    transitivity ((2 * 2 * (a * (x * x)) * (y * y) - 2 * 2 * D) * (a - d)); [unfold D; ring|].
    rewrite Ey. ring.
  Qed.
  Lemma edw_same_y x x' y : eon K a d (x, y) -> eon K a d (x', y) -> x = x' \/ x = - x'.
  Proof.
    unfold eon. cbn [fst snd]. intros E E'. apply Fsqr_eq. apply (Fcancel_l K (a - d * (y * y))).
    - intro Z. destruct a_sq as [s Hs]. destruct (Feqd y 0) as [->|N].
      + apply a_nz. rewrite <- Z. ring.
      + apply (d_nonsq (s / y)). apply (Fcancel_l K (y * y)); [fnz|].
        transitivity ((s / y * y) * (s / y * y)); [ring|]. rewrite Fdiv_mul by exact N. rewrite Hs.
        apply (proj1 (Fsub_zero K _ _)). rewrite <- Z. ring.
    - transitivity (1 - y * y).
      + transitivity ((a * (x * x) + y * y) - d * (x * x) * (y * y) - y * y); [ring|]. rewrite E. ring.
      + transitivity ((1 + d * (x' * x') * (y * y)) - d * (x' * x') * (y * y) - y * y); [ring|]. rewrite <- E'. ring.
  Qed.
  Lemma edw_sum (x1 y1 x2 y2 x3 y3 : K) : eon K a d (x1, y1) -> eon K a d (x2, y2) ->
    x3 * (1 + d * (x1 * x2 * (y1 * y2))) = x1 * y2 + y1 * x2 -> y3 * (1 - d * (x1 * x2 * (y1 * y2))) = y1 * y2 - a * (x1 * x2) ->
    eadd K a d (x1, y1) (x2, y2) = (x3, y3).
  Proof.
    intros O1 O2 E1 E2. pose proof (den_plus K a d two a_sq d_nonsq _ _ O1 O2) as DP. pose proof (den_minus K a d two a_sq d_nonsq _ _ O1 O2) as DM.
    unfold eadd, exy in *. cbn [fst snd] in *. f_equal; apply (Fdiv_eq_iff K); try assumption; symmetry; assumption.
  Qed.
  Lemma edw_minus_one : eon K a d (0, - (1)) -> eadd K a d (0, - (1)) (0, - (1)) = ezero K.
  Proof. intro O. apply edw_sum; [exact O|exact O|ring|ring]. Qed.
End Edw.
