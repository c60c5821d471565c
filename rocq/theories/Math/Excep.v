(** The addition formulas of the Weierstrass and Montgomery code on any nonsingular curve: they compute the group law
    unless the difference of the two points has ordinate 0 (Weierstrass) or the constant s (Montgomery), and then they
    compute (0, 0, 0). *)
From Coq Require Import Ring Field Setoid.
From Verif.Math Require Import Fld ECGroup RCB MontAdd.

Section Weier.
  Variable K : Fld.
  Add Field KF : (Fth K).
  Open Scope fld_scope.
  Variables a b : K.
  Hypothesis two : (2 : K) <> 0.
  Hypothesis disc : 2 * 2 * (a * a * a) + 3 * 3 * 3 * (b * b) <> 0.

  Notation pt := (pt K).
  Notation Inf := (Inf K).
  Notation Aff := (Aff K).
  Notation on := (on K 0 a b).
  Notation padd := (padd K 0 a).
  Notation rep := (rep K).
  Notation rX := (rX K a b). Notation rY := (rY K a b). Notation rZ := (rZ K a b).

  Lemma disc_nonsing : forall x : K, cubic K 0 a b x = 0 -> dcubic K 0 a x <> 0.
  Proof.
    unfold cubic, dcubic. intros x H D. apply disc.
    transitivity ((3 * (x * x) + 2 * 2 * a) * (3 * (x * x) + 2 * 0 * x + a) * (3 * (x * x) + 2 * 0 * x + a)
      - 3 * 3 * 3 * (x * x * x + a * x - b) * (x * x * x + 0 * (x * x) + a * x + b)); [ring|]. rewrite H, D. ring.
  Qed.

  Definition ord (P : pt) (y : K) : Prop := match P with ECGroup.Inf _ => False | ECGroup.Aff _ _ y' => y' = y end.
  Lemma ord_dec P y : {ord P y} + {~ ord P y}.
  Proof. destruct P; cbn; [right; tauto|apply Feqd]. Qed.

  Definition zero3 (X Y Z : K) : Prop := X = 0 /\ Y = 0 /\ Z = 0.

  (** the outcome of the formulas *)
  Definition outcome (X Y Z : K) (y : K) (D S : pt) : Prop := (ord D y -> zero3 X Y Z) /\ (~ ord D y -> rep X Y Z S).

  Lemma w_generic x1 y1 x2 y2 : on (Aff x1 y1) -> on (Aff x2 y2) -> x1 <> x2 ->
    outcome (rX x1 y1 1 x2 y2 1) (rY x1 y1 1 x2 y2 1) (rZ x1 y1 1 x2 y2 1) 0 (padd (Aff x1 y1) (popp K (Aff x2 y2))) (padd (Aff x1 y1) (Aff x2 y2)).
  Proof.
    intros H1 H2 Hx. cbn [popp]. rewrite !padd_gen by exact Hx.
    cbn in H1, H2. unfold cubic in H1, H2.
    assert (D : x2 - x1 <> 0) by (apply Fsub_nonzero; congruence).
    set (yd := (- y2 - y1) / (x2 - x1) * (x1 - ((- y2 - y1) / (x2 - x1) * ((- y2 - y1) / (x2 - x1)) - 0 - x1 - x2)) - y1).
    assert (HZ : rZ x1 y1 1 x2 y2 1 = yd * ((x2 - x1) * (x2 - x1) * (x2 - x1))).
    { unfold yd, RCB.rZ. field [H1 H2]. exact D. }
    set (x3 := (y2 - y1) / (x2 - x1) * ((y2 - y1) / (x2 - x1)) - 0 - x1 - x2).
    set (y3 := (y2 - y1) / (x2 - x1) * (x1 - x3) - y1).
    assert (HX : rX x1 y1 1 x2 y2 1 = x3 * rZ x1 y1 1 x2 y2 1) by (unfold x3, RCB.rX, RCB.rZ; field [H1 H2]; exact D).
    assert (HY : rY x1 y1 1 x2 y2 1 = y3 * rZ x1 y1 1 x2 y2 1) by (unfold y3, x3, RCB.rY, RCB.rZ; field [H1 H2]; exact D).
    split.
    - intro E. change (yd = 0) in E. assert (Z0 : rZ x1 y1 1 x2 y2 1 = 0) by (rewrite HZ, E; ring).
      split; [rewrite HX, Z0; ring|]. split; [rewrite HY, Z0; ring|exact Z0].
    - intro N. change (yd <> 0) in N. split; [rewrite HZ; fnz|]. split; [exact HX|exact HY].
  Qed.

  Lemma w_flat x : on (Aff x 0) -> rep (rX x 0 1 x 0 1) (rY x 0 1 x 0 1) (rZ x 0 1 x 0 1) Inf.
  Proof.
    intro H. cbn in H. pose proof (disc_nonsing x ltac:(rewrite <- H; ring)) as N. unfold cubic, dcubic in *.
    cbn. repeat split; [unfold RCB.rX; ring| |unfold RCB.rZ; ring].
    assert (B : b = - (x * x * x) - a * x).
    { transitivity (x * x * x + 0 * (x * x) + a * x + b - x * x * x - a * x); [ring|]. rewrite <- H. ring. }
    assert (HY : rY x 0 1 x 0 1 = - ((3 * (x * x) + 2 * 0 * x + a) * (3 * (x * x) + 2 * 0 * x + a) * (3 * (x * x) + 2 * 0 * x + a)))
      by (unfold RCB.rY; rewrite B; ring).
    rewrite HY. apply (Fopp_nonzero K). fnz.
  Qed.

  Lemma w_opposite x y : on (Aff x y) ->
    outcome (rX x y 1 x (- y) 1) (rY x y 1 x (- y) 1) (rZ x y 1 x (- y) 1) 0 (padd (Aff x y) (Aff x y)) Inf.
  Proof.
    intro H. destruct (Feqd y 0) as [->|Hy].
    - replace (Aff x 0) with (popp K (Aff x 0)) at 2 by (cbn; f_equal; ring). rewrite padd_opp_r.
      split; [intros []|]. intros _. replace (- (0 : K)) with (0 : K) by ring. apply w_flat, H.
    - rewrite padd_dbl by assumption. pose proof H as O. cbn in H. unfold cubic in H.
      set (yd := (3 * (x * x) + 2 * 0 * x + a) / (2 * y)
         * (x - ((3 * (x * x) + 2 * 0 * x + a) / (2 * y) * ((3 * (x * x) + 2 * 0 * x + a) / (2 * y)) - 0 - x - x)) - y).
      assert (HY : rY x y 1 x (- y) 1 = yd * (2 * y * (2 * y) * (2 * y))) by (unfold yd, RCB.rY; field [H]; fnz).
      assert (HX : rX x y 1 x (- y) 1 = 0) by (unfold RCB.rX; ring).
      assert (HZ : rZ x y 1 x (- y) 1 = 0) by (unfold RCB.rZ; ring).
      split; intro E.
      + change (yd = 0) in E. split; [exact HX|]. split; [rewrite HY, E; ring|exact HZ].
      + change (yd <> 0) in E. split; [exact HX|]. split; [rewrite HY; fnz|exact HZ].
  Qed.

  Lemma w_double x y : on (Aff x y) ->
    rep (rX x y 1 x y 1) (rY x y 1 x y 1) (rZ x y 1 x y 1) (padd (Aff x y) (Aff x y)).
  Proof.
    intro H. destruct (Feqd y 0) as [->|Hy].
    - replace (Aff x 0) with (popp K (Aff x 0)) at 2 by (cbn; f_equal; ring). rewrite padd_opp_r. apply w_flat, H.
    - rewrite padd_dbl by assumption. cbn in H. unfold cubic in H. cbn. unfold dcubic.
      assert (HZ : rZ x y 1 x y 1 = 2 * y * (2 * y) * (2 * y)) by (unfold RCB.rZ; ring [H]).
      rewrite HZ. split; [fnz|]. split; unfold RCB.rX, RCB.rY; field [H]; fnz.
  Qed.

  Theorem rcb_total X1 Y1 Z1 X2 Y2 Z2 P Q : rep X1 Y1 Z1 P -> rep X2 Y2 Z2 Q -> on P -> on Q ->
    outcome (rX X1 Y1 Z1 X2 Y2 Z2) (rY X1 Y1 Z1 X2 Y2 Z2) (rZ X1 Y1 Z1 X2 Y2 Z2) 0 (padd P (popp K Q)) (padd P Q).
  Proof.
    intros RP RQ HP HQ. destruct (rep_norm K _ _ _ _ RP) as (k & Hk & EP).
    destruct (rep_norm K _ _ _ _ RQ) as (m & Hm & EQ).
    assert (G : forall x1 y1 z1 x2 y2 z2,
      outcome (rX x1 y1 z1 x2 y2 z2) (rY x1 y1 z1 x2 y2 z2) (rZ x1 y1 z1 x2 y2 z2) 0 (padd P (popp K Q)) (padd P Q) ->
      X1 = k * x1 /\ Y1 = k * y1 /\ Z1 = k * z1 -> X2 = m * x2 /\ Y2 = m * y2 /\ Z2 = m * z2 ->
      outcome (rX X1 Y1 Z1 X2 Y2 Z2) (rY X1 Y1 Z1 X2 Y2 Z2) (rZ X1 Y1 Z1 X2 Y2 Z2) 0 (padd P (popp K Q)) (padd P Q)).
    { intros x1 y1 z1 x2 y2 z2 R (-> & -> & ->) (-> & -> & ->).
      destruct (r_scale K a b k m x1 y1 z1 x2 y2 z2) as (-> & -> & ->). destruct R as [R0 R]. split; intro H.
      - destruct (R0 H) as (-> & -> & ->). repeat split; ring.
      - apply rep_scale; [fnz|exact (R H)]. }
    clear RP RQ. destruct P as [|x1 y1], Q as [|x2 y2].
    - apply (G 0 1 0 0 1 0); auto. split; [intros []|]. intros _. cbn. unfold RCB.rX, RCB.rY, RCB.rZ. repeat split; [ring| |ring].
      intro E. apply (F_1_neq_0 K). rewrite <- E. ring.
    - apply (G 0 1 0 x2 y2 1); auto. cbn. unfold outcome, ord, zero3, RCB.rep, RCB.rX, RCB.rY, RCB.rZ. split; intro E.
      + apply Fopp_zero in E. rewrite E. repeat split; ring.
      + repeat split; try ring. intro Z0. apply E. transitivity (- (0 : K)); [|ring]. f_equal. rewrite <- Z0. ring.
    - apply (G x1 y1 1 0 1 0); auto. cbn. unfold outcome, ord, zero3, RCB.rep, RCB.rX, RCB.rY, RCB.rZ. split; intro E.
      + rewrite E. repeat split; ring.
      + repeat split; try ring. intro Z0. apply E. rewrite <- Z0. ring.
    - apply (G x1 y1 1 x2 y2 1); auto. clear G.
      destruct (Feqd x1 x2) as [E|E]; [subst x2|apply w_generic; assumption].
      destruct (same_x K 0 a b x1 y2 y1 HQ HP) as [->| ->].
      + rewrite padd_opp_r. split; [intros []|]. intros _. apply w_double, HP.
      + change (Aff x1 (- y1)) with (popp K (Aff x1 y1)). rewrite padd_opp_r, popp_invol. cbn [popp]. apply w_opposite. exact HP.
  Qed.

  Theorem rcb_double_total X Y Z P : rep X Y Z P -> on P -> rep (rX X Y Z X Y Z) (rY X Y Z X Y Z) (dZ K Y Z) (padd P P).
  Proof.
    intros R H. replace (dZ K Y Z) with (rZ X Y Z X Y Z).
    - apply (rcb_total X Y Z X Y Z P P R R H H). rewrite padd_opp_r. intros [].
    - pose proof (rep_on K a b _ _ _ _ R H) as E. unfold RCB.rZ, dZ. apply (Fsub_zero K).
      transitivity (2 * 3 * Y * (X * X * X + a * X * (Z * Z) + b * (Z * Z * Z) - Y * Y * Z)); [ring|].
      rewrite E. ring.
  Qed.
  (** (0, 0, 0) absorbs *)
  Lemma r_zero_l X Y Z : zero3 (rX 0 0 0 X Y Z) (rY 0 0 0 X Y Z) (rZ 0 0 0 X Y Z).
  Proof. unfold zero3, RCB.rX, RCB.rY, RCB.rZ. repeat split; ring. Qed.
  Lemma r_zero_r X Y Z : zero3 (rX X Y Z 0 0 0) (rY X Y Z 0 0 0) (rZ X Y Z 0 0 0).
  Proof. unfold zero3, RCB.rX, RCB.rY, RCB.rZ. repeat split; ring. Qed.
  Lemma d_zero : dZ K 0 0 = 0.
  Proof. unfold dZ. ring. Qed.
End Weier.

Section Mont.
  Variable K : Fld.
  Add Field KF2 : (Fth K).
  Open Scope fld_scope.
  Variables a s : K.
  Hypothesis two : (2 : K) <> 0.
  Hypothesis nonsing : a * a <> 2 * 2.

  Notation pt := (pt K).
  Notation Inf := (Inf K).
  Notation Aff := (Aff K).
  Notation on := (on K a 1 0).
  Notation padd := (padd K a 1).
  Notation rep := (rep K).
  Notation mX := (mX K a s). Notation mY := (mY K a s). Notation mZ := (mZ K a s).
  Ltac um := unfold MontAdd.mX, MontAdd.mY, MontAdd.mZ, mt, mw, mv, ms, mu, mr.
  Local Notation outcome := (outcome K).

  Lemma t_nonsing : forall x : K, cubic K a 1 0 x = 0 -> dcubic K a 1 x <> 0.
  Proof.
    unfold cubic, dcubic. intros x H D.
    destruct (Fmul_integral K x (x * x + a * x + 1)) as [E|E]; [rewrite <- H; ring| |].
    - apply (F_1_neq_0 K). transitivity (3 * (x * x) + 2 * a * x + 1); [rewrite E; ring|exact D].
    - (* the double root: x(2x+a) = 0 *)
      destruct (Fmul_integral K x (2 * x + a)) as [X|X].
      + transitivity (3 * (x * x) + 2 * a * x + 1 - (x * x + a * x + 1)); [ring|]. rewrite D, E. ring.
      + apply (F_1_neq_0 K). transitivity (x * x + a * x + 1); [rewrite X; ring|exact E].
      + apply nonsing. assert (A : a = - (2 * x)) by (transitivity (2 * x + a - 2 * x); [ring|rewrite X; ring]).
        subst a. transitivity (2 * 2 * (x * x)); [ring|].
        transitivity (2 * 2 * (1 - (x * x + - (2 * x) * x + 1))); [ring|]. rewrite E. ring.
  Qed.

  Lemma t_generic x1 y1 x2 y2 : on (Aff x1 y1) -> on (Aff x2 y2) -> x1 <> x2 ->
    outcome (mX x1 y1 1 x2 y2 1) (mY x1 y1 1 x2 y2 1) (mZ x1 y1 1 x2 y2 1) s (padd (Aff x1 y1) (popp K (Aff x2 y2))) (padd (Aff x1 y1) (Aff x2 y2)).
  Proof.
    intros H1 H2 Hx. cbn [popp]. rewrite !padd_gen by exact Hx.
    cbn in H1, H2. unfold cubic in H1, H2.
    assert (D : x2 - x1 <> 0) by (apply Fsub_nonzero; congruence).
    set (yd := (- y2 - y1) / (x2 - x1) * (x1 - ((- y2 - y1) / (x2 - x1) * ((- y2 - y1) / (x2 - x1)) - a - x1 - x2)) - y1).
    assert (HZ : mZ x1 y1 1 x2 y2 1 = - ((yd - s) * ((x2 - x1) * (x2 - x1) * (x2 - x1)))).
    { unfold yd. um. field [H1 H2]. exact D. }
    set (x3 := (y2 - y1) / (x2 - x1) * ((y2 - y1) / (x2 - x1)) - a - x1 - x2).
    set (y3 := (y2 - y1) / (x2 - x1) * (x1 - x3) - y1).
    assert (HX : mX x1 y1 1 x2 y2 1 = x3 * mZ x1 y1 1 x2 y2 1) by (unfold x3; um; field [H1 H2]; exact D).
    assert (HY : mY x1 y1 1 x2 y2 1 = y3 * mZ x1 y1 1 x2 y2 1) by (unfold y3, x3; um; field [H1 H2]; exact D).
    split.
    - intro E. change (yd = s) in E. assert (Z0 : mZ x1 y1 1 x2 y2 1 = 0) by (rewrite HZ, E; ring).
      split; [rewrite HX, Z0; ring|]. split; [rewrite HY, Z0; ring|exact Z0].
    - intro N. change (yd <> s) in N. apply (Fsub_nonzero K) in N. split; [rewrite HZ; apply (Fopp_nonzero K); fnz|]. split; [exact HX|exact HY].
  Qed.

  Lemma t_flat x : on (Aff x 0) -> rep (mX x 0 1 x (- 0) 1) (mY x 0 1 x (- 0) 1) (mZ x 0 1 x (- 0) 1) Inf.
  Proof.
    intro H. cbn in H. cbn. repeat split; [um; ring| |um; ring].
    pose proof (t_nonsing x) as N. rewrite <- H in N. specialize (N ltac:(ring)).
    unfold cubic in H. unfold dcubic in N.
    destruct (Feqd x 0) as [->|Hx].
    + intro E. apply (F_1_neq_0 K). rewrite <- E. um. ring.
    + assert (Q : a * x = - (x * x) - 1).
      { apply (Fcancel_l K x); [exact Hx|]. apply (Fsub_zero K). transitivity (0 * 0 : K); [|ring].
        rewrite H. ring. }
      assert (N' : x * x - 1 <> 0).
      { intro E. apply N. transitivity (3 * (x * x) + 2 * (a * x) + 1); [ring|]. rewrite Q. rewrite <- E. ring. }
      assert (HY : mY x 0 1 x (- 0) 1 = (x * x - 1) * (x * x - 1) * (x * x - 1)).
      { transitivity ((2 * x + x * (a * x)) * (2 * x + x * (a * x)) - (2 * (a * x) + 3 * (x * x) + 1) * (x * x - 1));
          [um; ring|]. rewrite Q. ring. }
      rewrite HY. fnz.
  Qed.

  Lemma t_opposite x y : on (Aff x y) ->
    outcome (mX x y 1 x (- y) 1) (mY x y 1 x (- y) 1) (mZ x y 1 x (- y) 1) s (padd (Aff x y) (Aff x y)) Inf.
  Proof.
    intro H. destruct (Feqd y 0) as [->|Hy].
    - replace (Aff x 0) with (popp K (Aff x 0)) at 2 by (cbn; f_equal; ring). rewrite padd_opp_r.
      split; [intros []|]. intros _. apply t_flat, H.
    - rewrite padd_dbl by assumption. cbn in H. unfold cubic in H.
      set (yd := (3 * (x * x) + 2 * a * x + 1) / (2 * y)
         * (x - ((3 * (x * x) + 2 * a * x + 1) / (2 * y) * ((3 * (x * x) + 2 * a * x + 1) / (2 * y)) - a - x - x)) - y).
      assert (HY : mY x y 1 x (- y) 1 = - ((yd - s) * (2 * y * (2 * y) * (2 * y)))) by (unfold yd; um; field [H]; fnz).
      assert (HX : mX x y 1 x (- y) 1 = 0) by (um; ring).
      assert (HZ : mZ x y 1 x (- y) 1 = 0) by (um; ring).
      split; intro E.
      + change (yd = s) in E. split; [exact HX|]. split; [rewrite HY, E; ring|exact HZ].
      + change (yd <> s) in E. apply (Fsub_nonzero K) in E. split; [exact HX|].
        split; [rewrite HY; apply (Fopp_nonzero K); fnz|exact HZ].
  Qed.

  Lemma t_double x y : on (Aff x y) ->
    rep (mX x y 1 x y 1) (mY x y 1 x y 1) (mZ x y 1 x y 1) (padd (Aff x y) (Aff x y)).
  Proof.
    intro H. destruct (Feqd y 0) as [->|Hy].
    - replace (Aff x 0) with (popp K (Aff x 0)) at 2 by (cbn; f_equal; ring). rewrite padd_opp_r.
      pose proof (t_flat x H) as F. replace (- (0 : K)) with (0 : K) in F by ring. exact F.
    - apply (m_double K a s two); assumption.
  Qed.

  Theorem mont_total X1 Y1 Z1 X2 Y2 Z2 P Q : rep X1 Y1 Z1 P -> rep X2 Y2 Z2 Q -> on P -> on Q ->
    outcome (mX X1 Y1 Z1 X2 Y2 Z2) (mY X1 Y1 Z1 X2 Y2 Z2) (mZ X1 Y1 Z1 X2 Y2 Z2) s (padd P (popp K Q)) (padd P Q).
  Proof.
    intros RP RQ HP HQ. destruct (rep_norm K _ _ _ _ RP) as (k & Hk & EP).
    destruct (rep_norm K _ _ _ _ RQ) as (m & Hm & EQ).
    assert (G : forall x1 y1 z1 x2 y2 z2,
      outcome (mX x1 y1 z1 x2 y2 z2) (mY x1 y1 z1 x2 y2 z2) (mZ x1 y1 z1 x2 y2 z2) s (padd P (popp K Q)) (padd P Q) ->
      X1 = k * x1 /\ Y1 = k * y1 /\ Z1 = k * z1 -> X2 = m * x2 /\ Y2 = m * y2 /\ Z2 = m * z2 ->
      outcome (mX X1 Y1 Z1 X2 Y2 Z2) (mY X1 Y1 Z1 X2 Y2 Z2) (mZ X1 Y1 Z1 X2 Y2 Z2) s (padd P (popp K Q)) (padd P Q)).
    { intros x1 y1 z1 x2 y2 z2 R (-> & -> & ->) (-> & -> & ->).
      destruct (m_scale K a s k m x1 y1 z1 x2 y2 z2) as (-> & -> & ->). destruct R as [R0 R]. split; intro H.
      - destruct (R0 H) as (-> & -> & ->). repeat split; ring.
      - apply rep_scale; [fnz|exact (R H)]. }
    clear RP RQ. destruct P as [|x1 y1], Q as [|x2 y2].
    - apply (G 0 1 0 0 1 0); auto. split; [intros []|]. intros _. cbn. repeat split; [um; ring| |um; ring].
      intro E. apply (F_1_neq_0 K). apply Fopp_zero. rewrite <- E. um. ring.
    - apply (G 0 1 0 x2 y2 1); auto. cbn. unfold Excep.outcome, ord, zero3, RCB.rep. split; intro E.
      + rewrite <- E. um. repeat split; ring.
      + apply (Fsub_nonzero K) in E. repeat split; [|um; ring|um; ring]. intro Z0. apply E. rewrite <- Z0. um. ring.
    - apply (G x1 y1 1 0 1 0); auto. cbn. unfold Excep.outcome, ord, zero3, RCB.rep. split; intro E.
      + rewrite <- E. um. repeat split; ring.
      + apply (Fsub_nonzero K) in E. repeat split; [|um; ring|um; ring]. intro Z0. apply E, Fopp_zero. rewrite <- Z0. um. ring.
    - apply (G x1 y1 1 x2 y2 1); auto. clear G.
      destruct (Feqd x1 x2) as [E|E]; [subst x2|apply t_generic; assumption].
      destruct (same_x K a 1 0 x1 y2 y1 HQ HP) as [->| ->].
      + rewrite padd_opp_r. split; [intros []|]. intros _. apply t_double, HP.
      + change (Aff x1 (- y1)) with (popp K (Aff x1 y1)). rewrite padd_opp_r, popp_invol. cbn [popp]. apply t_opposite. exact HP.
  Qed.
  Lemma m_zero_l X Y Z : zero3 K (mX 0 0 0 X Y Z) (mY 0 0 0 X Y Z) (mZ 0 0 0 X Y Z).
  Proof. unfold zero3. um. repeat split; ring. Qed.
  Lemma m_zero_r X Y Z : zero3 K (mX X Y Z 0 0 0) (mY X Y Z 0 0 0) (mZ X Y Z 0 0 0).
  Proof. unfold zero3. um. repeat split; ring. Qed.
End Mont.
Section On.
  Variable K : Fld.
  Add Field KO : (Fth K).
  Open Scope fld_scope.
  Lemma flat_on (a b x : K) : x * x * x + a * x + b = 0 -> on K 0 a b (Aff K x 0).
  Proof. intro E. cbn. unfold cubic. transitivity (x * x * x + a * x + b); [rewrite E; ring|ring]. Qed.
  Lemma tall_on (a s x : K) : x * x * x + a * (x * x) + x = s * s -> on K a 1 0 (Aff K x s).
  Proof. intro E. cbn. unfold cubic. rewrite <- E. ring. Qed.
End On.
