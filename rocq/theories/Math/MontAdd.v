(** The addition formula of the Montgomery code for y^2 = x^3 + a x^2 + x with a constant s,
    against the chord-and-tangent law: it computes the group law on projective representatives
    whenever no rational point has ordinate s. *)
From Coq Require Import Ring Field Setoid.
From Verif.Math Require Import Fld ECGroup RCB.

Section Mont.
  Variable K : Fld.
  Add Field KF : (Fth K).
  Open Scope fld_scope.
  Variables a s : K.
  Hypothesis two : (2 : K) <> 0.
  Hypothesis nonsing : a * a <> 2 * 2.
  Hypothesis nos : forall x : K, x * x * x + a * (x * x) + x <> s * s.

  Notation pt := (pt K).
  Notation Inf := (Inf K).
  Notation Aff := (Aff K).
  Notation on := (on K a 1 0).
  Notation padd := (padd K a 1).
  Notation rep := (rep K).

  Definition mt (x1 y1 z1 x2 y2 z2 : K) : K := x1 * z2 + x2 * z1 + x1 * x2 * a - y1 * y2.
  Definition mw (x1 y1 z1 x2 y2 z2 : K) : K :=
    (y1 * z2 - y2 * z1) * s + (x1 * z2 + x2 * z1 + x1 * x2 * a) + y1 * y2.
  Definition mv (x1 y1 z1 x2 y2 z2 : K) : K := (x1 * z2 + x2 * z1) * a + 3 * (x1 * x2) + z1 * z2.
  Definition ms (x1 y1 z1 x2 y2 z2 : K) : K := (x1 * y2 - x2 * y1) * s + x1 * x2 - z1 * z2.
  Definition mu (x1 y1 z1 x2 y2 z2 : K) : K := (x1 * z2 - x2 * z1) * s - x1 * y2 - x2 * y1.
  Definition mr (x1 y1 z1 x2 y2 z2 : K) : K := y1 * z2 + y2 * z1.
  Definition mX (x1 y1 z1 x2 y2 z2 : K) : K :=
    mr x1 y1 z1 x2 y2 z2 * ms x1 y1 z1 x2 y2 z2 - mt x1 y1 z1 x2 y2 z2 * mu x1 y1 z1 x2 y2 z2.
  Definition mY (x1 y1 z1 x2 y2 z2 : K) : K :=
    mt x1 y1 z1 x2 y2 z2 * mw x1 y1 z1 x2 y2 z2 - mv x1 y1 z1 x2 y2 z2 * ms x1 y1 z1 x2 y2 z2.
  Definition mZ (x1 y1 z1 x2 y2 z2 : K) : K :=
    mv x1 y1 z1 x2 y2 z2 * mu x1 y1 z1 x2 y2 z2 - mr x1 y1 z1 x2 y2 z2 * mw x1 y1 z1 x2 y2 z2.

  Ltac um := unfold mX, mY, mZ, mt, mw, mv, ms, mu, mr.

  Lemma mont_nonsing : forall x : K, cubic K a 1 0 x = 0 -> dcubic K a 1 x <> 0.
  Proof.
    unfold cubic, dcubic. intros x H D.
    destruct (Fmul_integral K x (x * x + a * x + 1)) as [E|E]; [rewrite <- H; ring| |].
    - apply (F_1_neq_0 K). transitivity (3 * (x * x) + 2 * a * x + 1); [rewrite E; ring|exact D].
    - (* the double root: x(2x+a) = 0 *)
      destruct (Fmul_integral K x (2 * x + a)) as [X|X].
      + transitivity (3 * (x * x) + 2 * a * x + 1 - (x * x + a * x + 1)); [ring|]. rewrite D, E. ring.
      + apply (F_1_neq_0 K). transitivity (x * x + a * x + 1); [rewrite X; ring|exact E].
      + apply nonsing. assert (A : a = - (2 * x)) by (transitivity (2 * x + a - 2 * x); [ring|rewrite X; ring]).
        subst a. transitivity (2 * 2 * (x * x)); [ring|].
        transitivity (2 * 2 * (1 - (x * x + - (2 * x) * x + 1))); [ring|]. rewrite E. ring.
  Qed.
  Lemma y_not_s x y : on (Aff x y) -> y <> s.
  Proof.
    cbn. unfold cubic. intros H E. apply (nos x). transitivity (y * y); [rewrite H; ring|]. rewrite E. ring.
  Qed.
  Lemma y_not_ms x y : on (Aff x y) -> - y <> s.
  Proof. intro H. exact (y_not_s x (- y) (on_popp K a 1 0 (Aff x y) H)). Qed.

  Lemma m_generic x1 y1 x2 y2 : on (Aff x1 y1) -> on (Aff x2 y2) -> x1 <> x2 ->
    rep (mX x1 y1 1 x2 y2 1) (mY x1 y1 1 x2 y2 1) (mZ x1 y1 1 x2 y2 1) (padd (Aff x1 y1) (Aff x2 y2)).
  Proof.
    intros H1 H2 Hx. rewrite padd_gen by exact Hx.
    pose proof (on_padd K a 1 0 two (Aff x1 y1) (Aff x2 (- y2)) H1 (on_popp K a 1 0 (Aff x2 y2) H2)) as HD.
    rewrite padd_gen in HD by exact Hx. apply y_not_s in HD. cbv zeta in HD.
    apply (Fsub_nonzero K) in HD. cbn in H1, H2. unfold cubic in H1, H2.
    assert (D : x2 - x1 <> 0) by (apply Fsub_nonzero; congruence).
    assert (HZ : mZ x1 y1 1 x2 y2 1 =
       - (((- y2 - y1) / (x2 - x1) * (x1 - ((- y2 - y1) / (x2 - x1) * ((- y2 - y1) / (x2 - x1)) - a - x1 - x2)) - y1 - s)
        * ((x2 - x1) * (x2 - x1) * (x2 - x1)))).
    { um. field [H1 H2]. exact D. }
    cbn. split.
    - rewrite HZ. apply (Fopp_nonzero K), Fmul_nonzero; [exact HD|]. fnz.
    - split; um; field [H1 H2]; exact D.
  Qed.

  Lemma m_double x y : on (Aff x y) -> y <> 0 ->
    rep (mX x y 1 x y 1) (mY x y 1 x y 1) (mZ x y 1 x y 1) (padd (Aff x y) (Aff x y)).
  Proof.
    intros H Hy. rewrite padd_dbl by assumption. cbn in H. unfold cubic in H. cbn. unfold dcubic.
    assert (HZ : mZ x y 1 x y 1 = - (2 * y * (2 * y) * (2 * y))) by (um; ring [H]).
    rewrite HZ. split; [apply (Fopp_nonzero K); fnz|].
    split; um; field [H]; fnz.
  Qed.

  Lemma m_opposite x y : on (Aff x y) ->
    rep (mX x y 1 x (- y) 1) (mY x y 1 x (- y) 1) (mZ x y 1 x (- y) 1) Inf.
  Proof.
    intro H. cbn. destruct (Feqd y 0) as [->|Hy].
    - cbn in H. repeat split; [um; ring| |um; ring].
      pose proof (mont_nonsing x) as N. rewrite <- H in N. specialize (N ltac:(ring)).
      unfold cubic in H. unfold dcubic in N.
      destruct (Feqd x 0) as [->|Hx].
      + intro E. apply (F_1_neq_0 K). rewrite <- E. um. ring.
      + assert (Q : a * x = - (x * x) - 1).
        { apply (Fcancel_l K x); [exact Hx|]. apply (Fsub_zero K). transitivity (0 * 0 : K); [|ring].
          rewrite H. ring. }
        assert (N' : x * x - 1 <> 0).
        { intro E. apply N. transitivity (3 * (x * x) + 2 * (a * x) + 1); [ring|]. rewrite Q. rewrite <- E. ring. }
        assert (HY : mY x 0 1 x (- 0) 1 = (x * x - 1) * (x * x - 1) * (x * x - 1)).
        { transitivity ((2 * x + x * (a * x)) * (2 * x + x * (a * x)) - (2 * (a * x) + 3 * (x * x) + 1) * (x * x - 1));
            [um; ring|]. rewrite Q. ring. }
        rewrite HY. fnz.
    - pose proof (on_dbl K a 1 0 two x y H Hy) as HD. apply y_not_s in HD. cbv zeta in HD.
      apply (Fsub_nonzero K) in HD. cbn in H. unfold cubic in H. unfold dcubic in HD.
      assert (HY : mY x y 1 x (- y) 1 =
        - (((3 * (x * x) + 2 * a * x + 1) / (2 * y)
         * (x - ((3 * (x * x) + 2 * a * x + 1) / (2 * y) * ((3 * (x * x) + 2 * a * x + 1) / (2 * y)) - a - x - x)) - y - s)
        * (2 * y * (2 * y) * (2 * y)))).
      { um. field [H]. fnz. }
      repeat split; [um; ring| |um; ring].
      rewrite HY. apply (Fopp_nonzero K). fnz.
  Qed.

  Lemma m_scale k m x1 y1 z1 x2 y2 z2 :
    mX (k * x1) (k * y1) (k * z1) (m * x2) (m * y2) (m * z2) = (k * m) * (k * m) * mX x1 y1 z1 x2 y2 z2
    /\ mY (k * x1) (k * y1) (k * z1) (m * x2) (m * y2) (m * z2) = (k * m) * (k * m) * mY x1 y1 z1 x2 y2 z2
    /\ mZ (k * x1) (k * y1) (k * z1) (m * x2) (m * y2) (m * z2) = (k * m) * (k * m) * mZ x1 y1 z1 x2 y2 z2.
  Proof. um. repeat split; ring. Qed.

  Theorem mont_add X1 Y1 Z1 X2 Y2 Z2 P Q : rep X1 Y1 Z1 P -> rep X2 Y2 Z2 Q -> on P -> on Q ->
    rep (mX X1 Y1 Z1 X2 Y2 Z2) (mY X1 Y1 Z1 X2 Y2 Z2) (mZ X1 Y1 Z1 X2 Y2 Z2) (padd P Q).
  Proof.
    intros RP RQ HP HQ. destruct (rep_norm K _ _ _ _ RP) as (k & Hk & EP).
    destruct (rep_norm K _ _ _ _ RQ) as (m & Hm & EQ).
    assert (G : forall x1 y1 z1 x2 y2 z2,
      rep (mX x1 y1 z1 x2 y2 z2) (mY x1 y1 z1 x2 y2 z2) (mZ x1 y1 z1 x2 y2 z2) (padd P Q) ->
      X1 = k * x1 /\ Y1 = k * y1 /\ Z1 = k * z1 -> X2 = m * x2 /\ Y2 = m * y2 /\ Z2 = m * z2 ->
      rep (mX X1 Y1 Z1 X2 Y2 Z2) (mY X1 Y1 Z1 X2 Y2 Z2) (mZ X1 Y1 Z1 X2 Y2 Z2) (padd P Q)).
    { intros x1 y1 z1 x2 y2 z2 R (-> & -> & ->) (-> & -> & ->).
      destruct (m_scale k m x1 y1 z1 x2 y2 z2) as (-> & -> & ->). apply rep_scale; [fnz|exact R]. }
    clear RP RQ. destruct P as [|x1 y1], Q as [|x2 y2].
    - apply (G 0 1 0 0 1 0); auto. cbn. repeat split; [um; ring| |um; ring].
      intro E. apply (F_1_neq_0 K). apply Fopp_zero. rewrite <- E. um. ring.
    - pose proof (y_not_ms _ _ HQ) as Hy. apply (Fsub_nonzero K) in Hy.
      apply (G 0 1 0 x2 y2 1); auto. cbn. repeat split; [|um; ring|um; ring].
      intro E. apply Hy. rewrite <- E. um. ring.
    - pose proof (y_not_s _ _ HP) as Hy. apply (Fsub_nonzero K) in Hy.
      apply (G x1 y1 1 0 1 0); auto. rewrite padd_inf_r. cbn. repeat split; [|um; ring|um; ring].
      intro E. apply Hy. apply Fopp_zero. rewrite <- E. um. ring.
    - apply (G x1 y1 1 x2 y2 1); auto. clear G.
      destruct (Feqd x1 x2) as [E|E]; [subst x2|apply m_generic; assumption].
      destruct (same_x K a 1 0 x1 y2 y1 HQ HP) as [->| ->].
      + destruct (Feqd y1 0) as [Hy|Hy]; [|apply m_double; assumption].
        subst y1. replace (Aff x1 0) with (popp K (Aff x1 0)) at 2 by (cbn; f_equal; ring).
        rewrite padd_opp_r. replace (mX x1 0 1 x1 0 1) with (mX x1 0 1 x1 (- 0) 1) by (f_equal; ring).
        replace (mY x1 0 1 x1 0 1) with (mY x1 0 1 x1 (- 0) 1) by (f_equal; ring).
        replace (mZ x1 0 1 x1 0 1) with (mZ x1 0 1 x1 (- 0) 1) by (f_equal; ring). apply m_opposite. exact HP.
      + change (Aff x1 (- y1)) with (popp K (Aff x1 y1)). rewrite padd_opp_r. apply m_opposite. exact HP.
  Qed.

  Lemma m_rep_on X Y Z P : rep X Y Z P -> on P -> Y * Y * Z = X * (X * X + a * X * Z + Z * Z).
  Proof.
    destruct P as [|x y]; cbn; unfold cubic.
    - intros (-> & _ & ->) _. ring.
    - intros (_ & -> & ->) H. transitivity (y * y * (Z * Z * Z)); [ring|]. rewrite H. ring.
  Qed.
  Lemma m_rep_exists X Y Z : Y * Y * Z = X * (X * X + a * X * Z + Z * Z) ->
    ~ (X = 0 /\ Y = 0 /\ Z = 0) -> exists P, rep X Y Z P /\ on P.
  Proof.
    intros E N. destruct (Feqd Z 0) as [->|Hz].
    - exists Inf. cbn. assert (HX : X = 0).
      { assert (X * X * X = 0) by (transitivity (Y * Y * 0); [rewrite E; ring|ring]).
        destruct (Fmul_integral K (X * X) X) as [G|G]; [assumption| |exact G]. apply Fsqr_zero, G. }
      repeat split; auto.
    - exists (Aff (X / Z) (Y / Z)). cbn. unfold cubic. repeat split; [exact Hz|field; exact Hz|field; exact Hz|].
      assert (Q : Y * Y = X * (X * X + a * X * Z + Z * Z) / Z) by (rewrite <- E; field; exact Hz).
      transitivity (Y * Y / (Z * Z)); [field; exact Hz|]. rewrite Q. field. exact Hz.
  Qed.
End Mont.
