(** The complete addition and doubling formulas of Renes, Costello and Batina for
    y^2 = x^3 + a x + b, against the chord-and-tangent law of ECGroup, over any field of
    characteristic different from 2: they compute the group law on projective representatives
    whenever the curve has no rational point of order 2. *)
From Coq Require Import Ring Field Setoid.
From Verif.Math Require Import Fld ECGroup.

Section RCB.
  Variable K : Fld.
  Add Field KF : (Fth K).
  Open Scope fld_scope.
  Variables a b : K.
  Hypothesis two : (2 : K) <> 0.
  Hypothesis noroot : forall x : K, x * x * x + a * x + b <> 0.

  Notation pt := (pt K).
  Notation Inf := (Inf K).
  Notation Aff := (Aff K).
  Notation on := (on K 0 a b).
  Notation padd := (padd K 0 a).

  (** projective representatives *)
  Definition rep (X Y Z : K) (P : pt) : Prop :=
    match P with
    | ECGroup.Inf _ => X = 0 /\ Y <> 0 /\ Z = 0
    | ECGroup.Aff _ x y => Z <> 0 /\ X = x * Z /\ Y = y * Z
    end.

  Definition rX (x1 y1 z1 x2 y2 z2 : K) : K :=
    (x1 * y2 + x2 * y1) * (y1 * y2 - (3 * b * (z1 * z2) + a * (x1 * z2 + x2 * z1)))
    - (y1 * z2 + y2 * z1) * (3 * b * (x1 * z2 + x2 * z1) + a * (x1 * x2 - a * (z1 * z2))).
  Definition rY (x1 y1 z1 x2 y2 z2 : K) : K :=
    (y1 * y2 - (3 * b * (z1 * z2) + a * (x1 * z2 + x2 * z1)))
      * (y1 * y2 + (3 * b * (z1 * z2) + a * (x1 * z2 + x2 * z1)))
    + (3 * (x1 * x2) + a * (z1 * z2)) * (3 * b * (x1 * z2 + x2 * z1) + a * (x1 * x2 - a * (z1 * z2))).
  Definition rZ (x1 y1 z1 x2 y2 z2 : K) : K :=
    (y1 * z2 + y2 * z1) * (y1 * y2 + (3 * b * (z1 * z2) + a * (x1 * z2 + x2 * z1)))
    + (x1 * y2 + x2 * y1) * (3 * (x1 * x2) + a * (z1 * z2)).

  Lemma y_nonzero x y : on (Aff x y) -> y <> 0.
  Proof.
    cbn. unfold cubic. intros H E. apply (noroot x). transitivity (y * y); [rewrite H; ring|]. rewrite E. ring.
  Qed.
  Lemma nonsing : forall x : K, cubic K 0 a b x = 0 -> dcubic K 0 a x <> 0.
  Proof. intros x H. exfalso. apply (noroot x). rewrite <- H. unfold cubic. ring. Qed.

  Lemma rep_scale k X Y Z P : k <> 0 -> rep X Y Z P -> rep (k * X) (k * Y) (k * Z) P.
  Proof.
    intros Hk. destruct P as [|x y]; cbn.
    - intros (-> & Hy & ->). repeat split; [ring|apply Fmul_nonzero; assumption|ring].
    - intros (Hz & -> & ->). repeat split; [apply Fmul_nonzero; assumption|ring|ring].
  Qed.

  (** numerators of the sum and of the difference of two points with distinct x *)
  Lemma generic x1 y1 x2 y2 : on (Aff x1 y1) -> on (Aff x2 y2) -> x1 <> x2 ->
    rep (rX x1 y1 1 x2 y2 1) (rY x1 y1 1 x2 y2 1) (rZ x1 y1 1 x2 y2 1) (padd (Aff x1 y1) (Aff x2 y2)).
  Proof.
    intros H1 H2 Hx. rewrite padd_gen by exact Hx.
    pose proof (on_padd K 0 a b two (Aff x1 y1) (Aff x2 (- y2)) H1 (on_popp K 0 a b (Aff x2 y2) H2)) as HD.
    rewrite padd_gen in HD by exact Hx. apply y_nonzero in HD.
    cbn in H1, H2. unfold cubic in H1, H2.
    assert (D : x2 - x1 <> 0) by (apply Fsub_nonzero; congruence).
    assert (HZ : rZ x1 y1 1 x2 y2 1 =
       (((- y2 - y1) / (x2 - x1) * (x1 - ((- y2 - y1) / (x2 - x1) * ((- y2 - y1) / (x2 - x1)) - 0 - x1 - x2)) - y1)
        * ((x2 - x1) * (x2 - x1) * (x2 - x1)))).
    { unfold rZ. field [H1 H2]. exact D. }
    cbv zeta in HD.
    cbn. split.
    - rewrite HZ. apply Fmul_nonzero; [exact HD|]. fnz.
    - split; unfold rX, rY, rZ; field [H1 H2]; exact D.
  Qed.

  Lemma opposite x y : on (Aff x y) ->
    rep (rX x y 1 x (- y) 1) (rY x y 1 x (- y) 1) (rZ x y 1 x (- y) 1) Inf.
  Proof.
    intro H. pose proof (y_nonzero x y H) as Hy.
    pose proof (on_dbl K 0 a b two x y H Hy) as HD. apply y_nonzero in HD. cbv zeta in HD.
    cbn in H. unfold cubic in H. unfold dcubic in HD.
    assert (HY : rY x y 1 x (- y) 1 =
      ((3 * (x * x) + 2 * 0 * x + a) / (2 * y)
       * (x - ((3 * (x * x) + 2 * 0 * x + a) / (2 * y) * ((3 * (x * x) + 2 * 0 * x + a) / (2 * y)) - 0 - x - x)) - y)
      * (2 * y * (2 * y) * (2 * y))).
    { unfold rY. field [H]. fnz. }
    cbn. repeat split; [unfold rX; ring| |unfold rZ; ring].
    rewrite HY. fnz.
  Qed.

  Lemma double x y : on (Aff x y) ->
    rep (rX x y 1 x y 1) (rY x y 1 x y 1) (rZ x y 1 x y 1) (padd (Aff x y) (Aff x y)).
  Proof.
    intro H. pose proof (y_nonzero x y H) as Hy. rewrite padd_dbl by assumption.
    cbn in H. unfold cubic in H. cbn. unfold dcubic.
    assert (HZ : rZ x y 1 x y 1 = 2 * y * (2 * y) * (2 * y)) by (unfold rZ; ring [H]).
    rewrite HZ. split; [fnz|].
    split; unfold rX, rY; field [H]; fnz.
  Qed.

  Lemma rep_norm X Y Z P : rep X Y Z P -> exists k, k <> 0 /\
    match P with
    | ECGroup.Inf _ => X = k * 0 /\ Y = k * 1 /\ Z = k * 0
    | ECGroup.Aff _ x y => X = k * x /\ Y = k * y /\ Z = k * 1
    end.
  Proof.
    destruct P as [|x y]; cbn.
    - intros (-> & Hy & ->). exists Y. repeat split; try ring. exact Hy.
    - intros (Hz & -> & ->). exists Z. repeat split; try ring. exact Hz.
  Qed.

  Lemma r_scale k m x1 y1 z1 x2 y2 z2 :
    rX (k * x1) (k * y1) (k * z1) (m * x2) (m * y2) (m * z2) = (k * m) * (k * m) * rX x1 y1 z1 x2 y2 z2
    /\ rY (k * x1) (k * y1) (k * z1) (m * x2) (m * y2) (m * z2) = (k * m) * (k * m) * rY x1 y1 z1 x2 y2 z2
    /\ rZ (k * x1) (k * y1) (k * z1) (m * x2) (m * y2) (m * z2) = (k * m) * (k * m) * rZ x1 y1 z1 x2 y2 z2.
  Proof. unfold rX, rY, rZ. repeat split; ring. Qed.

  (** the complete addition *)
  Theorem rcb_add X1 Y1 Z1 X2 Y2 Z2 P Q : rep X1 Y1 Z1 P -> rep X2 Y2 Z2 Q -> on P -> on Q ->
    rep (rX X1 Y1 Z1 X2 Y2 Z2) (rY X1 Y1 Z1 X2 Y2 Z2) (rZ X1 Y1 Z1 X2 Y2 Z2) (padd P Q).
  Proof.
    intros RP RQ HP HQ. destruct (rep_norm _ _ _ _ RP) as (k & Hk & EP).
    destruct (rep_norm _ _ _ _ RQ) as (m & Hm & EQ).
    assert (G : forall x1 y1 z1 x2 y2 z2,
      rep (rX x1 y1 z1 x2 y2 z2) (rY x1 y1 z1 x2 y2 z2) (rZ x1 y1 z1 x2 y2 z2) (padd P Q) ->
      X1 = k * x1 /\ Y1 = k * y1 /\ Z1 = k * z1 -> X2 = m * x2 /\ Y2 = m * y2 /\ Z2 = m * z2 ->
      rep (rX X1 Y1 Z1 X2 Y2 Z2) (rY X1 Y1 Z1 X2 Y2 Z2) (rZ X1 Y1 Z1 X2 Y2 Z2) (padd P Q)).
    { intros x1 y1 z1 x2 y2 z2 R (-> & -> & ->) (-> & -> & ->).
      destruct (r_scale k m x1 y1 z1 x2 y2 z2) as (-> & -> & ->). apply rep_scale; [fnz|exact R]. }
    clear RP RQ. destruct P as [|x1 y1], Q as [|x2 y2].
    - apply (G 0 1 0 0 1 0); auto. cbn. unfold rX, rY, rZ. repeat split; [ring| |ring].
      intro E. apply (F_1_neq_0 K). rewrite <- E. ring.
    - pose proof (y_nonzero _ _ HQ) as Hy. apply (G 0 1 0 x2 y2 1); auto. cbn. unfold rX, rY, rZ. repeat split; try ring.
      intro E. apply Hy. rewrite <- E. ring.
    - pose proof (y_nonzero _ _ HP) as Hy. apply (G x1 y1 1 0 1 0); auto. rewrite padd_inf_r.
      cbn. unfold rX, rY, rZ. repeat split; try ring. intro E. apply Hy. rewrite <- E. ring.
    - apply (G x1 y1 1 x2 y2 1); auto. clear G.
      destruct (Feqd x1 x2) as [E|E]; [subst x2|apply generic; assumption].
      destruct (same_x K 0 a b x1 y2 y1 HQ HP) as [->| ->]; [apply double; assumption|].
      change (Aff x1 (- y1)) with (popp K (Aff x1 y1)). rewrite padd_opp_r. apply opposite. exact HP.
  Qed.

  (** the doubling formula has another expression for Z, equal on the curve *)
  Definition dZ (y z : K) : K := 2 * (2 * (2 * (y * z) * (y * y))).
  Lemma rep_on X Y Z P : rep X Y Z P -> on P -> Y * Y * Z = X * X * X + a * X * (Z * Z) + b * (Z * Z * Z).
  Proof.
    destruct P as [|x y]; cbn; unfold cubic.
    - intros (-> & _ & ->) _. ring.
    - intros (_ & -> & ->) H. transitivity (y * y * (Z * Z * Z)); [ring|]. rewrite H. ring.
  Qed.
  Theorem rcb_double X Y Z P : rep X Y Z P -> on P ->
    rep (rX X Y Z X Y Z) (rY X Y Z X Y Z) (dZ Y Z) (padd P P).
  Proof.
    intros R H. replace (dZ Y Z) with (rZ X Y Z X Y Z); [apply rcb_add; assumption|].
    pose proof (rep_on _ _ _ _ R H) as E. unfold rZ, dZ. apply (Fsub_zero K).
    transitivity (2 * 3 * Y * (X * X * X + a * X * (Z * Z) + b * (Z * Z * Z) - Y * Y * Z)); [ring|].
    rewrite E. ring.
  Qed.
  (** conversely, a curve equation satisfied by a triple other than (0,0,0) *)
  Lemma rep_exists X Y Z : Y * Y * Z = X * X * X + a * X * (Z * Z) + b * (Z * Z * Z) ->
    ~ (X = 0 /\ Y = 0 /\ Z = 0) -> exists P, rep X Y Z P /\ on P.
  Proof.
    intros E N. destruct (Feqd Z 0) as [->|Hz].
    - exists Inf. cbn. assert (HX : X = 0).
      { assert (X * X * X = 0) by (transitivity (Y * Y * 0); [rewrite E; ring|ring]).
        destruct (Fmul_integral K (X * X) X) as [G|G]; [assumption| |exact G]. apply Fsqr_zero, G. }
      repeat split; auto.
    - exists (Aff (X / Z) (Y / Z)). cbn. unfold cubic. repeat split; [exact Hz|field; exact Hz|field; exact Hz|].
      assert (Q : Y * Y = (X * X * X + a * X * (Z * Z) + b * (Z * Z * Z)) / Z) by (rewrite <- E; field; exact Hz).
      transitivity (Y * Y / (Z * Z)); [field; exact Hz|]. rewrite Q. field. exact Hz.
  Qed.
End RCB.
