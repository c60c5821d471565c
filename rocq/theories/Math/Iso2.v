(** The isogeny of degree two with kernel (0, 0): from y^2 = x (x^2 + a x + b) to y^2 = x (x^2 - 2 a x + a^2 - 4 b),
    (x, y) -> (y^2/x^2, y (b - x^2)/x^2). It is a homomorphism. Also moving a curve along the x axis. *)
From Coq Require Import Ring Field Setoid.
From Verif.Math Require Import Fld ECGroup.

Section Lines.
  Variable K : Fld.
  Add Field KF : (Fth K).
  Open Scope fld_scope.
  Variables a2 a4 a6 : K.
  Hypothesis two : (2 : K) <> 0.
  Hypothesis nonsing : forall x, cubic K a2 a4 a6 x = 0 -> dcubic K a2 a4 x <> 0.
  Local Notation on := (on K a2 a4 a6).
  Local Notation padd := (padd K a2 a4).
  Local Notation Aff := (Aff K).
  Local Notation popp := (popp K).

  Lemma line_of x1 y1 x2 y2 x3 y3 : on (Aff x1 y1) -> on (Aff x2 y2) -> padd (Aff x1 y1) (Aff x2 y2) = Aff x3 y3 ->
    exists l v, (x1 + x2 + x3 = l * l - a2 /\ x1 * x2 + x1 * x3 + x2 * x3 = a4 - 2 * l * v /\ x1 * x2 * x3 = v * v - a6)
      /\ y1 = l * x1 + v /\ y2 = l * x2 + v /\ - y3 = l * x3 + v.
  Proof.
    intros H1 H2 E. destruct (Feqd x1 x2) as [->|N].
    - destruct (Feqd y1 (- y2)) as [O|O].
      + exfalso. revert E. rewrite O. change (padd (Aff x2 (- y2)) (Aff x2 y2)) with (padd (popp (Aff x2 y2)) (Aff x2 y2)).
        rewrite (padd_opp_l K a2 a4). discriminate.
      + destruct (same_x K a2 a4 a6 _ _ _ H1 H2) as [->|Q]; [|contradiction].
        assert (Hy : y2 <> 0) by (intro Z; apply O; rewrite Z; ring).
        rewrite (padd_dbl K a2 a4 two) in E by exact Hy. unfold third in E. injection E as Ex Ey.
        set (l := dcubic K a2 a4 x2 / (2 * y2)) in *. assert (El : l * (2 * y2) = 3 * (x2 * x2) + 2 * a2 * x2 + a4).
        { unfold l, dcubic. field. split; [exact Hy|exact two]. }
        clearbody l. exists l, (y2 - l * x2). unfold on, cubic in H1. subst x3 y3. repeat split.
        * ring.
        * replace (a4 - 2 * l * (y2 - l * x2)) with (a4 - l * (2 * y2) + 2 * (l * l) * x2) by ring. rewrite El. ring.
        * replace ((y2 - l * x2) * (y2 - l * x2) - a6) with (y2 * y2 - l * (2 * y2) * x2 + l * l * (x2 * x2) - a6) by ring. rewrite El, H1. ring.
        * ring.
        * ring.
        * ring.
    - rewrite (padd_gen K a2 a4) in E by exact N. unfold third in E. injection E as Ex Ey.
      set (l := (y2 - y1) / (x2 - x1)) in *.
      assert (Nd : x2 - x1 <> 0) by (apply Fsub_nonzero; intro Q; apply N; symmetry; exact Q).
      assert (El : y2 = y1 + l * (x2 - x1)) by (unfold l; field; exact Nd).
      clearbody l. exists l, (y1 - l * x1). unfold on, cubic in H1, H2. subst x3 y3 y2.
      assert (Q : x1 * x1 + x1 * x2 + x2 * x2 + a2 * (x1 + x2) + a4 = 2 * l * (y1 - l * x1) + l * l * (x1 + x2)).
      { apply (Fcancel_l K (x2 - x1)); [exact Nd|].
        transitivity ((x2 * x2 * x2 + a2 * (x2 * x2) + a4 * x2 + a6) - (x1 * x1 * x1 + a2 * (x1 * x1) + a4 * x1 + a6)); [ring|].
        rewrite <- H1, <- H2. ring. }
      assert (Q' : a4 = 2 * l * (y1 - l * x1) + l * l * (x1 + x2) - (x1 * x1 + x1 * x2 + x2 * x2 + a2 * (x1 + x2))) by (rewrite <- Q; ring).
      assert (Qb : a6 = y1 * y1 - (x1 * x1 * x1 + a2 * (x1 * x1) + a4 * x1)) by (rewrite H1; ring).
      repeat split.
      + ring.
      + rewrite Q'. ring.
      + rewrite Qb, Q'. ring.
      + ring.
      + ring.
      + ring.
  Qed.
  Lemma of_line l v X1 Y1 X2 Y2 X3 Y3 : on (Aff X1 Y1) -> on (Aff X2 Y2) ->
    Y1 = l * X1 + v -> Y2 = l * X2 + v -> Y3 = l * X3 + v ->
    X1 + X2 + X3 = l * l - a2 -> X1 * X2 + X1 * X3 + X2 * X3 = a4 - 2 * l * v ->
    padd (Aff X1 Y1) (Aff X2 Y2) = Aff X3 (- Y3).
  Proof.
    intros H1 H2 E1 E2 E3 S1 S2. destruct (Feqd X1 X2) as [->|N].
    - assert (EY : Y1 = Y2) by congruence. rewrite EY. rewrite EY in H1. clear EY E1 Y1 H2. rename X2 into X, Y2 into Y, E2 into E1.
      assert (T : dcubic K a2 a4 X = l * (2 * Y)).
      { unfold dcubic. replace a4 with (X * X + X * X3 + X * X3 + 2 * l * v) by (rewrite S2; ring).
        rewrite E1. transitivity (2 * X * (X + X + X3 + a2) + 2 * l * v); [ring|]. rewrite S1. ring. }
      assert (NY : Y <> 0).
      { intro Z. apply (nonsing X).
        - unfold on, ECGroup.on in H1. rewrite <- H1, Z. ring.
        - rewrite T, Z. ring. }
      rewrite (padd_dbl K a2 a4 two) by exact NY. unfold third.
      assert (El : dcubic K a2 a4 X / (2 * Y) = l) by (rewrite T; field; split; [exact NY|exact two]).
      rewrite El. assert (EX : l * l - a2 - X - X = X3) by (rewrite <- S1; ring). rewrite EX, E3. f_equal. rewrite E1. ring.
    - rewrite (padd_gen K a2 a4) by exact N. unfold third.
      assert (Nd : X2 - X1 <> 0) by (apply Fsub_nonzero; intro Q; apply N; symmetry; exact Q).
      assert (El : (Y2 - Y1) / (X2 - X1) = l) by (rewrite E1, E2; field; exact Nd).
      rewrite El. assert (EX : l * l - a2 - X1 - X2 = X3) by (rewrite <- S1; ring). rewrite EX, E3. f_equal. rewrite E1. ring.
  Qed.

  (** *** moving the curve along the x axis *)
  Variables s b2 b4 b6 : K.
  Hypothesis moved : b2 = a2 + 3 * s /\ b4 = a4 + 2 * a2 * s + 3 * (s * s) /\ b6 = cubic K a2 a4 a6 s.
  Definition move (P : pt K) : pt K := match P with ECGroup.Inf _ => Inf K | ECGroup.Aff _ x y => Aff (x - s) y end.
  Lemma on_move P : on P -> ECGroup.on K b2 b4 b6 (move P).
  Proof.
    destruct P as [|x y]; [exact (fun h => h)|]. destruct moved as (-> & -> & ->). cbn. unfold cubic. intros ->. ring.
  Qed.
  Lemma move_add P Q : on P -> on Q -> move (padd P Q) = ECGroup.padd K b2 b4 (move P) (move Q).
  Proof.
    intros HP HQ. destruct (view_all K a2 a4 a6 P Q HP HQ) as [Q|P|P|x y Hy|x1 y1 x2 y2 D].
    - reflexivity.
    - rewrite !padd_inf_r. reflexivity.
    - rewrite padd_opp_r. destruct P as [|x y]; [reflexivity|]. cbn [ECGroup.popp move].
      change (Aff (x - s) (- y)) with (ECGroup.popp K (Aff (x - s) y)). rewrite padd_opp_r. reflexivity.
    - cbn [move]. rewrite !(padd_dbl K) by assumption. destruct moved as (E2 & E4 & _).
      assert (El : dcubic K b2 b4 (x - s) = dcubic K a2 a4 x) by (unfold dcubic; rewrite E2, E4; ring).
      rewrite El. unfold third. cbn [move]. rewrite E2. f_equal; ring.
    - cbn [move]. assert (ND : x1 - s <> x2 - s).
      { intro E. apply D. transitivity (x1 - s + s); [ring|]. rewrite E. ring. }
      rewrite !padd_gen by assumption. unfold third. destruct moved as (E2 & _ & _).
      assert (El : x2 - s - (x1 - s) = x2 - x1) by ring. rewrite El, E2. cbn [move]. f_equal; ring.
  Qed.
End Lines.

Section Iso2.
  Variable K : Fld.
  Add Field KF2 : (Fth K).
  Open Scope fld_scope.
  Variables a b : K.
  Hypothesis two : (2 : K) <> 0.
  Hypothesis b_nz : b <> 0.
  Hypothesis disc_nz : a * a - 2 * 2 * b <> 0.
  Local Notation a' := (- (2 * a)).
  Local Notation b' := (a * a - 2 * 2 * b).
  Local Notation on := (on K a b 0).
  Local Notation on' := (ECGroup.on K a' b' 0).
  Local Notation padd := (padd K a b).
  Local Notation padd' := (ECGroup.padd K a' b').
  Local Notation Inf := (Inf K).
  Local Notation Aff := (Aff K).
  Local Notation popp := (popp K).

  Lemma nonsing_of (c e : K) : e <> 0 -> c * c - 2 * 2 * e <> 0 -> forall x, cubic K c e 0 x = 0 -> dcubic K c e x <> 0.
  Proof.
    intros He Hd x E D. unfold cubic, dcubic in *.
    destruct (Fmul_integral K x (x * x + c * x + e)) as [Z|Z]; [rewrite <- E; ring| |].
    - apply He. rewrite Z in D. rewrite <- D. ring.
    - apply Hd. destruct (Fmul_integral K x (2 * x + c)) as [Y|Y].
      + transitivity (3 * (x * x) + 2 * c * x + e - (x * x + c * x + e)); [ring|]. rewrite D, Z. ring.
      + exfalso. apply He. rewrite Y in Z. rewrite <- Z. ring.
      + transitivity ((2 * x + c) * (2 * x + c) - 2 * 2 * (x * x + c * x + e)); [ring|]. rewrite Y, Z. ring.
  Qed.
  Lemma nonsing : forall x, cubic K a b 0 x = 0 -> dcubic K a b x <> 0.
  Proof. exact (nonsing_of a b b_nz disc_nz). Qed.
  Lemma nonsing' : forall x, cubic K a' b' 0 x = 0 -> dcubic K a' b' x <> 0.
  Proof.
    apply nonsing_of; [exact disc_nz|]. intro E. apply (Fmul_nonzero K (2 * 2 * (2 * 2)) b); [repeat apply Fmul_nonzero; exact two|exact b_nz|].
    rewrite <- E. ring.
  Qed.

  Definition iso (P : pt K) : pt K :=
    match P with
    | ECGroup.Inf _ => Inf
    | ECGroup.Aff _ x y => if Feqd x 0 then Inf else Aff (y * y / (x * x)) (y * (b - x * x) / (x * x))
    end.
  Lemma on_iso P : on P -> on' (iso P).
  Proof.
    destruct P as [|x y]; intro H; [exact I|]. unfold iso. destruct (Feqd x 0) as [_|N]; [exact I|]. cbn in H |- *. unfold cubic in *.
    assert (X : y * y / (x * x) = x + a + b / x) by (rewrite H; field; exact N). rewrite X.
    transitivity ((y * y / (x * x)) * ((b - x * x) * (b - x * x) / (x * x))); [field; exact N|]. rewrite X. field. exact N.
  Qed.
  Lemma iso_popp P : iso (popp P) = popp (iso P).
  Proof.
    destruct P as [|x y]; [reflexivity|]. unfold iso. cbn [ECGroup.popp]. destruct (Feqd x 0) as [|N]; [reflexivity|].
    cbn [ECGroup.popp]. f_equal; field; exact N.
  Qed.
  Definition T0 : pt K := Aff 0 0.
  Lemma on_T0 : on T0. Proof. cbn. unfold cubic. ring. Qed.
  Lemma zero_x y : on (Aff 0 y) -> Aff 0 y = T0.
  Proof. cbn. unfold cubic, T0. intro H. f_equal. apply (Fsqr_zero K). rewrite H. ring. Qed.
  Lemma iso_kernel P : on P -> (iso P = Inf <-> P = Inf \/ P = T0).
  Proof.
    intro H. destruct P as [|x y]; [split; [left; reflexivity|reflexivity]|]. unfold iso. destruct (Feqd x 0) as [->|N].
    - split; [|reflexivity]. intros _. right. apply zero_x. exact H.
    - split; [discriminate|]. intros [E|E]; [discriminate|]. unfold T0 in E. congruence.
  Qed.
  Lemma add_T0 x y : on (Aff x y) -> x <> 0 -> padd (Aff x y) T0 = Aff (b / x) (- (b * y / (x * x))).
  Proof.
    intros H N. unfold T0. rewrite padd_gen by exact N. unfold third. cbn in H. unfold cubic in H.
    assert (N' : 0 - x <> 0) by (intro E; apply N; transitivity (- (0 - x)); [ring|rewrite E; ring]).
    assert (El : (0 - y) / (0 - x) = y / x) by (apply (Fdiv_eq_iff K _ _ _ N'); field; exact N). rewrite El.
    assert (X : y / x * (y / x) - a - x - 0 = b / x).
    { transitivity (y * y / (x * x) - a - x); [field; exact N|]. rewrite H. field. exact N. }
    rewrite X. f_equal. field. exact N.
  Qed.
  Lemma iso_add_T0 P : on P -> iso (padd P T0) = iso P.
  Proof.
    intro H. destruct P as [|x y]; [cbn [ECGroup.padd]; symmetry|].
    - cbn [iso]. symmetry. unfold T0, iso. destruct (Feqd 0 (0 : K)) as [_|N]; [reflexivity|destruct (N eq_refl)].
    - destruct (Feqd x 0) as [->|N].
      + rewrite (zero_x y H). assert (E : padd T0 T0 = Inf).
        { replace T0 with (popp T0) at 1; [apply padd_opp_l|]. unfold T0. cbn [ECGroup.popp]. f_equal. ring. }
        rewrite E. unfold T0, iso. destruct (Feqd 0 (0 : K)) as [_|N]; [reflexivity|destruct (N eq_refl)].
      + rewrite add_T0 by assumption. unfold iso. destruct (Feqd x 0) as [?|_]; [contradiction|].
        destruct (Feqd (b / x) 0) as [E|_].
        * exfalso. apply b_nz. transitivity (b / x * x); [field; exact N|]. rewrite E. ring.
        * assert (Nb : b * x <> 0) by (apply Fmul_nonzero; assumption).
          f_equal; field; repeat split; first [assumption|exact Nb|idtac].
  Qed.
  (** the line through three points and the line through their images *)
  Lemma image_line l m x : m <> 0 -> x <> 0 ->
    (l * x + m) * (l * x + m) = cubic K a b 0 x ->
    let y := l * x + m in
    y * (b - x * x) / (x * x) = (b / m - l) * (y * y / (x * x)) + - (b * (l * l) / m - a * l + m).
  Proof.
    intros Nm Nx H y. unfold cubic in H. apply (Fcancel_l K (m * (x * x))); [repeat apply Fmul_nonzero; assumption|].
    transitivity (m * (y * (b - x * x))); [field; exact Nx|].
    transitivity ((b - l * m) * (y * y) - (b * (l * l) - a * l * m + m * m) * (x * x)); [|field; split; assumption].
    assert (Q : x * (x * x + (a - l * l) * x + (b - 2 * l * m)) = m * m).
    { transitivity (x * x * x + a * (x * x) + b * x + 0 - (l * x + m) * (l * x + m) + m * m); [ring|]. rewrite <- H. ring. }
    unfold y. apply (Fsub_zero K).
    transitivity ((m * m - x * (x * x + (a - l * l) * x + (b - 2 * l * m))) * (l * m)); [|rewrite Q; ring]. ring.
  Qed.

  Theorem iso_add P Q : on P -> on Q -> iso (padd P Q) = padd' (iso P) (iso Q).
  Proof.
    intros HP HQ. pose proof nonsing as NS.
    assert (KP : forall R S, on R -> on S -> iso R = Inf -> iso (padd S R) = padd' (iso S) (iso R)).
    { intros R S HR HS E. rewrite E, padd_inf_r. apply iso_kernel in E; [|exact HR]. destruct E as [->| ->].
      - rewrite padd_inf_r. reflexivity.
      - apply iso_add_T0. exact HS. }
    destruct (pt_eqd K (iso Q) Inf) as [EQ|NQ]; [apply KP; assumption|].
    destruct (pt_eqd K (iso P) Inf) as [EP|NP].
    { rewrite (padd_comm K a b 0) by assumption. rewrite (KP P Q) by assumption. rewrite EP, padd_inf_r. reflexivity. }
    destruct (pt_eqd K (iso (padd P Q)) Inf) as [ER|NR].
    { rewrite ER. apply iso_kernel in ER; [|apply (on_padd K a b 0 two); assumption]. destruct ER as [ER|ER].
      - apply (padd_inf_opp K a b 0 two NS) in ER; [|assumption..]. rewrite ER, iso_popp, padd_opp_r. reflexivity.
      - pose proof on_T0 as OT. apply (padd_move K a b 0 two NS) in ER; [|assumption..].
        assert (E : iso P = popp (iso Q)).
        { rewrite ER, (padd_comm K a b 0), iso_add_T0, iso_popp; [reflexivity|..]; try (apply on_popp; assumption); assumption. }
        rewrite E, padd_opp_l. reflexivity. }
    destruct P as [|x1 y1]; [destruct (NP eq_refl)|]. destruct Q as [|x2 y2]; [destruct (NQ eq_refl)|].
    destruct (padd (Aff x1 y1) (Aff x2 y2)) as [|x3 y3] eqn:EA; [destruct (NR eq_refl)|].
    pose proof (on_padd K a b 0 two _ _ HP HQ) as HR. rewrite EA in HR.
    destruct (line_of K a b 0 two _ _ _ _ _ _ HP HQ EA) as (l & m & (S1 & S2 & S3) & E1 & E2 & E3).
    pose proof (on_iso _ HP) as OP. pose proof (on_iso _ HQ) as OQ.
    unfold iso in *. destruct (Feqd x1 0) as [|N1]; [destruct (NP eq_refl)|]. destruct (Feqd x2 0) as [|N2]; [destruct (NQ eq_refl)|].
    destruct (Feqd x3 0) as [|N3]; [destruct (NR eq_refl)|]. clear NP NQ NR KP EA.
    assert (M2 : m * m = x1 * x2 * x3) by (rewrite S3; ring).
    assert (Nm : m <> 0).
    { intro Z. apply (Fmul_nonzero K (x1 * x2) x3 (Fmul_nonzero K x1 x2 N1 N2) N3). rewrite <- M2, Z. ring. }
    cbn in HP, HQ, HR. rewrite E1 in HP. rewrite E2 in HQ.
    assert (HR' : (l * x3 + m) * (l * x3 + m) = cubic K a b 0 x3) by (rewrite <- E3, <- HR; ring).
    pose proof (image_line l m x1 Nm N1 HP) as I1. pose proof (image_line l m x2 Nm N2 HQ) as I2.
    pose proof (image_line l m x3 Nm N3 HR') as I3. cbv zeta in I1, I2, I3. rewrite <- E1 in I1. rewrite <- E2 in I2. rewrite <- E3 in I3.
    transitivity (Aff (- y3 * - y3 / (x3 * x3)) (- (- y3 * (b - x3 * x3) / (x3 * x3)))); [f_equal; field; exact N3|]. symmetry.
    apply (of_line K a' b' 0 two nonsing' (b / m - l) (- (b * (l * l) / m - a * l + m))); try assumption.
    - (* X = (l + m/x)^2, summed *)
      rewrite E1, E2, E3.
      transitivity (3 * (l * l) + 2 * l * m * (x1 * x2 + x1 * x3 + x2 * x3) / (x1 * x2 * x3)
        + m * m * ((x1 * x2 + x1 * x3 + x2 * x3) * (x1 * x2 + x1 * x3 + x2 * x3) - 2 * (x1 * x2 * x3) * (x1 + x2 + x3)) / ((x1 * x2 * x3) * (x1 * x2 * x3)));
        [field; repeat split; assumption|].
      rewrite S1, S2, <- M2. field. exact Nm.
    - rewrite E1, E2, E3.
      set (s1 := x1 + x2 + x3) in *. set (s2 := x1 * x2 + x1 * x3 + x2 * x3) in *. set (s3 := x1 * x2 * x3) in *.
      transitivity ((3 * (l * l) + 2 * l * m * (s2 / s3) + m * m * (s1 / s3)) * (3 * (l * l) + 2 * l * m * (s2 / s3) + m * m * (s1 / s3))
        - 2 * (3 * l + m * (s2 / s3)) * (l * l * l + l * l * m * (s2 / s3) + l * (m * m) * (s1 / s3) + m * m * m / s3)).
      + unfold s1, s2, s3. field. repeat split; assumption.
      + rewrite S1, S2, <- M2. field. exact Nm.
  Qed.
End Iso2.
