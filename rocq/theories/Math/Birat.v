(** The map between a complete twisted Edwards curve a x^2 + y^2 = 1 + d x^2 y^2 and the Montgomery curve
    v^2 = u^3 + A u^2 + u with a c^2 = A + 2 and d c^2 = A - 2:
    u = (1 + y)/(1 - y), v = c u / x. It is a bijection of the points and a homomorphism. *)
From Coq Require Import Ring Field Setoid.
From Verif.Math Require Import Fld Edwards ECGroup.

Section Birat.
  Variable K : Fld.
  Add Field KF : (Fth K).
  Open Scope fld_scope.
  Variables a d A c : K.
  Hypothesis two : (2 : K) <> 0.
  Hypothesis a_sq : exists s : K, s * s = a.
  Hypothesis a_nz : a <> 0.
  Hypothesis d_nonsq : forall s : K, s * s <> d.
  Hypothesis Ha : a * (c * c) = A + 2.
  Hypothesis Hd : d * (c * c) = A - 2.

  Notation pt := (pt K).
  Notation Inf := (Inf K).
  Notation Aff := (Aff K).
  Notation on := (on K A 1 0).
  Notation padd := (padd K A 1).
  Notation eon := (eon K a d).
  Notation eadd := (eadd K a d).

  Definition beta (P : K * K) : pt :=
    let (x, y) := P in
    if Feqd x 0 then (if Feqd y 1 then Inf else Aff 0 0)
    else Aff ((1 + y) / (1 - y)) (c * ((1 + y) / (1 - y)) / x).
  Definition alpha (M : pt) : K * K :=
    match M with
    | ECGroup.Inf _ => (0, 1)
    | ECGroup.Aff _ u v => if Feqd v 0 then (0, - (1)) else (c * u / v, (u - 1) / (u + 1))
    end.

  Lemma c_nz : c <> 0.
  Proof.
    intro E. apply two. apply (Fsqr_zero K). transitivity ((A + 2) - (A - 2)); [ring|]. rewrite <- Ha, <- Hd, E. ring.
  Qed.
  Notation cn := c_nz.

  Lemma v_zero u : on (Aff u 0) -> u = 0.
  Proof.
    cbn. unfold cubic. intro H. destruct (Fmul_integral K u (u * u + A * u + 1)) as [E|E];
      [transitivity (0 * 0 : K); [rewrite H; ring|ring]|exact E|exfalso].
    destruct a_sq as [s Hs]. assert (sn : s <> 0) by (intro Z; apply a_nz; rewrite <- Hs, Z; ring).
    apply (sq_ratio K d d_nonsq (2 * u + A) (s * (c * c))).
    - repeat apply Fmul_nonzero; try assumption; apply cn.
    - transitivity (2 * 2 * (u * u + A * u + 1) + (A + 2) * (A - 2)); [ring|]. rewrite E, <- Ha, <- Hd, <- Hs. ring.
  Qed.
  Lemma u_nz u v : on (Aff u v) -> v <> 0 -> u <> 0.
  Proof. cbn. unfold cubic. intros H N ->. apply N. apply (Fsqr_zero K). rewrite H. ring. Qed.
  Lemma u_m1 u v : on (Aff u v) -> u + 1 <> 0.
  Proof.
    cbn. unfold cubic. intros H E. apply (sq_ratio K d d_nonsq v c cn). rewrite Hd, H.
    assert (u = - (1)) as -> by (transitivity (u + 1 - 1); [ring|rewrite E; ring]). ring.
  Qed.

  Lemma eon_alpha M : on M -> eon (alpha M).
  Proof.
    destruct M as [|u v]; intro H; unfold alpha; [cbn; ring|]. destruct (Feqd v 0) as [E|N]; cbn; [ring|].
    pose proof (u_m1 u v H) as N1. cbn in H. unfold cubic in H.
    assert (E : (A + 2) * (u * u) * ((u + 1) * (u + 1)) + (v * v) * ((u - 1) * (u - 1)) =
                (v * v) * ((u + 1) * (u + 1)) + (A - 2) * (u * u) * ((u - 1) * (u - 1))) by (rewrite H; ring).
    rewrite <- Ha, <- Hd in E.
    transitivity ((a * (c * c) * (u * u) * ((u + 1) * (u + 1)) + (v * v) * ((u - 1) * (u - 1))) / ((v * v) * ((u + 1) * (u + 1))));
      [field; repeat split; assumption|]. rewrite E. field. repeat split; assumption.
  Qed.

  Lemma x_zero y : eon (0, y) -> y = 1 \/ y = - (1).
  Proof. cbn. intro H. apply Fsqr_eq. transitivity (a * (0 * 0) + y * y); [ring|]. rewrite H. ring. Qed.
  Lemma y_one x : eon (x, 1) -> x = 0.
  Proof.
    cbn. intro H. apply (Fsqr_zero K). destruct (Fmul_integral K (a - d) (x * x)) as [E|E]; [|exfalso|exact E].
    - transitivity ((a * (x * x) + 1 * 1) - (1 + d * (x * x) * (1 * 1))); [ring|]. rewrite H. ring.
    - destruct a_sq as [s Hs]. apply (d_nonsq s). rewrite Hs. apply (Fsub_zero K). exact E.
  Qed.
  Lemma y_m1 x : eon (x, - (1)) -> x = 0.
  Proof. intro H. apply y_one. cbn in *. transitivity (a * (x * x) + - (1) * - (1)); [ring|]. rewrite H. ring. Qed.
  Lemma on_beta P : eon P -> on (beta P).
  Proof.
    destruct P as [x y]. intro H. unfold beta. destruct (Feqd x 0) as [E|N].
    - destruct (Feqd y 1); [exact I|]. cbn [ECGroup.on]. unfold cubic. ring.
    - assert (N1 : 1 - y <> 0). { intro E. apply N. apply y_one. replace (1 : K) with y; [exact H|]. symmetry. apply (Fsub_zero K). exact E. }
      cbn. unfold cubic. cbn in H.
      assert (Ed : (c * c) * ((a * (x * x) + y * y) - (1 + d * (x * x) * (y * y))) = 0) by (rewrite H; ring).
      assert (E : c * c * ((1 + y) * (1 - y)) = (x * x) * ((A + 2) - (A - 2) * (y * y))).
      { rewrite <- Ha, <- Hd. apply (Fsub_zero K).
        transitivity (- (c * c * ((a * (x * x) + y * y) - (1 + d * (x * x) * (y * y))))); [ring|]. rewrite Ed. ring. }
      transitivity ((1 + y) / (1 - y) / (1 - y) / (1 - y) / (x * x) * (c * c * ((1 + y) * (1 - y)))); [field; repeat split; assumption|].
      rewrite E. field. repeat split; assumption.
  Qed.
  Lemma beta_alpha M : on M -> beta (alpha M) = M.
  Proof.
    destruct M as [|u v]; intro H; cbn.
    - destruct (Feqd 0 (0 : K)) as [_|N]; [|destruct (N eq_refl)]. destruct (Feqd 1 (1 : K)) as [_|N]; [reflexivity|destruct (N eq_refl)].
    - destruct (Feqd v 0) as [->|N].
      + rewrite (v_zero u H). cbn. destruct (Feqd 0 (0 : K)) as [_|N]; [|destruct (N eq_refl)].
        destruct (Feqd (- (1)) (1 : K)) as [E|_]; [|reflexivity]. exfalso. apply two. transitivity (1 - - (1) : K); [ring|]. rewrite E. ring.
      + pose proof (u_nz u v H N) as Nu. pose proof (u_m1 u v H) as N1. unfold beta. destruct (Feqd (c * u / v) 0) as [E|_].
        * exfalso. apply (Fmul_nonzero K c u cn Nu). transitivity (c * u / v * v); [field; exact N|]. rewrite E. ring.
        * assert (Q : 1 - (u - 1) / (u + 1) <> 0).
          { intro E. apply two. transitivity ((1 - (u - 1) / (u + 1)) * (u + 1)); [field; exact N1|]. rewrite E. ring. }
          assert (U : (1 + (u - 1) / (u + 1)) / (1 - (u - 1) / (u + 1)) = u).
          { apply (Fdiv_eq_iff K _ _ _ Q). field. exact N1. }
          rewrite U. f_equal. field. repeat split; try assumption; apply cn.
  Qed.
  Lemma alpha_beta P : eon P -> alpha (beta P) = P.
  Proof.
    destruct P as [x y]. intro H. unfold beta. destruct (Feqd x 0) as [->|N].
    - destruct (Feqd y 1) as [->|N1]; cbn; [reflexivity|]. destruct (Feqd 0 (0 : K)) as [_|N]; [|destruct (N eq_refl)].
      destruct (x_zero y H) as [E|E]; [contradiction|rewrite E; reflexivity].
    - assert (N1 : 1 - y <> 0). { intro E. apply N. apply y_one. replace (1 : K) with y; [exact H|]. symmetry. apply (Fsub_zero K). exact E. }
      assert (N2 : 1 + y <> 0). { intro E. apply N. apply y_m1. replace (- (1) : K) with y; [exact H|]. transitivity (1 + y - 1); [ring|rewrite E; ring]. }
      cbn. destruct (Feqd _ 0) as [E|_].
      + exfalso. apply (Fmul_nonzero K c (1 + y) cn N2). transitivity (c * ((1 + y) / (1 - y)) / x * (x * (1 - y))); [field; repeat split; assumption|]. rewrite E. ring.
      + f_equal; field; repeat split; try assumption; try apply cn.
        change (1 + y + (1 - y) <> 0). intro E. apply two. transitivity (1 + y + (1 - y)); [ring|exact E].
  Qed.

  (** three points on a line v = l u + m *)
  Section Line.
    Variables u1 u2 u3 l m : K.
    Hypotheses (N1 : u1 <> 0) (N2 : u2 <> 0).
    Hypothesis S1 : A = l * l - u1 - u2 - u3.
    Hypothesis S2 : u1 * u2 + (u1 + u2) * u3 + 2 * l * m = 1.
    Hypothesis S3 : u1 * u2 * u3 = m * m.
    Let v1 := l * u1 + m.
    Let v2 := l * u2 + m.
    Let v3 := - (l * u3 + m).
    Lemma line_x : u3 * (v1 * v2 * (u1 + 1) * (u2 + 1) + (A - 2) * (u1 * u2 * (u1 - 1) * (u2 - 1))) =
      v3 * (u1 * v2 * (u2 - 1) * (u1 + 1) + u2 * v1 * (u1 - 1) * (u2 + 1)).
    Proof.
      unfold v1, v2, v3. assert (E3 : u3 = m * m / (u1 * u2)) by (rewrite <- S3; field; repeat split; assumption).
      destruct (Feqd m 0) as [Em|Nm].
      - assert (u3 = 0) as -> by (rewrite E3, Em; field; repeat split; assumption). rewrite Em. ring.
      - assert (El : l = (1 - u1 * u2 - (u1 + u2) * u3) / (2 * m)) by (transitivity ((u1 * u2 + (u1 + u2) * u3 + 2 * l * m - u1 * u2 - (u1 + u2) * u3) / (2 * m)); [field; repeat split; assumption|rewrite S2; reflexivity]).
        rewrite S1, El, E3. field. repeat split; assumption.
    Qed.
    Lemma line_y : (u3 - 1) * (v1 * v2 * (u1 + 1) * (u2 + 1) - (A - 2) * (u1 * u2 * (u1 - 1) * (u2 - 1))) =
      (u3 + 1) * (v1 * v2 * (u1 - 1) * (u2 - 1) - (A + 2) * (u1 * u2 * (u1 + 1) * (u2 + 1))).
    Proof.
      unfold v1, v2, v3. assert (E3 : u3 = m * m / (u1 * u2)) by (rewrite <- S3; field; repeat split; assumption).
      destruct (Feqd m 0) as [Em|Nm].
      - assert (U3 : u3 = 0) by (rewrite E3, Em; field; repeat split; assumption).
        assert (U : u2 = 1 / u1).
        { apply (Fcancel_l K u1 _ _ N1). transitivity (u1 * u2 + (u1 + u2) * u3 + 2 * l * m); [rewrite U3, Em; ring|].
          rewrite S2. field. exact N1. }
        rewrite S1, U3, Em, U. field. exact N1.
      - assert (El : l = (1 - u1 * u2 - (u1 + u2) * u3) / (2 * m)) by (transitivity ((u1 * u2 + (u1 + u2) * u3 + 2 * l * m - u1 * u2 - (u1 + u2) * u3) / (2 * m)); [field; repeat split; assumption|rewrite S2; reflexivity]).
        rewrite S1, El, E3. field. repeat split; assumption.
    Qed.
  End Line.
  (** the sum of two generic points, once the line through them is known *)
  Lemma line_sum u1 v1 u2 v2 l m : on (Aff u1 v1) -> on (Aff u2 v2) -> v1 <> 0 -> v2 <> 0 ->
    v1 = l * u1 + m -> v2 = l * u2 + m ->
    let u3 := l * l - A - u1 - u2 in
    u1 * u2 + (u1 + u2) * u3 + 2 * l * m = 1 -> u1 * u2 * u3 = m * m ->
    on (Aff u3 (- (l * u3 + m))) ->
    alpha (Aff u3 (- (l * u3 + m))) = eadd (alpha (Aff u1 v1)) (alpha (Aff u2 v2)).
  Proof.
    intros H1 H2 NV1 NV2 EV1 EV2 u3 S2 S3 H3.
    pose proof (den_plus K a d two a_sq d_nonsq _ _ (eon_alpha _ H1) (eon_alpha _ H2)) as Dp.
    pose proof (den_minus K a d two a_sq d_nonsq _ _ (eon_alpha _ H1) (eon_alpha _ H2)) as Dm.
    assert (S1 : A = l * l - u1 - u2 - u3) by (unfold u3; ring).
    pose proof (u_nz u1 v1 H1 NV1) as N1. pose proof (u_nz u2 v2 H2 NV2) as N2.
    pose proof (u_m1 u1 v1 H1) as M1. pose proof (u_m1 u2 v2 H2) as M2. pose proof (u_m1 u3 _ H3) as M3.
    pose proof (line_x u1 u2 u3 l m N1 N2 S1 S2 S3) as LX. pose proof (line_y u1 u2 u3 l m N1 N2 S1 S2 S3) as LY.
    pose proof cn as Nc.
    rewrite <- EV1, <- EV2 in LX, LY. rewrite <- Hd in LX. rewrite <- Hd, <- Ha in LY.
    assert (ZU : - (l * u3 + m) = 0 -> u3 = 0 /\ m = 0).
    { intro Z. rewrite Z in H3. pose proof (v_zero _ H3) as U3. split; [exact U3|]. apply (Fsqr_zero K). rewrite <- S3, U3. ring. }
    clearbody u3. set (v3 := - (l * u3 + m)) in *. 
    assert (ZX : v3 = 0 -> u1 * v2 * (u2 - 1) * (u1 + 1) + u2 * v1 * (u1 - 1) * (u2 + 1) = 0).
    { intro Z. destruct (ZU Z) as [U3 M0]. rewrite M0, U3 in S2. rewrite EV1, EV2, M0.
      transitivity (2 * l * u1 * u2 * (u1 * u2 + (u1 + u2) * 0 + 2 * l * 0 - 1)); [ring|]. rewrite S2. ring. }
    assert (ZU' : v3 = 0 -> u3 = 0) by (intro Z; exact (proj1 (ZU Z))).
    clearbody v3. clear EV1 EV2 ZU S1 S2 S3 H1 H2 H3. unfold alpha in *.
    destruct (Feqd v1 0) as [?|_]; [contradiction|]. destruct (Feqd v2 0) as [?|_]; [contradiction|].
    unfold exy, eadd, Edwards.eadd in *. unfold exy. cbn [fst snd] in *.
    set (D := c * u1 / v1 * (c * u2 / v2) * ((u1 - 1) / (u1 + 1) * ((u2 - 1) / (u2 + 1)))) in *.
    assert (ED : d * D * (v1 * v2 * (u1 + 1) * (u2 + 1)) = d * (c * c) * (u1 * u2 * (u1 - 1) * (u2 - 1))).
    { unfold D. field. repeat split; assumption. }
    rewrite <- ED in LX, LY. clearbody D. clear ED.
    assert (W : v1 * v2 * (u1 + 1) * (u2 + 1) <> 0) by (repeat apply Fmul_nonzero; assumption).
    assert (EX : (c * u1 / v1 * ((u2 - 1) / (u2 + 1)) + (u1 - 1) / (u1 + 1) * (c * u2 / v2)) * (v1 * v2 * (u1 + 1) * (u2 + 1)) =
      c * (u1 * v2 * (u2 - 1) * (u1 + 1) + u2 * v1 * (u1 - 1) * (u2 + 1))) by (field; repeat split; assumption).
    assert (EY : ((u1 - 1) / (u1 + 1) * ((u2 - 1) / (u2 + 1)) - a * (c * u1 / v1 * (c * u2 / v2))) * (v1 * v2 * (u1 + 1) * (u2 + 1)) =
      v1 * v2 * (u1 - 1) * (u2 - 1) - a * (c * c) * (u1 * u2 * (u1 + 1) * (u2 + 1))) by (field; repeat split; assumption).
    rewrite <- EY in LY. clear EY.
    set (NX := c * u1 / v1 * ((u2 - 1) / (u2 + 1)) + (u1 - 1) / (u1 + 1) * (c * u2 / v2)) in *.
    set (NY := (u1 - 1) / (u1 + 1) * ((u2 - 1) / (u2 + 1)) - a * (c * u1 / v1 * (c * u2 / v2))) in *.
    set (W' := v1 * v2 * (u1 + 1) * (u2 + 1)) in *.
    set (SX := u1 * v2 * (u2 - 1) * (u1 + 1) + u2 * v1 * (u1 - 1) * (u2 + 1)) in *. clearbody NX NY W' SX.
    assert (LY' : (u3 - 1) * (1 - d * D) = (u3 + 1) * NY).
    { apply (Fcancel_l K W' _ _ W). etransitivity; [|etransitivity; [exact LY|]]; ring. }
    destruct (Feqd v3 0) as [Z|NZ].
    - specialize (ZX Z). specialize (ZU' Z). f_equal.
      + symmetry. apply (Fdiv_eq_iff K _ _ _ Dp). transitivity (0 : K); [|ring].
        apply (Fcancel_l K W' _ _ W). transitivity (NX * W'); [ring|]. rewrite EX, ZX. ring.
      + symmetry. apply (Fdiv_eq_iff K _ _ _ Dm). rewrite ZU' in LY'. transitivity ((0 + 1) * NY); [ring|].
        rewrite <- LY'. ring.
    - f_equal.
      + symmetry. apply (Fdiv_eq_iff K _ _ _ Dp). apply (Fcancel_l K W' _ _ W). apply (Fcancel_l K v3 _ _ NZ).
        transitivity (v3 * (NX * W')); [ring|]. rewrite EX.
        transitivity (c * (v3 * SX)); [ring|]. rewrite <- LX. field. exact NZ.
      + symmetry. apply (Fdiv_eq_iff K _ _ _ Dm). apply (Fcancel_l K (u3 + 1) _ _ M3). rewrite <- LY'. field. exact M3.
  Qed.

  Lemma line_eqs u1 u2 l m (D : u1 <> u2) :
    (l * u1 + m) * (l * u1 + m) = cubic K A 1 0 u1 -> (l * u2 + m) * (l * u2 + m) = cubic K A 1 0 u2 ->
    let u3 := l * l - A - u1 - u2 in
    u1 * u2 + (u1 + u2) * u3 + 2 * l * m = 1 /\ u1 * u2 * u3 = m * m.
  Proof.
    intros H1 H2 u3. unfold cubic in H1, H2. assert (N : u1 - u2 <> 0) by (apply Fsub_nonzero; exact D).
    assert (S2 : u1 * u2 + (u1 + u2) * u3 + 2 * l * m = 1).
    { apply (Fcancel_l K (u1 - u2) _ _ N). apply (Fsub_zero K).
      transitivity ((l * u1 + m) * (l * u1 + m) - (u1 * u1 * u1 + A * (u1 * u1) + 1 * u1 + 0)
        - ((l * u2 + m) * (l * u2 + m) - (u2 * u2 * u2 + A * (u2 * u2) + 1 * u2 + 0))); [unfold u3; ring|]. rewrite H1, H2. ring. }
    split; [exact S2|]. apply (Fsub_zero K).
    transitivity (u1 * (u1 * u2 + (u1 + u2) * u3 + 2 * l * m - 1) - ((l * u1 + m) * (l * u1 + m) - (u1 * u1 * u1 + A * (u1 * u1) + 1 * u1 + 0)));
      [unfold u3; ring|]. rewrite S2, H1. ring.
  Qed.
  Lemma tangent_eqs u v l (E : l * (2 * v) = dcubic K A 1 u) : v * v = cubic K A 1 0 u ->
    let u3 := l * l - A - u - u in let m := v - l * u in
    u * u + (u + u) * u3 + 2 * l * m = 1 /\ u * u * u3 = m * m.
  Proof.
    intros H u3 m. unfold cubic in H. unfold dcubic in E. split; apply (Fsub_zero K); unfold u3, m.
    - transitivity (l * (2 * v) - (3 * (u * u) + 2 * A * u + 1)); [ring|]. rewrite E. ring.
    - transitivity (u * (l * (2 * v) - (3 * (u * u) + 2 * A * u + 1)) - (v * v - (u * u * u + A * (u * u) + 1 * u + 0))); [ring|].
      rewrite E, H. ring.
  Qed.

  Lemma alpha_opp M : on M -> alpha (popp K M) = eopp K (alpha M).
  Proof.
    intro H. destruct M as [|u v]; unfold eopp; cbn; [f_equal; ring|].
    destruct (Feqd v 0) as [->|N].
    - destruct (Feqd (- 0) (0 : K)) as [_|N]; [cbn; f_equal; ring|]. destruct N. ring.
    - destruct (Feqd (- v) 0) as [E|_]; [destruct (N (Fopp_zero K v E))|]. cbn. f_equal. field. split; [exact N|].
      intro E. exact (N (Fopp_zero K v E)).
  Qed.

  (** adding the point of order two *)
  Lemma alpha_add_T u v : on (Aff u v) -> v <> 0 ->
    alpha (padd (Aff 0 0) (Aff u v)) = eadd (alpha (Aff 0 0)) (alpha (Aff u v)).
  Proof.
    intros H N. pose proof (u_nz u v H N) as Nu. pose proof (u_m1 u v H) as N1. rewrite padd_gen by congruence.
    cbn in H. unfold cubic in H.
    assert (E : third K A ((v - 0) / (u - 0)) 0 0 u = Aff (1 / u) (- (v / (u * u)))).
    { unfold third. assert (NN : u - 0 <> 0) by (intro Z; apply Nu; rewrite <- Z; ring).
      assert (X : (v - 0) / (u - 0) * ((v - 0) / (u - 0)) - A - 0 - u = 1 / u).
      { transitivity (v * v / (u * u) - A - u); [field; repeat split; assumption|]. rewrite H. field. exact Nu. }
      rewrite X. f_equal. field. repeat split; assumption. }
    change (let x3 := (v - 0) / (u - 0) * ((v - 0) / (u - 0)) - A - 0 - u in Aff x3 ((v - 0) / (u - 0) * (0 - x3) - 0))
      with (third K A ((v - 0) / (u - 0)) 0 0 u). rewrite E. cbn.
    assert (NV : - (v / (u * u)) <> 0).
    { intro Z. apply N. transitivity (- (- (v / (u * u)) * (u * u))); [field; exact Nu|]. rewrite Z. ring. }
    destruct (Feqd (- (v / (u * u))) 0) as [?|_]; [contradiction|].
    destruct (Feqd 0 (0 : K)) as [_|Q]; [|destruct (Q eq_refl)]. destruct (Feqd v 0) as [?|_]; [contradiction|].
    unfold Edwards.eadd, exy. cbn [fst snd]. f_equal.
    - transitivity (- (c * u / v)).
      + field. repeat split; try assumption; intro Z; apply N; apply (Fopp_zero K); exact Z.
      + symmetry. apply (Fdiv_eq_iff K); [|ring]. intro Z. apply (F_1_neq_0 K). rewrite <- Z. ring.
    - transitivity (- ((u - 1) / (u + 1))).
      + field. repeat split; try assumption; change (1 + u <> 0); intro Z; apply N1; rewrite <- Z; ring.
      + symmetry. apply (Fdiv_eq_iff K); [|ring]. intro Z. apply (F_1_neq_0 K). rewrite <- Z. ring.
  Qed.

  Theorem alpha_add M N : on M -> on N -> alpha (padd M N) = eadd (alpha M) (alpha N).
  Proof.
    intros HM HN. destruct (view_all K A 1 0 M N HM HN) as [Q|P|P|u v Hv|u1 v1 u2 v2 D].
    - cbn [ECGroup.padd]. change (alpha Inf) with (ezero K). rewrite eadd_comm, eadd_zero. reflexivity.
    - rewrite padd_inf_r. change (alpha Inf) with (ezero K). rewrite eadd_zero. reflexivity.
    - rewrite padd_opp_r, alpha_opp by exact HM. rewrite (eadd_opp K a d two a_sq d_nonsq _ (eon_alpha _ HM)). reflexivity.
    - pose proof (on_padd K A 1 0 two _ _ HM HM) as O3. rewrite padd_dbl in O3 |- * by assumption. unfold third in O3 |- *. cbv zeta in O3 |- *.
      assert (NV : 2 * v <> 0) by (apply Fmul_nonzero; assumption).
      set (l := dcubic K A 1 u / (2 * v)) in *.
      assert (E : l * (2 * v) = dcubic K A 1 u) by (unfold l; apply Fdiv_mul; exact NV). clearbody l.
      pose proof (tangent_eqs u v l E HM) as [S2 S3]. cbv zeta in S2, S3.
      replace (l * (u - (l * l - A - u - u)) - v) with (- (l * (l * l - A - u - u) + (v - l * u))) in O3 |- * by ring.
      apply (line_sum u v u v l (v - l * u)); try assumption; ring.
    - destruct (Feqd v1 0) as [->|NV1]; [|destruct (Feqd v2 0) as [->|NV2]].
      + pose proof (v_zero u1 HM) as ->. apply alpha_add_T; [exact HN|]. intros ->. apply D. symmetry. apply v_zero. exact HN.
      + pose proof (v_zero u2 HN) as ->. rewrite (padd_comm K A 1 0), eadd_comm by assumption. apply alpha_add_T; assumption.
      + pose proof (on_padd K A 1 0 two _ _ HM HN) as O3. rewrite padd_gen in O3 |- * by exact D. unfold third in O3 |- *. cbv zeta in O3 |- *.
        assert (ND : u2 - u1 <> 0) by (apply Fsub_nonzero; congruence).
        set (l := (v2 - v1) / (u2 - u1)) in *.
        assert (E : l * (u2 - u1) = v2 - v1) by (unfold l; apply Fdiv_mul; exact ND). clearbody l.
        set (m := v1 - l * u1). assert (E1 : v1 = l * u1 + m) by (unfold m; ring).
        assert (E2 : v2 = l * u2 + m) by (unfold m; transitivity (v2 - v1 + v1); [ring|rewrite <- E; ring]).
        cbn in HM, HN. rewrite E1 in HM. rewrite E2 in HN.
        pose proof (line_eqs u1 u2 l m D HM HN) as [S2 S3]. cbv zeta in S2, S3. rewrite <- E1 in HM. rewrite <- E2 in HN.
        replace (l * (u1 - (l * l - A - u1 - u2)) - v1) with (- (l * (l * l - A - u1 - u2) + m)) in O3 |- * by (unfold m; ring).
        apply (line_sum u1 v1 u2 v2 l m); assumption.
  Qed.
  Theorem beta_add P Q : eon P -> eon Q -> beta (eadd P Q) = padd (beta P) (beta Q).
  Proof.
    intros HP HQ. rewrite <- (alpha_beta P HP) at 1. rewrite <- (alpha_beta Q HQ) at 1.
    rewrite <- alpha_add by (apply on_beta; assumption). apply beta_alpha. apply (on_padd K A 1 0 two); apply on_beta; assumption.
  Qed.
End Birat.
