(** The maps between x^2 + y^2 = 1 + d x^2 y^2 and v^2 = u^3 + A u^2 + u with A = 2 - 4 d (RFC 7748, section 4.2). *)
From Coq Require Import Ring Field Setoid.
From Verif.Math Require Import Fld Edwards ECGroup.

Section Iso4.
  Variable K : Fld.
  Add Field KF : (Fth K).
  Open Scope fld_scope.
  Variables d A : K.
  Hypothesis two : (2 : K) <> 0.
  Hypothesis d_nonsq : forall s : K, s * s <> d.
  Hypothesis HA : A = 2 - 2 * 2 * d.
  Hypothesis A_nonsq : forall s : K, s * s <> A * A - 2 * 2.

  Notation Inf := (Inf K).
  Notation Aff := (Aff K).
  Notation on := (on K A 1 0).
  Notation eon := (eon K 1 d).

  Definition phi (P : K * K) : pt K :=
    let (x, y) := P in
    if Feqd x 0 then Inf else Aff (y * y / (x * x)) (y * (2 - x * x - y * y) / (x * x * x)).
  Definition n2 (u : K) : K := (u * u - 1) * (u * u - 1).
  Definition z0 (u v : K) : K := n2 u + 2 * 2 * (v * v).
  Definition z1 (u v : K) : K := u * n2 u - 2 * (v * v) * (u * u + 1).
  Definition psi (M : pt K) : K * K :=
    match M with
    | ECGroup.Inf _ => (0, 1)
    | ECGroup.Aff _ u v => if Feqd u 0 then (0, 1) else
        (2 * 2 * v * (u * u - 1) / z0 u v, - (u * (n2 u - 2 * 2 * (v * v))) / z1 u v)
    end.

  Lemma on_phi P : eon P -> on (phi P).
  Proof.
    destruct P as [x y]. intro H. unfold phi. destruct (Feqd x 0) as [_|N]; [exact I|]. cbn. unfold cubic. cbn in H.
    assert (E : (2 - x * x - y * y) * (2 - x * x - y * y) = y * y * (y * y) + A * (x * x * (y * y)) + x * x * (x * x)).
    { set (q := x * x * (y * y)). assert (S : x * x + y * y = 1 + d * q) by (transitivity (1 * (x * x) + y * y); [ring|]; rewrite H; unfold q; ring).
      transitivity ((2 - (x * x + y * y)) * (2 - (x * x + y * y))); [ring|].
      transitivity ((x * x + y * y) * (x * x + y * y) - 2 * q + A * q); [|unfold q; ring]. rewrite S, HA. ring. }
    transitivity (y * y / (x * x * x * (x * x * x)) * ((2 - x * x - y * y) * (2 - x * x - y * y))); [field; exact N|].
    rewrite E. field. exact N.
  Qed.
  Lemma z0_nz u v : on (Aff u v) -> u <> 0 -> z0 u v <> 0.
  Proof.
    cbn. unfold cubic, z0, n2. intros H N E. rewrite H in E.
    apply (sq_ratio K d d_nonsq ((u + 1) * (u + 1)) (2 * 2 * u)).
    - repeat apply Fmul_nonzero; assumption.
    - apply (Fsub_zero K). etransitivity; [|exact E]. rewrite HA. ring.
  Qed.
  Lemma z1_nz u v : on (Aff u v) -> u <> 0 -> z1 u v <> 0.
  Proof.
    cbn. unfold cubic, z1, n2. intros H N E. rewrite H in E.
    apply (A_nonsq ((u * u + 1) / u + A)). apply (Fcancel_l K (u * u * u) _ _ ltac:(repeat apply Fmul_nonzero; assumption)).
    apply (Fsub_zero K). apply (Fopp_zero K). etransitivity; [|exact E]. field. exact N.
  Qed.
  Lemma eon_psi M : on M -> eon (psi M).
  Proof.
    destruct M as [|u v]; intro H; unfold psi; [cbn; ring|]. destruct (Feqd u 0) as [_|N]; [cbn; ring|].
    pose proof (z0_nz u v H N) as N0. pose proof (z1_nz u v H N) as N1. cbn in H. unfold cubic in H.
    unfold Edwards.eon. set (Z0 := z0 u v) in *. set (Z1 := z1 u v) in *.
    set (y0 := u * (n2 u - 2 * 2 * (v * v))). set (x0 := u * u - 1).
    assert (E : 2 * 2 * (2 * 2) * (v * v) * (x0 * x0) * (Z1 * Z1) + y0 * y0 * (Z0 * Z0)
       = Z0 * Z0 * (Z1 * Z1) + d * (2 * 2 * (2 * 2) * (v * v) * (x0 * x0)) * (y0 * y0)).
    { unfold Z0, Z1, x0, y0, z0, z1, n2. rewrite H, HA. ring. }
    transitivity ((2 * 2 * (2 * 2) * (v * v) * (x0 * x0) * (Z1 * Z1) + y0 * y0 * (Z0 * Z0)) / (Z0 * Z0 * (Z1 * Z1))).
    - clearbody Z0 Z1 x0 y0. field. split; assumption.
    - rewrite E. clearbody Z0 Z1 x0 y0. field. split; assumption.
  Qed.

  (** ** phi is a homomorphism: it factors through g^2 = r^4 + A r^2 + 1 with r = y/x, g = (2 - x^2 - y^2)/x^2 *)
  Notation eadd := (eadd K 1 d).
  Notation padd := (padd K A 1).
  Lemma one_sq : exists s : K, s * s = 1. Proof. exists 1. ring. Qed.
  Notation dp := (den_plus K 1 d two one_sq d_nonsq).
  Notation dm := (den_minus K 1 d two one_sq d_nonsq).
  Definition rr (P : K * K) : K := snd P / fst P.
  Definition gg (P : K * K) : K := (2 - fst P * fst P - snd P * snd P) / (fst P * fst P).
  Lemma phi_rg P : fst P <> 0 -> phi P = Aff (rr P * rr P) (rr P * gg P).
  Proof.
    destruct P as [x y]. cbn [fst]. intro N. unfold phi, rr, gg. cbn [fst snd]. destruct (Feqd x 0) as [?|_]; [contradiction|].
    f_equal; field; exact N.
  Qed.
  Lemma phi_zero P : fst P = 0 -> phi P = Inf.
  Proof. destruct P as [x y]. cbn [fst]. intros ->. unfold phi. destruct (Feqd 0 (0 : K)) as [_|N]; [reflexivity|destruct (N eq_refl)]. Qed.
  Lemma g_sq P : eon P -> fst P <> 0 -> gg P * gg P = rr P * rr P * (rr P * rr P) + A * (rr P * rr P) + 1.
  Proof.
    destruct P as [x y]. intros H N. cbn [fst] in N. unfold rr, gg. cbn [fst snd]. cbn in H.
    assert (E : (2 - x * x - y * y) * (2 - x * x - y * y) = y * y * (y * y) + A * (x * x * (y * y)) + x * x * (x * x)).
    { set (q := x * x * (y * y)). assert (S : x * x + y * y = 1 + d * q) by (transitivity (1 * (x * x) + y * y); [ring|]; rewrite H; unfold q; ring).
      transitivity ((2 - (x * x + y * y)) * (2 - (x * x + y * y))); [ring|].
      transitivity ((x * x + y * y) * (x * x + y * y) - 2 * q + A * q); [|unfold q; ring]. rewrite S, HA. ring. }
    transitivity (((2 - x * x - y * y) * (2 - x * x - y * y)) / (x * x * (x * x))); [field; exact N|]. rewrite E. field. exact N.
  Qed.
  (** the dual addition formula *)
  Lemma dual_y P Q : eon P -> eon Q ->
    snd (eadd P Q) * (fst P * snd Q - snd P * fst Q) = fst P * snd P - fst Q * snd Q.
  Proof.
    intros HP HQ. pose proof (dm P Q HP HQ) as D. destruct P as [x1 y1], Q as [x2 y2]. unfold Edwards.eadd, exy in *. cbn [fst snd] in *.
    cbn in HP, HQ. apply (Fcancel_l K _ _ _ D).
    transitivity ((y1 * y2 - 1 * (x1 * x2)) * (x1 * y2 - y1 * x2)); [field; exact D|].
    transitivity (x1 * y1 * (1 * (x2 * x2) + y2 * y2) - x2 * y2 * (1 * (x1 * x1) + y1 * y1)); [ring|]. rewrite HP, HQ. ring.
  Qed.
  Lemma rel_r P Q : eon P -> eon Q -> fst P <> 0 -> fst Q <> 0 -> fst (eadd P Q) <> 0 ->
    rr (eadd P Q) * (rr P * rr P - rr Q * rr Q) = rr Q * gg P - rr P * gg Q.
  Proof.
    intros HP HQ N1 N2 N3. pose proof (dual_y P Q HP HQ) as DY. pose proof (dp P Q HP HQ) as D.
    assert (X3 : fst (eadd P Q) * (1 + d * exy K P Q) = fst P * snd Q + snd P * fst Q).
    { unfold Edwards.eadd. cbn [fst]. apply Fdiv_mul. exact D. }
    destruct (eadd P Q) as [x3 y3]. destruct P as [x1 y1], Q as [x2 y2]. unfold exy, rr, gg in *. cbn [fst snd] in *. cbn in HP, HQ.
    apply (Fcancel_l K (x3 * (x1 * x1 * (x2 * x2)))); [repeat apply Fmul_nonzero; assumption|].
    transitivity (- (y3 * (x1 * y2 - y1 * x2) * (x1 * y2 + y1 * x2))); [field; repeat split; assumption|].
    rewrite DY, <- X3.
    transitivity (x3 * (x2 * y2 * (2 - (1 * (x1 * x1) + y1 * y1)) - x1 * y1 * (2 - (1 * (x2 * x2) + y2 * y2)))).
    - rewrite HP, HQ. ring.
    - field. repeat split; assumption.
  Qed.
  Definition eT : K * K := (0, - (1)).
  Lemma eon_T : eon eT. Proof. cbn. ring. Qed.
  Lemma add_T P : eadd P eT = (- fst P, - snd P).
  Proof.
    destruct P as [x y]. unfold Edwards.eadd, exy, eT. cbn [fst snd].
    f_equal; (apply (Fdiv_eq_iff K); [|ring]); intro Z; apply (F_1_neq_0 K); rewrite <- Z; ring.
  Qed.
  Lemma phi_T P : phi (- fst P, - snd P) = phi P.
  Proof.
    destruct P as [x y]. cbn [fst snd]. destruct (Feqd x 0) as [->|N].
    - rewrite !phi_zero by (cbn [fst]; ring). reflexivity.
    - assert (N' : - x <> 0) by (intro E; apply N; apply (Fopp_zero K); exact E).
      rewrite !phi_rg by assumption. unfold rr, gg. cbn [fst snd]. f_equal; field; split; assumption.
  Qed.
  Lemma x0_cases P : eon P -> fst P = 0 -> P = ezero K \/ P = eT.
  Proof.
    destruct P as [x y]. cbn [fst]. intros H ->. cbn in H.
    destruct (Fsqr_eq K y 1) as [->| ->]; [transitivity (1 * (0 * 0) + y * y); [ring|rewrite H; ring]|left; reflexivity|right; reflexivity].
  Qed.
  Notation assoc := (eadd_assoc K 1 d two one_sq d_nonsq).
  Lemma phi_add_kernel P Q : eon Q -> eon P -> fst Q = 0 -> phi (eadd P Q) = phi P.
  Proof.
    intros HQ HP E. destruct (x0_cases Q HQ E) as [->| ->]; [rewrite eadd_zero; reflexivity|]. rewrite add_T. apply phi_T.
  Qed.
  Lemma phi_opp P : phi (eopp K P) = popp K (phi P).
  Proof.
    destruct P as [x y]. unfold eopp. cbn [fst snd]. destruct (Feqd x 0) as [->|N].
    - rewrite !phi_zero by (cbn [fst]; ring). reflexivity.
    - assert (N' : - x <> 0) by (intro E; apply N; apply (Fopp_zero K); exact E).
      rewrite !phi_rg by assumption. cbn [popp]. unfold rr, gg. cbn [fst snd]. f_equal; field; split; assumption.
  Qed.
  Lemma eopp_invol P : eopp K (eopp K P) = P.
  Proof. destruct P as [x y]. unfold eopp. cbn [fst snd]. f_equal. ring. Qed.
  (** equal abscissas *)
  Lemma same_u P Q : eon P -> eon Q -> fst P <> 0 -> fst Q <> 0 -> fst (eadd P Q) <> 0 ->
    rr P * rr P = rr Q * rr Q -> Q = P \/ Q = (- fst P, - snd P).
  Proof.
    intros HP HQ N1 N2 N3 E. pose proof (dp P Q HP HQ) as Dp. pose proof (dm P Q HP HQ) as Dm.
    destruct (Fsqr_eq K _ _ E) as [R|R].
    - destruct P as [x y], Q as [x2 y2]. unfold rr, exy in *. cbn [fst snd] in *. cbn in HP, HQ.
      set (k := x2 / x). assert (X2 : x2 = k * x) by (unfold k; field; assumption).
      assert (Y2 : y2 = k * y).
      { transitivity (y2 / x2 * x2); [field; exact N2|]. rewrite <- R. unfold k. field. exact N1. }
      clearbody k. subst x2 y2.
      assert (F : (k * k - 1) * (1 - d * (x * (k * x) * (y * (k * y)))) = 0).
      { transitivity ((k * k) * (1 * (x * x) + y * y) - (1 * (k * x * (k * x)) + k * y * (k * y))).
        - rewrite HP, HQ. ring.
        - ring. }
      destruct (Fmul_integral K _ _ F) as [F1|F1]; [|contradiction].
      destruct (Fsqr_eq K k 1) as [->| ->]; [apply (Fsub_zero K); rewrite <- F1; ring| |].
      + left. f_equal; ring.
      + right. f_equal; ring.
    - exfalso. destruct P as [x y], Q as [x2 y2]. unfold rr, exy in *. cbn [fst snd] in *. cbn in HP, HQ. apply N3.
      unfold Edwards.eadd. cbn [fst snd]. apply (Fdiv_eq_iff K _ _ _ Dp). transitivity (0 : K); [|ring].
      transitivity (x * x2 * (y2 / x2 + y / x)); [field; split; assumption|]. rewrite R. ring.
  Qed.
  Lemma rel_dbl P : eon P -> fst P <> 0 -> fst (eadd P P) <> 0 ->
    rr P * gg (eadd P P) = rr P * (rr P * rr P - rr (eadd P P) * rr (eadd P P)) - rr (eadd P P) * gg P.
  Proof.
    intros HP N N3. pose proof (eon_add K 1 d two one_sq d_nonsq P P HP HP) as H3.
    pose proof (rel_r (eadd P P) (eopp K P) H3 (eon_opp K 1 d P HP) N3) as R.
    assert (EP : eadd (eadd P P) (eopp K P) = P).
    { rewrite assoc by (try apply eon_opp; assumption). rewrite (eadd_opp K 1 d two one_sq d_nonsq P HP). apply eadd_zero. }
    rewrite EP in R.
    assert (N' : fst (eopp K P) <> 0) by (cbn; intro E; apply N; apply (Fopp_zero K); exact E).
    specialize (R N' N).
    assert (RO : rr (eopp K P) = - rr P) by (unfold rr, eopp; cbn [fst snd]; field; split; [exact N|exact N']).
    assert (GO : gg (eopp K P) = gg P) by (unfold gg, eopp; cbn [fst snd]; field; split; [exact N|exact N']).
    rewrite RO, GO in R. clear RO GO EP.
    set (r3 := rr (eadd P P)) in *. set (g3 := gg (eadd P P)) in *. set (r := rr P) in *. set (g := gg P) in *. clearbody r3 g3 r g.
    transitivity (- (- r * g3 - r3 * g) - r3 * g); [ring|]. rewrite <- R. ring.
  Qed.
  Lemma rr_dbl P : eon P -> fst P <> 0 -> fst (eadd P P) <> 0 ->
    rr (eadd P P) * (2 * (rr P * gg P)) = rr P * rr P * (rr P * rr P) - 1 /\ rr P <> 0 /\ gg P <> 0.
  Proof.
    intros HP N N3. pose proof (dp P P HP HP) as Dp. pose proof (dm P P HP HP) as Dm.
    destruct P as [x y]. unfold rr, gg, Edwards.eadd, exy in *. cbn [fst snd] in *. cbn in HP.
    assert (S1 : 1 + d * (x * x * (y * y)) = x * x + y * y) by (transitivity (1 + d * (x * x) * (y * y)); [ring|]; rewrite <- HP; ring).
    assert (S2 : 1 - d * (x * x * (y * y)) = 2 - x * x - y * y) by (transitivity (2 - (1 + d * (x * x * (y * y)))); [ring|]; rewrite S1; ring).
    rewrite S1, S2 in *.
    assert (NX : x * y + y * x <> 0). { intro Z. apply N3. rewrite Z. field. exact Dp. }
    assert (NY : y <> 0) by (intro Z; apply NX; rewrite Z; ring).
    split; [field; repeat split; assumption|]. split.
    - intro Z. apply NY. transitivity (y / x * x); [field; exact N|]. rewrite Z. ring.
    - intro Z. apply Dm. transitivity ((2 - x * x - y * y) / (x * x) * (x * x)); [field; exact N|]. rewrite Z. ring.
  Qed.
  Lemma phi_dbl P : eon P -> fst P <> 0 -> fst (eadd P P) <> 0 -> phi (eadd P P) = padd (phi P) (phi P).
  Proof.
    intros HP N N3. pose proof (rel_dbl P HP N N3) as G3. destruct (rr_dbl P HP N N3) as (R3 & NR & NG).
    pose proof (g_sq P HP N) as G. rewrite !phi_rg by assumption.
    set (r3 := rr (eadd P P)) in *. set (g3 := gg (eadd P P)) in *. set (r := rr P) in *. set (g := gg P) in *. clearbody r3 g3 r g.
    rewrite padd_dbl by first [exact two|apply Fmul_nonzero; assumption]. unfold third.
    set (v := r * g) in *. assert (NV : v <> 0) by (apply Fmul_nonzero; assumption).
    assert (NV2 : 2 * v <> 0) by (apply Fmul_nonzero; assumption).
    assert (V2 : v * v = cubic K A 1 0 (r * r)) by (unfold v, cubic; transitivity (r * r * (g * g)); [ring|]; rewrite G; ring).
    set (l := dcubic K A 1 (r * r) / (2 * v)).
    assert (L : (l - r3) * (r * r) = v).
    { apply (Fcancel_l K (2 * v) _ _ NV2). transitivity ((l * (2 * v) - r3 * (2 * v)) * (r * r)); [ring|]. rewrite R3.
      unfold l. rewrite Fdiv_mul by exact NV2. unfold dcubic.
      transitivity (2 * (v * v)); [rewrite V2; unfold cubic; ring|ring]. }
    clearbody l.
    assert (L1 : (l - r3) * r = g) by (apply (Fcancel_l K r _ _ NR); transitivity ((l - r3) * (r * r)); [ring|]; rewrite L; reflexivity).
    (* l^2 = A + 2 u + r3^2 *)
    assert (L2 : r3 * r3 = l * l - A - r * r - r * r).
    { apply (Fcancel_l K (r * r)); [apply Fmul_nonzero; exact NR|]. symmetry. apply (Fsub_zero K).
      assert (Q : 2 * r3 * (r * g) = r * r * (r * r) - 1) by (rewrite <- R3; unfold v; ring).
      transitivity (((l - r3) * r) * ((l - r3) * r) + 2 * r3 * (r * ((l - r3) * r)) - A * (r * r) - 2 * (r * r * (r * r))); [ring|].
      rewrite L1, G, Q. ring. }
    f_equal; [exact L2|]. rewrite <- L2.
    apply (Fcancel_l K r _ _ NR). transitivity (r3 * (r * g3)); [ring|]. rewrite G3.
    transitivity (r * (l * (r * r - r3 * r3)) - r * v); [|ring].
    transitivity (r * (l * (r * r - r3 * r3)) - ((l - r3) * r) * (r * r - r3 * r3) - r3 * (r3 * g)); [ring|].
    rewrite L1. unfold v. ring.
  Qed.
  (** the second map after the first is multiplication by four *)
  Theorem psi_phi P : eon P -> psi (phi P) = eadd (eadd P P) (eadd P P).
  Proof.
    intro HP. pose proof (dp P P HP HP) as Dp. pose proof (dm P P HP HP) as Dm.
    destruct (Feqd (fst P) 0) as [Z|N].
    { rewrite (phi_zero P Z). cbn [psi]. destruct (x0_cases P HP Z) as [->| ->].
      - rewrite (eadd_zero K 1 d (ezero K)), (eadd_zero K 1 d (ezero K)). reflexivity.
      - rewrite (add_T eT). cbn [fst snd eT].
        replace (- 0, - - (1)) with (ezero K) by (unfold ezero; f_equal; ring). rewrite (eadd_zero K 1 d (ezero K)). reflexivity. }
    destruct (Feqd (snd P) 0) as [Z|NY].
    { assert (E2 : eadd P P = eT).
      { destruct P as [x y]. cbn [fst snd] in *. subst y. cbn in HP.
        assert (X : x * x = 1) by (transitivity (1 * (x * x) + 0 * 0); [ring|]; rewrite HP; ring).
        unfold Edwards.eadd, exy, eT in *. cbn [fst snd] in *.
        f_equal; apply (Fdiv_eq_iff K); try assumption; [ring|]. transitivity (- (x * x)); [ring|]. rewrite X. ring. }
      rewrite E2, add_T. destruct P as [x y]. cbn [fst snd] in *. subst y. unfold phi. destruct (Feqd x 0) as [?|_]; [contradiction|].
      unfold psi. destruct (Feqd (0 * 0 / (x * x)) 0) as [_|Q]; [cbn [fst snd eT]; f_equal; ring|destruct Q; field; exact N]. }
    assert (N3 : fst (eadd P P) <> 0).
    { intro Z. assert (Q : fst P * snd P + snd P * fst P = 0).
      { unfold Edwards.eadd in Z. cbn [fst] in Z. apply (Fdiv_eq_iff K) in Z; [|exact Dp]. rewrite Z. ring. }
      apply (Fmul_nonzero K 2 (fst P * snd P) two); [apply Fmul_nonzero; assumption|]. rewrite <- Q. ring. }
    pose proof (eon_add K 1 d two one_sq d_nonsq P P HP HP) as H3.
    destruct (rr_dbl P HP N N3) as (R3 & NR & NG). pose proof (rel_dbl P HP N N3) as R. pose proof (g_sq P HP N) as G.
    pose proof (dp _ _ H3 H3) as Dp3. pose proof (dm _ _ H3 H3) as Dm3.
    assert (E4 : eadd (eadd P P) (eadd P P) = (2 * rr (eadd P P) / (rr (eadd P P) * rr (eadd P P) + 1), (rr (eadd P P) * rr (eadd P P) - 1) / gg (eadd P P))
      /\ rr (eadd P P) * rr (eadd P P) + 1 <> 0 /\ gg (eadd P P) <> 0).
    { clear R R3 G. destruct (eadd P P) as [x y]. unfold rr, gg, Edwards.eadd, exy in *. cbn [fst snd] in *. cbn in H3.
      assert (S1 : 1 + d * (x * x * (y * y)) = x * x + y * y) by (transitivity (1 + d * (x * x) * (y * y)); [ring|]; rewrite <- H3; ring).
      assert (S2 : 1 - d * (x * x * (y * y)) = 2 - x * x - y * y) by (transitivity (2 - (1 + d * (x * x * (y * y)))); [ring|]; rewrite S1; ring).
      rewrite S1, S2 in *.
      assert (Q1 : y / x * (y / x) + 1 <> 0).
      { intro Z. apply Dp3. transitivity (x * x * (y / x * (y / x) + 1)); [field; exact N3|]. rewrite Z. ring. }
      assert (Q2 : (2 - x * x - y * y) / (x * x) <> 0).
      { intro Z. apply Dm3. transitivity (x * x * ((2 - x * x - y * y) / (x * x))); [field; exact N3|]. rewrite Z. ring. }
      split; [|split; assumption]. f_equal; field; repeat split; try assumption.
      all: intro Z; apply Dp3; rewrite <- Z; ring. }
    destruct E4 as (E4 & Q1 & Q2). rewrite E4. clear E4 Dp3 Dm3 Dp Dm H3.
    rewrite (phi_rg P N). pose proof (on_phi P HP) as O. rewrite (phi_rg P N) in O. unfold psi.
    destruct (Feqd (rr P * rr P) 0) as [Z|_]; [destruct (Fmul_nonzero K _ _ NR NR Z)|].
    pose proof (z0_nz _ _ O (Fmul_nonzero K _ _ NR NR)) as Z0. pose proof (z1_nz _ _ O (Fmul_nonzero K _ _ NR NR)) as Z1. clear O.
    unfold z0, z1 in *. unfold n2 in *.
    set (r3 := rr (eadd P P)) in *. set (g3 := gg (eadd P P)) in *. set (r := rr P) in *. set (g := gg P) in *. clearbody r3 g3 r g.
    assert (U1 : r * r * (r * r) - 1 = r3 * (2 * (r * g))) by (rewrite R3; reflexivity). rewrite U1 in *.
    f_equal.
    - apply (Fdiv_eq_iff K _ _ _ Z0). field. exact Q1.
    - assert (E1 : r * r * (r3 * (2 * (r * g)) * (r3 * (2 * (r * g)))) - 2 * (r * g * (r * g)) * (r * r * (r * r) + 1)
        = - (2 * 2 * (r * g * (r * g)) * (r * (r * g3)))).
      { rewrite R. transitivity (r * r * (r3 * (2 * (r * g)) * (r3 * (2 * (r * g)))) - 2 * (r * g * (r * g)) * (2 * (r * r * (r * r)) - (r * r * (r * r) - 1))); [ring|].
        rewrite U1. ring. }
      apply (Fdiv_eq_iff K _ _ _ Z1). rewrite E1. field. exact Q2.
  Qed.
  Theorem phi_add P Q : eon P -> eon Q -> phi (eadd P Q) = padd (phi P) (phi Q).
  Proof.
    intros HP HQ. destruct (Feqd (fst P) 0) as [Z1|N1].
    { rewrite (eadd_comm K 1 d P Q), (phi_add_kernel Q P HP HQ Z1), (phi_zero P Z1). reflexivity. }
    destruct (Feqd (fst Q) 0) as [Z2|N2].
    { rewrite (phi_add_kernel P Q HQ HP Z2), (phi_zero Q Z2). symmetry. apply padd_inf_r. }
    pose proof (eon_add K 1 d two one_sq d_nonsq P Q HP HQ) as H3.
    destruct (Feqd (fst (eadd P Q)) 0) as [Z3|N3].
    { assert (EP : P = eadd (eadd P Q) (eopp K Q)).
      { rewrite assoc by (try apply eon_opp; assumption). rewrite (eadd_opp K 1 d two one_sq d_nonsq Q HQ). symmetry. apply eadd_zero. }
      rewrite (phi_zero _ Z3). rewrite EP at 1. rewrite (eadd_comm K 1 d (eadd P Q) (eopp K Q)).
      rewrite (phi_add_kernel (eopp K Q) (eadd P Q) H3 (eon_opp K 1 d Q HQ) Z3), phi_opp.
      symmetry. destruct (phi Q) as [|u v]; [reflexivity|]. cbn [popp]. unfold ECGroup.padd.
      destruct (Feqd u u) as [_|N]; [|destruct (N eq_refl)]. destruct (Feqd (- v) (- v)) as [_|N]; [reflexivity|destruct (N eq_refl)]. }
    destruct (Feqd (rr P * rr P) (rr Q * rr Q)) as [E|NE].
    { destruct (same_u P Q HP HQ N1 N2 N3 E) as [->| ->].
      - apply phi_dbl; assumption.
      - rewrite <- add_T in *. rewrite <- assoc in * by (try apply eon_T; assumption).
        pose proof (eon_add K 1 d two one_sq d_nonsq P P HP HP) as HPP.
        rewrite add_T in N3. cbn [fst] in N3.
        rewrite (phi_add_kernel (eadd P P) eT eon_T HPP eq_refl), (phi_add_kernel P eT eon_T HP eq_refl). apply phi_dbl; try assumption.
        intro Z. apply N3. rewrite Z. ring. }
    assert (OP : forall R, fst R <> 0 -> fst (eopp K R) <> 0 /\ rr (eopp K R) = - rr R /\ gg (eopp K R) = gg R).
    { intros R NR. assert (N' : fst (eopp K R) <> 0) by (cbn; intro Z; apply NR; apply (Fopp_zero K); exact Z).
      split; [exact N'|]. split; unfold rr, gg, eopp; cbn [fst snd]; field; split; first [exact NR|exact N']. }
    assert (REL : forall S T U, eon S -> eon T -> eon U -> fst S <> 0 -> fst T <> 0 -> fst U <> 0 -> eadd T U = S ->
      rr T * (rr S * rr S - rr U * rr U) = - (rr U * gg S) - rr S * gg U).
    { intros S T U HS HT HU NS NT NU ES. destruct (OP U NU) as (N' & RO & GO).
      assert (ET : eadd S (eopp K U) = T).
      { rewrite <- ES, assoc by (try apply eon_opp; assumption). rewrite (eadd_opp K 1 d two one_sq d_nonsq U HU). apply eadd_zero. }
      pose proof (rel_r S (eopp K U) HS (eon_opp K 1 d U HU) NS N') as R. rewrite ET, RO, GO in R. specialize (R NT).
      transitivity (rr T * (rr S * rr S - - rr U * - rr U)); [ring|]. rewrite R. ring. }
    pose proof (rel_r P Q HP HQ N1 N2 N3) as R.
    pose proof (REL _ P Q H3 HP HQ N3 N1 N2 eq_refl) as R1.
    pose proof (REL _ Q P H3 HQ HP N3 N2 N1 (eadd_comm K 1 d Q P)) as R2.
    pose proof (g_sq P HP N1) as G1. pose proof (g_sq Q HQ N2) as G2.
    rewrite !phi_rg by assumption. clear OP REL.
    set (r3 := rr (eadd P Q)) in *. set (g3 := gg (eadd P Q)) in *.
    set (r1 := rr P) in *. set (g1 := gg P) in *. set (r2 := rr Q) in *. set (g2 := gg Q) in *. clearbody r3 g3 r1 g1 r2 g2.
    rewrite padd_gen by exact NE. unfold third.
    set (l := (r2 * g2 - r1 * g1) / (r2 * r2 - r1 * r1)).
    assert (ND : r2 * r2 - r1 * r1 <> 0) by (intro Z; apply NE; symmetry; apply (Fsub_zero K); exact Z).
    assert (L : l * (r2 * r2 - r1 * r1) = r2 * g2 - r1 * g1) by (apply Fdiv_mul; exact ND). clearbody l.
    assert (L2 : r3 * r3 = l * l - A - r1 * r1 - r2 * r2).
    { apply (Fcancel_l K ((r2 * r2 - r1 * r1) * (r2 * r2 - r1 * r1))); [apply Fmul_nonzero; exact ND|].
      transitivity ((r3 * (r1 * r1 - r2 * r2)) * (r3 * (r1 * r1 - r2 * r2))); [ring|]. rewrite R.
      transitivity ((l * (r2 * r2 - r1 * r1)) * (l * (r2 * r2 - r1 * r1)) - (r2 * r2 - r1 * r1) * (r2 * r2 - r1 * r1) * (A + r1 * r1 + r2 * r2)); [|ring].
      rewrite L. symmetry. apply (Fsub_zero K).
      transitivity ((r2 * r2 - r1 * r1) * (g2 * g2 - g1 * g1) - (r2 * r2 - r1 * r1) * (r2 * r2 - r1 * r1) * (A + r1 * r1 + r2 * r2)); [ring|].
      rewrite G1, G2. ring. }
    f_equal; [exact L2|]. rewrite <- L2. apply (Fcancel_l K _ _ _ ND).
    transitivity ((l * (r2 * r2 - r1 * r1)) * (r1 * r1 - r3 * r3) - (r2 * r2 - r1 * r1) * (r1 * g1)); [|ring]. rewrite L.
    transitivity (- (g3 * (r3 * (r1 * r1 - r2 * r2)))); [ring|]. rewrite R.
    transitivity (- (g2 * (r2 * (r3 * r3 - r1 * r1))) + g1 * (r1 * (r3 * r3 - r2 * r2))); [|ring]. rewrite R1, R2. ring.
  Qed.
End Iso4.
