(** A twisted Edwards curve a x^2 + y^2 = 1 + d x^2 y^2 that need not be complete, beside the curve v^2 = u^3 + A u^2 + e^2 u with
    a c^2 = A + 2 e, d c^2 = A - 2 e. The points of the latter without an affine Edwards point ([fin] false) have order 2 or 4.
    Where the Edwards law is defined the map is additive, and it is undefined at (M, N) only if M + N or M - N is such a point. *)
From Coq Require Import Ring Field Setoid.
From Verif.Math Require Import Fld Edwards ECGroup.
From Verif.Math Require Birat2.

Section EdOdd.
  Variable K : Fld.
  Add Field KF : (Fth K).
  Open Scope fld_scope.
  Variables a d A c e : K.
  Hypothesis two : (2 : K) <> 0.
  Hypothesis e_nz : e <> 0.
  Hypothesis Ha : a * (c * c) = A + 2 * e.
  Hypothesis Hd : d * (c * c) = A - 2 * e.

  Notation pt := (pt K).
  Notation Inf := (Inf K).
  Notation Aff := (Aff K).
  Notation on := (on K A (e * e) 0).
  Notation padd := (padd K A (e * e)).
  Notation eon := (eon K a d).
  Notation eadd := (eadd K a d).
  Notation alpha := (Birat2.alpha K c e).
  Notation cn := (Birat2.c_nz K a d A c e two e_nz Ha Hd).
  Notation u_nz := (Birat2.u_nz K A e).

  Definition fin (M : pt) : Prop :=
    match M with
    | ECGroup.Inf _ => True
    | ECGroup.Aff _ u v => (v = 0 /\ u = 0) \/ (v <> 0 /\ u + e <> 0)
    end.
  Definition beta (P : K * K) : pt :=
    let (x, y) := P in
    if Feqd x 0 then (if Feqd y 1 then Inf else Aff 0 0)
    else Aff (e * (1 + y) / (1 - y)) (c * (e * (1 + y) / (1 - y)) / x).

  Lemma a_d (x : K) : a * x = d * x -> x = 0.
  Proof.
    intro E. destruct (Fmul_integral K (2 * (2 * e)) x) as [Z|Z]; [|exfalso|exact Z].
    - transitivity (((A + 2 * e) - (A - 2 * e)) * x); [ring|]. rewrite <- Ha, <- Hd.
      transitivity ((c * c) * (a * x - d * x)); [ring|]. rewrite E. ring.
    - exact (Fmul_nonzero K 2 _ two (Fmul_nonzero K 2 e two e_nz) Z).
  Qed.
  Lemma eon_alpha M : on M -> fin M -> eon (alpha M).
  Proof.
    destruct M as [|u v]; intros H F; unfold Birat2.alpha; [cbn; ring|]. destruct (Feqd v 0) as [E|N]; cbn; [ring|].
    destruct F as [[F _]|[_ N1]]; [contradiction|]. cbn in H. unfold cubic in H.
    assert (E : (A + 2 * e) * (u * u) * ((u + e) * (u + e)) + (v * v) * ((u - e) * (u - e)) =
                (v * v) * ((u + e) * (u + e)) + (A - 2 * e) * (u * u) * ((u - e) * (u - e))) by (rewrite H; ring).
    rewrite <- Ha, <- Hd in E.
    transitivity ((a * (c * c) * (u * u) * ((u + e) * (u + e)) + (v * v) * ((u - e) * (u - e))) / ((v * v) * ((u + e) * (u + e))));
      [field; repeat split; assumption|]. rewrite E. field. repeat split; assumption.
  Qed.
  Lemma x_zero y : eon (0, y) -> y = 1 \/ y = - (1).
  Proof. cbn. intro H. apply Fsqr_eq. transitivity (a * (0 * 0) + y * y); [ring|]. rewrite H. ring. Qed.
  Lemma y_one x : eon (x, 1) -> x = 0.
  Proof.
    cbn. intro H. apply (Fsqr_zero K). apply a_d.
    transitivity (a * (x * x) + 1 * 1 - 1); [ring|]. rewrite H. ring.
  Qed.
  Lemma y_m1 x : eon (x, - (1)) -> x = 0.
  Proof. intro H. apply y_one. cbn in *. transitivity (a * (x * x) + - (1) * - (1)); [ring|]. rewrite H. ring. Qed.
  Lemma y_nz x y : eon (x, y) -> x <> 0 -> 1 - y <> 0 /\ 1 + y <> 0.
  Proof.
    intros H N. split; intro E; apply N.
    - apply y_one. replace (1 : K) with y; [exact H|]. symmetry. apply (Fsub_zero K). exact E.
    - apply y_m1. replace (- (1) : K) with y; [exact H|]. transitivity (1 + y - 1); [ring|rewrite E; ring].
  Qed.
  Lemma on_beta P : eon P -> on (beta P).
  Proof.
    destruct P as [x y]. intro H. unfold beta. destruct (Feqd x 0) as [E|N].
    - destruct (Feqd y 1); [exact I|]. cbn [ECGroup.on]. unfold cubic. ring.
    - destruct (y_nz x y H N) as [N1 _].
      cbn. unfold cubic. cbn in H.
      assert (Ed : (c * c) * ((a * (x * x) + y * y) - (1 + d * (x * x) * (y * y))) = 0) by (rewrite H; ring).
      assert (E : c * c * ((1 + y) * (1 - y)) = (x * x) * ((A + 2 * e) - (A - 2 * e) * (y * y))).
      { rewrite <- Ha, <- Hd. apply (Fsub_zero K).
        transitivity (- (c * c * ((a * (x * x) + y * y) - (1 + d * (x * x) * (y * y))))); [ring|]. rewrite Ed. ring. }
      transitivity (e * e * (1 + y) / (1 - y) / (1 - y) / (1 - y) / (x * x) * (c * c * ((1 + y) * (1 - y)))); [field; repeat split; assumption|].
      rewrite E. field. repeat split; assumption.
  Qed.
  Lemma fin_beta P : eon P -> fin (beta P).
  Proof.
    destruct P as [x y]. intro H. unfold beta. destruct (Feqd x 0) as [E|N].
    - destruct (Feqd y 1); [exact I|]. left. auto.
    - destruct (y_nz x y H N) as [N1 N2]. right. split.
      + intro Z. apply (Fmul_nonzero K (c * e) (1 + y) (Fmul_nonzero K c e cn e_nz) N2).
        transitivity (c * (e * (1 + y) / (1 - y)) / x * (x * (1 - y))); [field; repeat split; assumption|]. rewrite Z. ring.
      + intro Z. apply (Fmul_nonzero K 2 e two e_nz). transitivity ((e * (1 + y) / (1 - y) + e) * (1 - y)); [field; exact N1|]. rewrite Z. ring.
  Qed.
  Lemma alpha_beta P : eon P -> alpha (beta P) = P.
  Proof.
    destruct P as [x y]. intro H. unfold beta. destruct (Feqd x 0) as [->|N].
    - destruct (Feqd y 1) as [->|N1]; cbn; [reflexivity|]. destruct (Feqd 0 (0 : K)) as [_|N]; [|destruct (N eq_refl)].
      destruct (x_zero y H) as [E|E]; [contradiction|rewrite E; reflexivity].
    - destruct (y_nz x y H N) as [N1 N2].
      cbn. destruct (Feqd _ 0) as [E|_].
      + exfalso. apply (Fmul_nonzero K (c * e) (1 + y) (Fmul_nonzero K c e cn e_nz) N2).
        transitivity (c * (e * (1 + y) / (1 - y)) / x * (x * (1 - y))); [field; repeat split; assumption|]. rewrite E. ring.
      + assert (NE : e * (1 + y) / (1 - y) + e <> 0).
        { intro Z. apply (Fmul_nonzero K 2 e two e_nz). transitivity ((e * (1 + y) / (1 - y) + e) * (1 - y)); [field; exact N1|]. rewrite Z. ring. }
        f_equal.
        * field. repeat split; try assumption; try apply cn.
        * apply (Fdiv_eq_iff K _ _ _ NE). field. exact N1.
  Qed.
  Lemma beta_alpha M : on M -> fin M -> beta (alpha M) = M.
  Proof.
    destruct M as [|u v]; intros H F; cbn.
    - destruct (Feqd 0 (0 : K)) as [_|N]; [|destruct (N eq_refl)]. destruct (Feqd 1 (1 : K)) as [_|N]; [reflexivity|destruct (N eq_refl)].
    - destruct (Feqd v 0) as [->|N].
      + destruct F as [[_ ->]|[N _]]; [|destruct (N eq_refl)]. cbn. destruct (Feqd 0 (0 : K)) as [_|N]; [|destruct (N eq_refl)].
        destruct (Feqd (- (1)) (1 : K)) as [E|_]; [|reflexivity]. exfalso. apply two. transitivity (1 - - (1) : K); [ring|]. rewrite E. ring.
      + destruct F as [[F _]|[_ N1]]; [contradiction|]. pose proof (u_nz u v H N) as Nu. unfold beta. destruct (Feqd (c * u / v) 0) as [E|_].
        * exfalso. apply (Fmul_nonzero K c u cn Nu). transitivity (c * u / v * v); [field; exact N|]. rewrite E. ring.
        * assert (Q : 1 - (u - e) / (u + e) <> 0).
          { intro E. apply (Fmul_nonzero K 2 e two e_nz). transitivity ((1 - (u - e) / (u + e)) * (u + e)); [field; exact N1|]. rewrite E. ring. }
          assert (U : e * (1 + (u - e) / (u + e)) / (1 - (u - e) / (u + e)) = u).
          { apply (Fdiv_eq_iff K _ _ _ Q). field. exact N1. }
          rewrite U. f_equal. field. repeat split; try assumption; apply cn.
  Qed.

  (** the numerators of the law *)
  Definition numx (P Q : K * K) : K := fst P * snd Q + snd P * fst Q.
  Definition numy (P Q : K * K) : K := snd P * snd Q - a * (fst P * fst Q).
  (** the sum of two generic points, once the line through them is known *)
  Lemma line_rel u1 v1 u2 v2 l m : on (Aff u1 v1) -> on (Aff u2 v2) -> v1 <> 0 -> v2 <> 0 -> u1 + e <> 0 -> u2 + e <> 0 ->
    v1 = l * u1 + m -> v2 = l * u2 + m ->
    let u3 := l * l - A - u1 - u2 in
    u1 * u2 + (u1 + u2) * u3 + 2 * l * m = e * e -> u1 * u2 * u3 = m * m ->
    let v3 := - (l * u3 + m) in
    let P := alpha (Aff u1 v1) in let Q := alpha (Aff u2 v2) in
    c * u3 * (1 + d * exy K P Q) = v3 * numx P Q /\ (u3 - e) * (1 - d * exy K P Q) = (u3 + e) * numy P Q
    /\ (u3 = 0 -> numx P Q = 0).
  Proof.
    intros H1 H2 NV1 NV2 M1 M2 EV1 EV2 u3 S2 S3 v3 P Q.
    assert (S1 : A = l * l - u1 - u2 - u3) by (unfold u3; ring).
    pose proof (u_nz u1 v1 H1 NV1) as N1. pose proof (u_nz u2 v2 H2 NV2) as N2.
    pose proof (Birat2.line_x K A e two u1 u2 u3 l m N1 N2 S1 S2 S3) as LX.
    pose proof (Birat2.line_y K A e two u1 u2 u3 l m N1 N2 S1 S2 S3) as LY.
    pose proof cn as Nc.
    rewrite <- EV1, <- EV2 in LX, LY. rewrite <- Hd in LX. rewrite <- Hd, <- Ha in LY. fold v3 in LX.
    assert (ZX : u3 = 0 -> u1 * v2 * (u2 - e) * (u1 + e) + u2 * v1 * (u1 - e) * (u2 + e) = 0).
    { intro U3. assert (M0 : m = 0) by (apply (Fsqr_zero K); rewrite <- S3, U3; ring). rewrite M0, U3 in S2. rewrite EV1, EV2, M0.
      transitivity (2 * l * u1 * u2 * (u1 * u2 + (u1 + u2) * 0 + 2 * l * 0 - e * e)); [ring|]. rewrite S2. ring. }
    clearbody u3 v3. clear EV1 EV2 S1 S2 S3 H1 H2. unfold P, Q, Birat2.alpha, numx, numy, exy. clear P Q.
    destruct (Feqd v1 0) as [?|_]; [contradiction|]. destruct (Feqd v2 0) as [?|_]; [contradiction|]. cbn [fst snd].
    set (D := c * u1 / v1 * (c * u2 / v2) * ((u1 - e) / (u1 + e) * ((u2 - e) / (u2 + e)))) in *.
    assert (ED : d * D * (v1 * v2 * (u1 + e) * (u2 + e)) = d * (c * c) * (u1 * u2 * (u1 - e) * (u2 - e))).
    { unfold D. field. repeat split; assumption. }
    rewrite <- ED in LX, LY. clearbody D. clear ED.
    assert (W : v1 * v2 * (u1 + e) * (u2 + e) <> 0) by (repeat apply Fmul_nonzero; assumption).
    assert (EX : (c * u1 / v1 * ((u2 - e) / (u2 + e)) + (u1 - e) / (u1 + e) * (c * u2 / v2)) * (v1 * v2 * (u1 + e) * (u2 + e)) =
      c * (u1 * v2 * (u2 - e) * (u1 + e) + u2 * v1 * (u1 - e) * (u2 + e))) by (field; repeat split; assumption).
    assert (EY : ((u1 - e) / (u1 + e) * ((u2 - e) / (u2 + e)) - a * (c * u1 / v1 * (c * u2 / v2))) * (v1 * v2 * (u1 + e) * (u2 + e)) =
      v1 * v2 * (u1 - e) * (u2 - e) - a * (c * c) * (u1 * u2 * (u1 + e) * (u2 + e))) by (field; repeat split; assumption).
    rewrite <- EY in LY. clear EY.
    set (NX := c * u1 / v1 * ((u2 - e) / (u2 + e)) + (u1 - e) / (u1 + e) * (c * u2 / v2)) in *.
    set (NY := (u1 - e) / (u1 + e) * ((u2 - e) / (u2 + e)) - a * (c * u1 / v1 * (c * u2 / v2))) in *.
    set (W' := v1 * v2 * (u1 + e) * (u2 + e)) in *.
    set (SX := u1 * v2 * (u2 - e) * (u1 + e) + u2 * v1 * (u1 - e) * (u2 + e)) in *. clearbody NX NY W' SX.
    split; [|split].
    - apply (Fcancel_l K W' _ _ W). transitivity (v3 * (NX * W')); [|ring]. rewrite EX.
      transitivity (c * (v3 * SX)); [|ring]. rewrite <- LX. ring.
    - apply (Fcancel_l K W' _ _ W). etransitivity; [|etransitivity; [exact LY|]]; ring.
    - intro Z. apply (Fcancel_l K W' _ _ W). transitivity (NX * W'); [ring|]. rewrite EX, (ZX Z). ring.
  Qed.
  (** a generic sum is a point at infinity of neither curve, or the two points are opposite *)
  Lemma sum_rel u1 v1 u2 v2 : on (Aff u1 v1) -> on (Aff u2 v2) -> v1 <> 0 -> v2 <> 0 -> u1 + e <> 0 -> u2 + e <> 0 ->
    Aff u2 v2 = popp K (Aff u1 v1) \/
    exists u3 v3, padd (Aff u1 v1) (Aff u2 v2) = Aff u3 v3
      /\ let P := alpha (Aff u1 v1) in let Q := alpha (Aff u2 v2) in
         c * u3 * (1 + d * exy K P Q) = v3 * numx P Q /\ (u3 - e) * (1 - d * exy K P Q) = (u3 + e) * numy P Q
         /\ (u3 = 0 -> numx P Q = 0).
  Proof.
    intros HM HN NV1 NV2 M1 M2. pose proof (view_all K A (e * e) 0 _ _ HM HN) as V.
    inversion V as [|  |P E1 E2|u v Hv E1 E2|x1 y1 x2 y2 D]; clear V.
    - left. reflexivity.
    - right. assert (u2 = u1) as -> by congruence. assert (v2 = v1) as -> by congruence. rewrite padd_dbl by assumption. unfold third. cbv zeta.
      assert (NV : 2 * v1 <> 0) by (apply Fmul_nonzero; assumption).
      set (l := dcubic K A (e * e) u1 / (2 * v1)) in *.
      assert (E : l * (2 * v1) = dcubic K A (e * e) u1) by (unfold l; apply Fdiv_mul; exact NV). clearbody l.
      pose proof (Birat2.tangent_eqs K A e u1 v1 l E HM) as [S2 S3]. cbv zeta in S2, S3.
      do 2 eexists. split; [reflexivity|].
      replace (l * (u1 - (l * l - A - u1 - u1)) - v1) with (- (l * (l * l - A - u1 - u1) + (v1 - l * u1))) by ring.
      apply (line_rel u1 v1 u1 v1 l (v1 - l * u1)); try assumption; ring.
    - right. rewrite padd_gen by exact D. unfold third. cbv zeta.
      assert (ND : u2 - u1 <> 0) by (apply Fsub_nonzero; congruence).
      set (l := (v2 - v1) / (u2 - u1)) in *.
      assert (E : l * (u2 - u1) = v2 - v1) by (unfold l; apply Fdiv_mul; exact ND). clearbody l.
      set (m := v1 - l * u1). assert (E1 : v1 = l * u1 + m) by (unfold m; ring).
      assert (E2 : v2 = l * u2 + m) by (unfold m; transitivity (v2 - v1 + v1); [ring|rewrite <- E; ring]).
      cbn in HM, HN. rewrite E1 in HM. rewrite E2 in HN.
      pose proof (Birat2.line_eqs K A e u1 u2 l m D HM HN) as [S2 S3]. cbv zeta in S2, S3. rewrite <- E1 in HM. rewrite <- E2 in HN.
      do 2 eexists. split; [reflexivity|].
      replace (l * (u1 - (l * l - A - u1 - u2)) - v1) with (- (l * (l * l - A - u1 - u2) + m)) by (unfold m; ring).
      apply (line_rel u1 v1 u2 v2 l m); assumption.
  Qed.

  Lemma alpha_opp M : on M -> alpha (popp K M) = eopp K (alpha M).
  Proof. exact (Birat2.alpha_opp K A c e M). Qed.
  Lemma opp_zero (x : K) : - x = 0 <-> x = 0.
  Proof. split; intro E; [transitivity (- - x); [ring|]|]; rewrite E; ring. Qed.
  Lemma fin_opp M : fin M -> fin (popp K M).
  Proof. destruct M as [|u v]; cbn; [trivial|]. rewrite opp_zero. trivial. Qed.
  Lemma fin_zero (u v : K) : on (Aff u v) -> fin (Aff u v) -> v = 0 \/ (v <> 0 /\ u + e <> 0 /\ u <> 0).
  Proof. intros H [[E _]|[N N1]]; [left; exact E|]. right. pose proof (u_nz u v H N). auto. Qed.
  Lemma exy_opp P Q : exy K P (eopp K Q) = - exy K P Q.
  Proof. destruct P, Q. unfold exy, eopp. cbn. ring. Qed.

  (** if the law is undefined at (M, N) then M + N or M - N has no Edwards point *)
  Lemma undef_minus M N : on M -> on N -> fin M -> fin N -> fin (padd M N) -> fin (padd M (popp K N)) ->
    1 - d * exy K (alpha M) (alpha N) <> 0.
  Proof.
    intros HM HN FM FN FS FD Z. pose proof (proj1 (Fsub_zero K _ _) Z) as ED. clear Z.
    assert (NZ : exy K (alpha M) (alpha N) <> 0).
    { intro E. rewrite E in ED. apply (F_1_neq_0 K). rewrite ED. ring. }
    destruct M as [|u1 v1]; [destruct NZ; unfold exy; cbn; destruct (alpha N); cbn; ring|].
    destruct N as [|u2 v2]; [destruct NZ; unfold exy; cbn [Birat2.alpha]; destruct (alpha _); cbn; ring|].
    destruct (fin_zero u1 v1 HM FM) as [->|(V1 & M1 & U1)].
    { destruct NZ. unfold exy, Birat2.alpha. destruct (Feqd 0 (0 : K)) as [_|X]; [|destruct (X eq_refl)]. destruct (Feqd v2 0); cbn; ring. }
    destruct (fin_zero u2 v2 HN FN) as [->|(V2 & M2 & U2)].
    { destruct NZ. unfold exy, Birat2.alpha. destruct (Feqd 0 (0 : K)) as [_|X]; [|destruct (X eq_refl)]. destruct (Feqd v1 0); cbn; ring. }
    assert (HO : on (Aff u2 (- v2))) by exact (on_popp K A (e * e) 0 (Aff u2 v2) HN).
    assert (VO : - v2 <> 0) by (rewrite opp_zero; exact V2).
    assert (OA : alpha (Aff u2 (- v2)) = eopp K (alpha (Aff u2 v2))) by exact (alpha_opp (Aff u2 v2) HN).
    (* M - N : the numerator of x vanishes *)
    assert (X1 : numx (alpha (Aff u1 v1)) (eopp K (alpha (Aff u2 v2))) = 0).
    { destruct (sum_rel u1 v1 u2 (- v2) HM HO V1 VO M1 M2) as [E|(u3 & v3 & E & R)].
      - assert (Aff u2 v2 = Aff u1 v1) as -> by (cbn in E; injection E as -> E; f_equal; transitivity (- - v2); [ring|rewrite E; ring]).
        destruct (alpha (Aff u1 v1)); unfold numx, eopp; cbn; ring.
      - cbv zeta in R. rewrite OA, exy_opp in R. destruct R as (R1 & _ & R3). cbn [ECGroup.popp] in FD. rewrite E in FD. destruct FD as [[_ U]|[V _]]; [exact (R3 U)|].
        destruct (Fmul_integral K v3 (numx (alpha (Aff u1 v1)) (eopp K (alpha (Aff u2 v2))))) as [Q|Q]; [|contradiction|exact Q].
        rewrite <- R1. transitivity (c * u3 * (1 - d * exy K (alpha (Aff u1 v1)) (alpha (Aff u2 v2)))); [ring|]. rewrite <- ED. ring. }
    (* M + N *)
    destruct (alpha (Aff u1 v1)) as [x1 y1] eqn:A1. destruct (alpha (Aff u2 v2)) as [x2 y2] eqn:A2.
    unfold exy, numx, eopp in *. cbn [fst snd] in *.
    assert (XY : x1 * y2 = y1 * x2) by (apply (Fsub_zero K); rewrite <- X1; ring).
    assert (XN : x1 * y2 <> 0).
    { intro E. apply NZ. transitivity (x1 * y2 * (x2 * y1)); [ring|]. rewrite E. ring. }
    assert (NX : x1 * y2 + y1 * x2 <> 0).
    { rewrite <- XY. intro E. apply (Fmul_nonzero K 2 (x1 * y2) two XN). rewrite <- E. ring. }
    destruct (sum_rel u1 v1 u2 v2 HM HN V1 V2 M1 M2) as [E|(u3 & v3 & E & R)].
    - apply NX. rewrite E, alpha_opp, A1 in A2 by exact HM. injection A2 as <- <-. ring.
    - pose proof (on_padd K A (e * e) 0 two _ _ HM HN) as O3. rewrite E in FS, O3. cbv zeta in R. rewrite A1, A2 in R. unfold exy, numx in R. cbn [fst snd] in R. destruct R as (R1 & _ & R3).
      destruct FS as [[_ U]|[V3 M3]]; [exact (NX (R3 U))|].
      pose proof (eon_alpha (Aff u3 v3) O3 (or_intror (conj V3 M3))) as C3. unfold Birat2.alpha in C3. destruct (Feqd v3 0) as [?|_]; [contradiction|].
      assert (X3 : c * u3 / v3 = x1 * y2).
      { apply (Fcancel_l K 2 _ _ two). transitivity ((c * u3 * (1 + 1)) / v3); [field; exact V3|]. rewrite ED at 2. rewrite R1, <- XY. field. exact V3. }
      rewrite X3 in C3. cbn in C3. set (y3 := (u3 - e) / (u3 + e)) in *. clearbody y3.
      assert (DX : d * (x1 * y2 * (x1 * y2)) = 1).
      { rewrite ED. transitivity (d * (x1 * y2 * (y1 * x2))); [rewrite <- XY; reflexivity|ring]. }
      apply XN. apply (Fsqr_zero K). apply a_d. rewrite DX.
      transitivity (a * (x1 * y2 * (x1 * y2)) + y3 * y3 - y3 * y3); [ring|]. rewrite C3, DX. ring.
  Qed.
  Theorem undef M N : on M -> on N -> fin M -> fin N -> fin (padd M N) -> fin (padd M (popp K N)) ->
    1 + d * exy K (alpha M) (alpha N) <> 0 /\ 1 - d * exy K (alpha M) (alpha N) <> 0.
  Proof.
    intros HM HN FM FN FS FD. split; [|apply undef_minus; assumption].
    assert (HO : on (popp K N)) by exact (on_popp K A (e * e) 0 N HN).
    intro Z. apply (undef_minus M (popp K N) HM HO FM (fin_opp N FN) FD).
    - rewrite (popp_invol K). exact FS.
    - rewrite alpha_opp, exy_opp, <- Z by exact HN. ring.
  Qed.

  (** where the law is defined, it is that of the other curve *)
  Lemma def_add_T u v : on (Aff u v) -> v <> 0 -> u + e <> 0 ->
    fin (padd (Aff 0 0) (Aff u v)) /\ alpha (padd (Aff 0 0) (Aff u v)) = eadd (alpha (Aff 0 0)) (alpha (Aff u v)).
  Proof.
    intros H N N1. pose proof (u_nz u v H N) as Nu. rewrite padd_gen by congruence.
    cbn in H. unfold cubic in H.
    assert (E : third K A ((v - 0) / (u - 0)) 0 0 u = Aff (e * e / u) (- (e * e * v / (u * u)))).
    { unfold third. assert (NN : u - 0 <> 0) by (intro Z; apply Nu; rewrite <- Z; ring).
      assert (X : (v - 0) / (u - 0) * ((v - 0) / (u - 0)) - A - 0 - u = e * e / u).
      { transitivity (v * v / (u * u) - A - u); [field; repeat split; assumption|]. rewrite H. field. exact Nu. }
      rewrite X. f_equal. field. repeat split; assumption. }
    change (let x3 := (v - 0) / (u - 0) * ((v - 0) / (u - 0)) - A - 0 - u in Aff x3 ((v - 0) / (u - 0) * (0 - x3) - 0))
      with (third K A ((v - 0) / (u - 0)) 0 0 u). rewrite E.
    assert (NV : - (e * e * v / (u * u)) <> 0).
    { intro Z. apply (Fmul_nonzero K (e * e) v (Fmul_nonzero K e e e_nz e_nz) N).
      transitivity (- (- (e * e * v / (u * u)) * (u * u))); [field; exact Nu|]. rewrite Z. ring. }
    assert (NU : e * e / u + e <> 0).
    { intro Z. apply (Fmul_nonzero K e (u + e) e_nz N1). transitivity ((e * e / u + e) * u); [field; exact Nu|]. rewrite Z. ring. }
    split; [right; split; assumption|]. unfold Birat2.alpha.
    destruct (Feqd (- (e * e * v / (u * u))) 0) as [?|_]; [contradiction|].
    destruct (Feqd 0 (0 : K)) as [_|Q]; [|destruct (Q eq_refl)]. destruct (Feqd v 0) as [?|_]; [contradiction|].
    unfold Edwards.eadd, exy. cbn [fst snd]. f_equal.
    - transitivity (- (c * u / v)).
      + field. repeat split; try assumption. intro Z. apply (Fmul_nonzero K (e * e) v (Fmul_nonzero K e e e_nz e_nz) N).
        apply (Fopp_zero K). rewrite <- Z. ring.
      + symmetry. apply (Fdiv_eq_iff K); [|ring]. intro Z. apply (F_1_neq_0 K). rewrite <- Z. ring.
    - transitivity (- ((u - e) / (u + e))).
      + apply (Fdiv_eq_iff K _ _ _ NU). field. repeat split; assumption.
      + symmetry. apply (Fdiv_eq_iff K); [|ring]. intro Z. apply (F_1_neq_0 K). rewrite <- Z. ring.
  Qed.
  Lemma opp_sum P : eon P -> 1 + d * exy K P (eopp K P) <> 0 -> 1 - d * exy K P (eopp K P) <> 0 -> eadd P (eopp K P) = ezero K.
  Proof.
    destruct P as [x y]. unfold Edwards.eadd, exy, eopp, ezero. cbn. intros H Dp Dm. f_equal.
    - apply (Fdiv_eq_iff K _ _ _ Dp). ring.
    - apply (Fdiv_eq_iff K _ _ _ Dm). transitivity (a * (x * x) + y * y); [ring|]. rewrite H. ring.
  Qed.
  Lemma opp_add M : on M -> fin M ->
    1 + d * exy K (alpha M) (alpha (popp K M)) <> 0 -> 1 - d * exy K (alpha M) (alpha (popp K M)) <> 0 ->
    fin (padd M (popp K M)) /\ alpha (padd M (popp K M)) = eadd (alpha M) (alpha (popp K M)).
  Proof.
    intros HM F. rewrite (alpha_opp M HM), padd_opp_r. intros Dp Dm. split; [exact I|].
    symmetry. apply opp_sum; try assumption. apply eon_alpha; assumption.
  Qed.
  Theorem def_add M N : on M -> on N -> fin M -> fin N ->
    1 + d * exy K (alpha M) (alpha N) <> 0 -> 1 - d * exy K (alpha M) (alpha N) <> 0 ->
    fin (padd M N) /\ alpha (padd M N) = eadd (alpha M) (alpha N).
  Proof.
    intros HM HN FM FN Dp Dm.
    destruct M as [|u1 v1]; [cbn [ECGroup.padd]; split; [exact FN|]; change (alpha Inf) with (ezero K); rewrite eadd_comm, eadd_zero; reflexivity|].
    destruct N as [|u2 v2]; [rewrite padd_inf_r; split; [exact FM|]; change (alpha Inf) with (ezero K); rewrite eadd_zero; reflexivity|].
    destruct (fin_zero u1 v1 HM FM) as [->|(V1 & M1 & U1)]; [destruct FM as [[_ ->]|[X _]]; [|destruct (X eq_refl)]|].
    { destruct (fin_zero u2 v2 HN FN) as [->|(V2 & M2 & U2)]; [destruct FN as [[_ ->]|[X _]]; [|destruct (X eq_refl)]|].
      - pose proof (opp_add (Aff 0 0) HM (or_introl (conj eq_refl eq_refl))) as H.
        assert (O : popp K (Aff 0 0) = Aff 0 0) by (cbn; f_equal; ring). rewrite O in H. apply H; assumption.
      - apply def_add_T; assumption. }
    destruct (fin_zero u2 v2 HN FN) as [->|(V2 & M2 & U2)]; [destruct FN as [[_ ->]|[X _]]; [|destruct (X eq_refl)]|].
    { rewrite (padd_comm K A (e * e) 0), eadd_comm by assumption. apply def_add_T; assumption. }
    destruct (sum_rel u1 v1 u2 v2 HM HN V1 V2 M1 M2) as [E|(u3 & v3 & E & R1 & R2 & R3)].
    - rewrite E in Dp, Dm |- *. apply opp_add; assumption.
    - rewrite E. unfold Edwards.eadd. fold (numx (alpha (Aff u1 v1)) (alpha (Aff u2 v2))). fold (numy (alpha (Aff u1 v1)) (alpha (Aff u2 v2))).
      pose proof (on_padd K A (e * e) 0 two _ _ HM HN) as O3. rewrite E in O3.
      set (D := exy K _ _) in *. set (NX := numx _ _) in *. set (NY := numy _ _) in *. clearbody D NX NY.
      pose proof cn as Nc.
      assert (M3 : u3 + e <> 0).
      { intro Z. rewrite Z in R2. destruct (Fmul_integral K (u3 - e) (1 - d * D)) as [Q|Q]; [rewrite R2; ring| |exact (Dm Q)].
        apply (Fmul_nonzero K 2 e two e_nz). transitivity ((u3 + e) - (u3 - e)); [ring|]. rewrite Z, Q. ring. }
      assert (V0 : v3 = 0 -> u3 = 0).
      { intro Z. rewrite Z in R1. destruct (Fmul_integral K (c * u3) (1 + d * D)) as [Q|Q]; [rewrite R1; ring| |destruct (Dp Q)].
        destruct (Fmul_integral K c u3 Q) as [Q'|Q']; [contradiction|exact Q']. }
      unfold Birat2.alpha. destruct (Feqd v3 0) as [Z|V3].
      + pose proof (V0 Z) as U3. split; [left; auto|]. f_equal.
        * symmetry. apply (Fdiv_eq_iff K _ _ _ Dp). rewrite (R3 U3). ring.
        * symmetry. apply (Fdiv_eq_iff K _ _ _ Dm). rewrite U3 in R2. apply (Fcancel_l K e _ _ e_nz).
          transitivity ((0 + e) * NY); [ring|]. rewrite <- R2. ring.
      + split; [right; auto|]. f_equal.
        * apply (Fdiv_eq_iff K _ _ _ V3). apply (Fcancel_l K (1 + d * D) _ _ Dp).
          transitivity (c * u3 * (1 + d * D)); [ring|]. rewrite R1. field. exact Dp.
        * apply (Fdiv_eq_iff K _ _ _ M3). apply (Fcancel_l K (1 - d * D) _ _ Dm).
          transitivity ((u3 - e) * (1 - d * D)); [ring|]. rewrite R2. field. exact Dm.
  Qed.
  Theorem beta_add P Q : eon P -> eon Q -> 1 + d * exy K P Q <> 0 -> 1 - d * exy K P Q <> 0 ->
    beta (eadd P Q) = padd (beta P) (beta Q).
  Proof.
    intros HP HQ Dp Dm. pose proof (on_beta P HP) as OP. pose proof (on_beta Q HQ) as OQ.
    rewrite <- (alpha_beta P HP), <- (alpha_beta Q HQ) in Dp, Dm.
    destruct (def_add (beta P) (beta Q) OP OQ (fin_beta P HP) (fin_beta Q HQ) Dp Dm) as [F E].
    rewrite (alpha_beta P HP), (alpha_beta Q HQ) in E. rewrite <- E. apply beta_alpha; [|exact F].
    apply (on_padd K A (e * e) 0 two); assumption.
  Qed.
  Lemma beta_zero : beta (ezero K) = Inf.
  Proof. unfold beta, ezero. destruct (Feqd 0 (0 : K)) as [_|N]; [|destruct (N eq_refl)]. destruct (Feqd 1 (1 : K)) as [_|N]; [reflexivity|destruct (N eq_refl)]. Qed.

  (** the points without an Edwards point have order 2 or 4 *)
  Theorem not_fin M : on M -> ~ fin M -> padd (padd M M) (padd M M) = Inf.
  Proof.
    intros HM F. destruct M as [|u v]; [destruct (F I)|]. destruct (Feqd v 0) as [->|V].
    - assert (O : Aff u 0 = popp K (Aff u 0)) by (cbn; f_equal; ring). rewrite O at 2 4. rewrite padd_opp_r. reflexivity.
    - assert (U : u = - e).
      { destruct (Feqd (u + e) 0) as [Z|Z]; [|destruct F; right; auto]. transitivity (u + e - e); [ring|rewrite Z; ring]. }
      pose proof (on_padd K A (e * e) 0 two _ _ HM HM) as O3. rewrite padd_dbl in O3 |- * by assumption. unfold third in O3 |- *. cbv zeta in O3 |- *.
      assert (NV : 2 * v <> 0) by (apply Fmul_nonzero; assumption).
      set (l := dcubic K A (e * e) u / (2 * v)) in *.
      assert (E : l * (2 * v) = dcubic K A (e * e) u) by (unfold l; apply Fdiv_mul; exact NV). clearbody l.
      assert (X : l * l - A - u - u = 0).
      { cbn in HM. unfold cubic in HM. unfold dcubic in E. rewrite U in HM, E |- *.
        assert (LL : l * l = A - 2 * e).
        { apply (Fcancel_l K (2 * v * (2 * v)) _ _ (Fmul_nonzero K _ _ NV NV)).
          transitivity ((l * (2 * v)) * (l * (2 * v))); [ring|]. rewrite E. transitivity (2 * 2 * (v * v) * (A - 2 * e)); [|ring]. rewrite HM. ring. }
        rewrite LL. ring. }
      rewrite X in O3 |- *. set (w := l * (u - 0) - v) in *. clearbody w. cbn in O3. unfold cubic in O3.
      assert (w = 0) as -> by (apply (Fsqr_zero K); rewrite O3; ring).
      assert (O : Aff 0 0 = popp K (Aff 0 0)) by (cbn; f_equal; ring). rewrite O at 2. apply padd_opp_r.
  Qed.
End EdOdd.
