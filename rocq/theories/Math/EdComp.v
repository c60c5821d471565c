(** The unified addition formulas in extended coordinates on the whole group of v^2 = u^3 + A u^2 + e^2 u, where
    a c^2 = A + 2 e, d c^2 = A - 2 e: the point (u, v) stands for (X, Y, T, Z) = (c u (u + e), v (u - e), c u (u - e), v (u + e)), so that
    x = c u / v and y = (u - e) / (u + e) where these make sense. The formulas compute the sum unless the difference is a point
    without an affine Edwards point, and then all four coordinates are 0. *)
From Coq Require Import Ring Field Setoid.
From Verif.Math Require Import Fld Edwards ECGroup EdOdd.
From Verif.Math Require Birat2.

Section EdComp.
  Variable K : Fld.
  Add Field KF : (Fth K).
  Open Scope fld_scope.
  Variables a d A c e : K.
  Hypothesis two : (2 : K) <> 0.
  Hypothesis e_nz : e <> 0.
  Hypothesis a_nz : a <> 0.
  Hypothesis d_nz : d <> 0.
  Hypothesis Ha : a * (c * c) = A + 2 * e.
  Hypothesis Hd : d * (c * c) = A - 2 * e.

  Notation pt := (pt K).
  Notation Inf := (Inf K).
  Notation Aff := (Aff K).
  Notation on := (on K A (e * e) 0).
  Notation padd := (padd K A (e * e)).
  Notation popp := (popp K).
  Notation fin := (fin K e).
  Notation cn := (Birat2.c_nz K a d A c e two e_nz Ha Hd).

  Definition quad : Type := (K * K * K * K)%type.
  Definition tau (M : pt) : quad :=
    match M with
    | ECGroup.Inf _ => (0, 1, 0, 1)
    | ECGroup.Aff _ u v => if Feqd u 0 then (0, - (1), 0, 1) else (c * u * (u + e), v * (u - e), c * u * (u - e), v * (u + e))
    end.
  Definition scale (l : K) (P : quad) : quad := let '(x, y, t, z) := P in (l * x, l * y, l * t, l * z).
  Definition zero4 : quad := (0, 0, 0, 0).
  Definition on4 (P : quad) : Prop := let '(x, y, t, z) := P in x * y = t * z /\ a * (x * x) + y * y = z * z + d * (t * t).
  (** the four factors *)
  Definition fE (P Q : quad) : K := let '(x1, y1, _, _) := P in let '(x2, y2, _, _) := Q in x1 * y2 + y1 * x2.
  Definition fF (P Q : quad) : K := let '(_, _, t1, z1) := P in let '(_, _, t2, z2) := Q in z1 * z2 - d * (t1 * t2).
  Definition fG (P Q : quad) : K := let '(_, _, t1, z1) := P in let '(_, _, t2, z2) := Q in z1 * z2 + d * (t1 * t2).
  Definition fH (P Q : quad) : K := let '(x1, y1, _, _) := P in let '(x2, y2, _, _) := Q in y1 * y2 - a * (x1 * x2).
  (** those of the difference *)
  Definition fE' (P Q : quad) : K := let '(x1, y1, _, _) := P in let '(x2, y2, _, _) := Q in x1 * y2 - y1 * x2.
  Definition fH' (P Q : quad) : K := let '(x1, y1, _, _) := P in let '(x2, y2, _, _) := Q in y1 * y2 + a * (x1 * x2).
  Definition fQ (P Q : quad) : K := let '(x1, y1, _, _) := P in let '(x2, y2, _, _) := Q in x1 * y1 * (x2 * y2).
  Definition add4 (P Q : quad) : quad := (fE P Q * fF P Q, fG P Q * fH P Q, fE P Q * fH P Q, fF P Q * fG P Q).

  Lemma q_eq (x y t z x' y' t' z' : K) : x = x' -> y = y' -> t = t' -> z = z' -> (x, y, t, z) = (x', y', t', z').
  Proof. intros -> -> -> ->. reflexivity. Qed.
  Lemma Fdiv_nonzero (x y : K) : x <> 0 -> y <> 0 -> x / y <> 0.
  Proof. intros N1 N2 E. apply N1. apply (Fdiv_eq_iff K _ _ _ N2) in E. rewrite E. ring. Qed.
  Lemma id_E P Q : fE P Q * fE P Q = fE' P Q * fE' P Q + 2 * 2 * fQ P Q.
  Proof. destruct P as [[[x1 y1] t1] z1], Q as [[[x2 y2] t2] z2]. unfold fE, fE', fQ. ring. Qed.
  Lemma id_H P Q : fH P Q * fH P Q = fH' P Q * fH' P Q - 2 * 2 * a * fQ P Q.
  Proof. destruct P as [[[x1 y1] t1] z1], Q as [[[x2 y2] t2] z2]. unfold fH, fH', fQ. ring. Qed.
  Lemma id_G P Q : on4 P -> on4 Q -> fG P Q * fG P Q = fF P Q * fF P Q + 2 * 2 * d * fQ P Q.
  Proof.
    destruct P as [[[x1 y1] t1] z1], Q as [[[x2 y2] t2] z2]. unfold fG, fF, fQ, on4. intros [-> _] [-> _]. ring.
  Qed.
  Lemma sq0 (x : K) : x = 0 -> x * x = 0. Proof. intros ->. ring. Qed.
  Lemma xy_zero x y t z : on4 (x, y, t, z) -> x = 0 -> y = 0 -> t = 0 /\ z = 0.
  Proof.
    unfold on4. intros [Q R] -> ->. assert (TZ : t * z = 0) by (rewrite <- Q; ring).
    assert (S : z * z + d * (t * t) = 0) by (rewrite <- R; ring).
    destruct (Fmul_integral K t z TZ) as [-> | ->].
    - split; [reflexivity|]. apply (Fsqr_zero K). rewrite <- S. ring.
    - split; [|reflexivity]. apply (Fsqr_zero K). apply (Fcancel_l K d _ _ d_nz). transitivity (0 * 0 + d * (t * t)); [ring|rewrite S; ring].
  Qed.
  (** the six numbers do not all vanish *)
  Lemma nd P Q : on4 P -> on4 Q -> P <> zero4 -> Q <> zero4 -> fE P Q = 0 -> fE' P Q = 0 -> fH P Q = 0 -> fH' P Q = 0 -> False.
  Proof.
    destruct P as [[[x1 y1] t1] z1], Q as [[[x2 y2] t2] z2]. unfold fE, fE', fH, fH'. intros O1 O2 N1 N2 E1 E2 E3 E4.
    assert (A1 : x1 * y2 = 0) by (apply (Fcancel_l K 2 _ _ two); transitivity ((x1 * y2 + y1 * x2) + (x1 * y2 - y1 * x2)); [ring|rewrite E1, E2; ring]).
    assert (A2 : y1 * x2 = 0) by (transitivity (x1 * y2 + y1 * x2 - x1 * y2); [ring|rewrite E1, A1; ring]).
    assert (A3 : y1 * y2 = 0) by (apply (Fcancel_l K 2 _ _ two); transitivity ((y1 * y2 - a * (x1 * x2)) + (y1 * y2 + a * (x1 * x2))); [ring|rewrite E3, E4; ring]).
    assert (A4 : x1 * x2 = 0) by (apply (Fcancel_l K a _ _ a_nz); transitivity (y1 * y2 - (y1 * y2 - a * (x1 * x2))); [ring|rewrite E3, A3; ring]).
    destruct (Feqd x1 0) as [Z1|Z1].
    - destruct (Feqd y1 0) as [Z2|Z2].
      + destruct (xy_zero _ _ _ _ O1 Z1 Z2) as [-> ->]. apply N1. rewrite Z1, Z2. reflexivity.
      + assert (X2 : x2 = 0) by (apply (Fcancel_l K y1 _ _ Z2); rewrite A2; ring). assert (Y2 : y2 = 0) by (apply (Fcancel_l K y1 _ _ Z2); rewrite A3; ring).
        destruct (xy_zero _ _ _ _ O2 X2 Y2) as [-> ->]. apply N2. rewrite X2, Y2. reflexivity.
    - assert (X2 : x2 = 0) by (apply (Fcancel_l K x1 _ _ Z1); rewrite A4; ring). assert (Y2 : y2 = 0) by (apply (Fcancel_l K x1 _ _ Z1); rewrite A1; ring).
      destruct (xy_zero _ _ _ _ O2 X2 Y2) as [-> ->]. apply N2. rewrite X2, Y2. reflexivity.
  Qed.

  Lemma on_uv u v : on (Aff u v) -> v * v = u * (u * u + A * u + e * e).
  Proof. cbn. unfold cubic. intros ->. ring. Qed.
  Lemma not_both u : on (Aff u 0) -> u + e <> 0.
  Proof.
    intros H Z. apply on_uv in H. assert (U : u = - e) by (transitivity (u + e - e); [ring|rewrite Z; ring]). rewrite U in H.
    assert (N : e * e * (A - 2 * e) <> 0) by (rewrite <- Hd; pose proof cn; repeat apply Fmul_nonzero; assumption).
    apply N. transitivity (- e * (- e * - e + A * - e + e * e)); [ring|]. rewrite <- H. ring.
  Qed.
  Lemma on4_tau M : on M -> on4 (tau M).
  Proof.
    destruct M as [|u v]; intro H; unfold tau; [cbn; split; ring|]. destruct (Feqd u 0) as [_|N]; cbn [on4]; [split; ring|].
    split; [ring|]. apply on_uv in H. transitivity ((a * (c * c)) * (u * u * ((u + e) * (u + e))) + v * v * ((u - e) * (u - e))); [ring|].
    transitivity (v * v * ((u + e) * (u + e)) + (d * (c * c)) * (u * u * ((u - e) * (u - e)))); [|ring].
    rewrite Ha, Hd, H. ring.
  Qed.
  Lemma pm (u : K) : u + e = 0 -> u - e = 0 -> False.
  Proof. intros E1 E2. apply (Fmul_nonzero K 2 e two e_nz). transitivity ((u + e) - (u - e)); [ring|rewrite E1, E2; ring]. Qed.
  Lemma tau_nz M : tau M <> zero4.
  Proof.
    destruct M as [|u v]; unfold tau, zero4; [intro E; injection E as _ E; exact (F_1_neq_0 K E)|].
    destruct (Feqd u 0) as [_|N]; intro E; [injection E as _ E4; exact (F_1_neq_0 K E4)|injection E as E1 E2 E3 E4].
    pose proof (Fmul_nonzero K c u cn N) as N2.
    assert (Z1 : u + e = 0) by (apply (Fcancel_l K (c * u) _ _ N2); rewrite E1; ring).
    assert (Z2 : u - e = 0) by (apply (Fcancel_l K (c * u) _ _ N2); rewrite E3; ring). exact (pm u Z1 Z2).
  Qed.
  Lemma tau_opp u v : u <> 0 -> tau (popp (Aff u v)) = let '(x, y, t, z) := tau (Aff u v) in (x, - y, t, - z).
  Proof. intro N. unfold tau. cbn [ECGroup.popp]. destruct (Feqd u 0) as [E|_]; [contradiction|]. apply q_eq; ring. Qed.
  Lemma opp_factors P u v : u <> 0 ->
    fE P (tau (popp (Aff u v))) = - fE' P (tau (Aff u v)) /\ fF P (tau (popp (Aff u v))) = - fG P (tau (Aff u v))
    /\ fG P (tau (popp (Aff u v))) = - fF P (tau (Aff u v)) /\ fH P (tau (popp (Aff u v))) = - fH' P (tau (Aff u v)).
  Proof.
    intro N. rewrite (tau_opp u v N). destruct (tau (Aff u v)) as [[[x2 y2] t2] z2], P as [[[x1 y1] t1] z1].
    unfold fE, fE', fF, fG, fH, fH'. repeat split; ring.
  Qed.

  (** the line through two points *)
  Lemma line_rel4 u1 v1 u2 v2 l m : on (Aff u1 v1) -> on (Aff u2 v2) -> u1 <> 0 -> u2 <> 0 ->
    v1 = l * u1 + m -> v2 = l * u2 + m ->
    let u3 := l * l - A - u1 - u2 in
    u1 * u2 + (u1 + u2) * u3 + 2 * l * m = e * e -> u1 * u2 * u3 = m * m ->
    let v3 := - (l * u3 + m) in
    let P := tau (Aff u1 v1) in let Q := tau (Aff u2 v2) in
    c * u3 * fG P Q = v3 * fE P Q /\ (u3 - e) * fF P Q = (u3 + e) * fH P Q /\ (u3 = 0 -> fE P Q = 0).
  Proof.
    intros H1 H2 N1 N2 EV1 EV2 u3 S2 S3 v3 P Q.
    assert (S1 : A = l * l - u1 - u2 - u3) by (unfold u3; ring).
    pose proof (Birat2.line_x K A e two u1 u2 u3 l m N1 N2 S1 S2 S3) as LX.
    pose proof (Birat2.line_y K A e two u1 u2 u3 l m N1 N2 S1 S2 S3) as LY.
    rewrite <- EV1, <- EV2 in LX, LY. rewrite <- Hd in LX. rewrite <- Hd, <- Ha in LY. fold v3 in LX.
    assert (ZX : u3 = 0 -> u1 * v2 * (u2 - e) * (u1 + e) + u2 * v1 * (u1 - e) * (u2 + e) = 0).
    { intro U3. assert (M0 : m = 0) by (apply (Fsqr_zero K); rewrite <- S3, U3; ring). rewrite M0, U3 in S2. rewrite EV1, EV2, M0.
      transitivity (2 * l * u1 * u2 * (u1 * u2 + (u1 + u2) * 0 + 2 * l * 0 - e * e)); [ring|]. rewrite S2. ring. }
    clearbody u3 v3. unfold P, Q, tau. destruct (Feqd u1 0) as [?|_]; [contradiction|]. destruct (Feqd u2 0) as [?|_]; [contradiction|].
    unfold fE, fF, fG, fH. split; [|split].
    - transitivity (c * (u3 * (v1 * v2 * (u1 + e) * (u2 + e) + d * (c * c) * (u1 * u2 * (u1 - e) * (u2 - e))))); [ring|]. rewrite LX. ring.
    - etransitivity; [|etransitivity; [exact LY|]]; ring.
    - intro Z. transitivity (c * (u1 * v2 * (u2 - e) * (u1 + e) + u2 * v1 * (u1 - e) * (u2 + e))); [ring|]. rewrite (ZX Z). ring.
  Qed.
  Lemma sum_rel4 u1 v1 u2 v2 : on (Aff u1 v1) -> on (Aff u2 v2) -> u1 <> 0 -> u2 <> 0 ->
    Aff u2 v2 = popp (Aff u1 v1) \/
    exists u3 v3, padd (Aff u1 v1) (Aff u2 v2) = Aff u3 v3
      /\ let P := tau (Aff u1 v1) in let Q := tau (Aff u2 v2) in
         c * u3 * fG P Q = v3 * fE P Q /\ (u3 - e) * fF P Q = (u3 + e) * fH P Q /\ (u3 = 0 -> fE P Q = 0).
  Proof.
    intros HM HN U1 U2. pose proof (view_all K A (e * e) 0 _ _ HM HN) as V.
    inversion V as [|  |P E1 E2|u v Hv E1 E2|x1 y1 x2 y2 D]; clear V.
    - left. reflexivity.
    - right. assert (u2 = u1) as -> by congruence. assert (v2 = v1) as -> by congruence. subst u v. rewrite padd_dbl by assumption. unfold third. cbv zeta.
      assert (NV : 2 * v1 <> 0) by (apply Fmul_nonzero; assumption).
      set (l := dcubic K A (e * e) u1 / (2 * v1)) in *.
      assert (E : l * (2 * v1) = dcubic K A (e * e) u1) by (unfold l; apply Fdiv_mul; exact NV). clearbody l.
      pose proof (Birat2.tangent_eqs K A e u1 v1 l E HM) as [S2 S3]. cbv zeta in S2, S3.
      do 2 eexists. split; [reflexivity|].
      replace (l * (u1 - (l * l - A - u1 - u1)) - v1) with (- (l * (l * l - A - u1 - u1) + (v1 - l * u1))) by ring.
      apply (line_rel4 u1 v1 u1 v1 l (v1 - l * u1)); try assumption; ring.
    - right. rewrite padd_gen by exact D. unfold third. cbv zeta.
      assert (ND : u2 - u1 <> 0) by (apply Fsub_nonzero; congruence).
      set (l := (v2 - v1) / (u2 - u1)) in *.
      assert (E : l * (u2 - u1) = v2 - v1) by (unfold l; apply Fdiv_mul; exact ND). clearbody l.
      set (m := v1 - l * u1). assert (E1 : v1 = l * u1 + m) by (unfold m; ring).
      assert (E2 : v2 = l * u2 + m) by (unfold m; transitivity (v2 - v1 + v1); [ring|rewrite <- E; ring]).
      cbn in HM, HN. rewrite E1 in HM. rewrite E2 in HN.
      pose proof (Birat2.line_eqs K A e u1 u2 l m D HM HN) as [S2 S3]. cbv zeta in S2, S3. rewrite <- E1 in HM. rewrite <- E2 in HN.
      do 2 eexists. split; [reflexivity|].
      replace (l * (u1 - (l * l - A - u1 - u2)) - v1) with (- (l * (l * l - A - u1 - u2) + m)) by (unfold m; ring).
      apply (line_rel4 u1 v1 u2 v2 l m); assumption.
  Qed.

  (** when all four products vanish *)
  Definition dead (P Q : quad) : Prop := (fE P Q = 0 /\ fG P Q = 0) \/ (fF P Q = 0 /\ fH P Q = 0).
  Lemma dead_zero P Q : dead P Q -> add4 P Q = zero4.
  Proof. unfold add4, zero4. intros [[-> ->]|[-> ->]]; apply q_eq; ring. Qed.
  Lemma ne_opp (x : K) : - x = 0 -> x = 0. Proof. intro E. transitivity (- - x); [ring|rewrite E; ring]. Qed.
  Lemma not_dead P Q : on4 P -> on4 Q -> P <> zero4 -> Q <> zero4 ->
    fE P Q = 0 -> fG P Q = 0 -> fH' P Q = 0 -> fQ P Q = 0 -> False.
  Proof.
    intros O1 O2 N1 N2 E G H' Q0. apply (nd P Q O1 O2 N1 N2); try assumption.
    - apply (Fsqr_zero K). pose proof (id_E P Q) as I. rewrite E, Q0 in I. transitivity (fE' P Q * fE' P Q + 2 * 2 * 0); [ring|]. rewrite <- I. ring.
    - apply (Fsqr_zero K). rewrite (id_H P Q), H', Q0. ring.
  Qed.
  Lemma not_dead2 P Q : on4 P -> on4 Q -> P <> zero4 -> Q <> zero4 ->
    fF P Q = 0 -> fH P Q = 0 -> fE' P Q = 0 -> fQ P Q = 0 -> False.
  Proof.
    intros O1 O2 N1 N2 F H E' Q0. apply (nd P Q O1 O2 N1 N2); try assumption.
    - apply (Fsqr_zero K). rewrite (id_E P Q), E', Q0. ring.
    - apply (Fsqr_zero K). pose proof (id_H P Q) as I. rewrite H, Q0 in I. transitivity (fH' P Q * fH' P Q - 2 * 2 * a * 0); [ring|]. rewrite <- I. ring.
  Qed.
  (** the difference decides *)
  Lemma dead_iff u1 v1 u2 v2 : on (Aff u1 v1) -> on (Aff u2 v2) -> u1 <> 0 -> u2 <> 0 ->
    let P := tau (Aff u1 v1) in let Q := tau (Aff u2 v2) in
    (~ fin (padd (Aff u1 v1) (popp (Aff u2 v2))) -> dead P Q) /\ (fin (padd (Aff u1 v1) (popp (Aff u2 v2))) -> ~ dead P Q).
  Proof.
    intros HM HN U1 U2 P Q.
    pose proof (on4_tau _ HM) as O1. pose proof (on4_tau _ HN) as O2. fold P in O1. fold Q in O2.
    pose proof (tau_nz (Aff u1 v1)) as Z1. pose proof (tau_nz (Aff u2 v2)) as Z2. fold P in Z1. fold Q in Z2.
    pose proof (id_E P Q) as IE. pose proof (id_H P Q) as IH. pose proof (id_G P Q O1 O2) as IG.
    pose proof (on_popp K A (e * e) 0 _ HN) as HO. pose proof cn as Nc.
    assert (four : (2 * 2 : K) <> 0) by (apply Fmul_nonzero; assumption).
    cbn [ECGroup.popp] in HO |- *.
    destruct (sum_rel4 u1 v1 u2 (- v2) HM HO U1 U2) as [E|(u4 & v4 & E & R)].
    - (* equal points *)
      assert (EQ : Aff u2 v2 = Aff u1 v1) by (cbn in E; injection E as -> E; f_equal; transitivity (- - v2); [ring|rewrite E; ring]).
      rewrite E, padd_opp_r. split; [intro F; destruct (F I)|]. intros _ D.
      assert (PQ : Q = P) by (unfold Q, P; rewrite EQ; reflexivity). clearbody P Q. subst Q.
      assert (E' : fE' P P = 0) by (destruct P as [[[x y] t] z]; unfold fE'; ring).
      destruct D as [[DE DG]|[DF DH]].
      + assert (Q0 : fQ P P = 0).
        { apply (Fcancel_l K (2 * 2) _ _ four). transitivity (fE' P P * fE' P P + 2 * 2 * fQ P P); [rewrite E'; ring|]. rewrite <- IE, DE. ring. }
        apply (not_dead P P O1 O1 Z1 Z1 DE DG); [|exact Q0].
        apply (Fsqr_zero K).
        assert (F0 : fF P P = 0) by (apply (Fsqr_zero K); rewrite DG, Q0 in IG; transitivity (fF P P * fF P P + 2 * 2 * d * 0); [ring|rewrite <- IG; ring]).
        (* H' = a X^2 + Y^2 = Z^2 + d T^2 = G *)
        assert (HG : fH' P P = fG P P) by (destruct P as [[[x y] t] z]; unfold fH', fG; destruct O1 as [_ R]; transitivity (a * (x * x) + y * y); [ring|exact R]).
        rewrite HG, DG. ring.
      + assert (HG : fH' P P = fG P P) by (destruct P as [[[x y] t] z]; unfold fH', fG; destruct O1 as [_ R]; transitivity (a * (x * x) + y * y); [ring|exact R]).
        rewrite DH, HG, IG, DF in IH.
        assert (Q0 : fQ P P = 0).
        { apply (a_d K a d A c e two e_nz Ha Hd). apply (Fcancel_l K (2 * 2) _ _ four).
          transitivity (2 * 2 * a * fQ P P + 0 * 0); [ring|]. rewrite IH. ring. }
        exact (not_dead2 P P O1 O1 Z1 Z1 DF DH E' Q0).
    - destruct (opp_factors P u2 v2 U2) as (FE & FF & FG & FH). cbn [ECGroup.popp] in FE, FF, FG, FH. fold Q in FE, FF, FG, FH.
      cbv zeta in R. fold P in R. rewrite FE, FF, FG, FH in R. destruct R as (R1 & R2 & R3).
      assert (LX : c * u4 * fF P Q = v4 * fE' P Q) by (transitivity (- (c * u4 * - fF P Q)); [ring|rewrite R1; ring]).
      assert (LY : (u4 - e) * fG P Q = (u4 + e) * fH' P Q) by (transitivity (- ((u4 - e) * - fG P Q)); [ring|rewrite R2; ring]).
      assert (L3 : u4 = 0 -> fE' P Q = 0) by (intro Z; apply ne_opp; exact (R3 Z)). clear R1 R2 R3 FE FF FG FH.
      pose proof (on_padd K A (e * e) 0 two _ _ HM HO) as O4. rewrite E in O4 |- *. pose proof (on_uv _ _ O4) as C4.
      assert (sqLX : (c * c) * (u4 * u4) * (fF P Q * fF P Q) = (v4 * v4) * (fE' P Q * fE' P Q)) by
        (transitivity ((c * u4 * fF P Q) * (c * u4 * fF P Q)); [ring|rewrite LX; ring]).
      assert (sqLY : (u4 - e) * (u4 - e) * (fG P Q * fG P Q) = (u4 + e) * (u4 + e) * (fH' P Q * fH' P Q)) by
        (transitivity (((u4 - e) * fG P Q) * ((u4 - e) * fG P Q)); [ring|rewrite LY; ring]).
      clearbody P Q. clear E. split.
      + intro F. destruct (Feqd v4 0) as [V4|V4].
        * right. assert (U4 : u4 <> 0) by (intro Z; apply F; left; auto).
          rewrite V4 in O4. pose proof (not_both u4 O4) as NE.
          assert (F0 : fF P Q = 0) by (apply (Fcancel_l K (c * u4) _ _ (Fmul_nonzero K c u4 Nc U4)); rewrite LX, V4; ring).
          split; [exact F0|]. apply (Fsqr_zero K). apply (Fcancel_l K d _ _ d_nz).
          assert (C0 : u4 * u4 + A * u4 + e * e = 0) by (apply (Fcancel_l K u4 _ _ U4); rewrite <- C4, V4; ring).
          assert (S1 : (u4 - e) * (u4 - e) = - (a * (c * c) * u4)) by (rewrite Ha; transitivity ((u4 * u4 + A * u4 + e * e) - (A + 2 * e) * u4); [ring|rewrite C0; ring]).
          assert (S2 : (u4 + e) * (u4 + e) = - (d * (c * c) * u4)) by (rewrite Hd; transitivity ((u4 * u4 + A * u4 + e * e) - (A - 2 * e) * u4); [ring|rewrite C0; ring]).
          assert (AG : a * (fG P Q * fG P Q) = d * (fH' P Q * fH' P Q)).
          { apply (Fcancel_l K (c * c * u4)); [repeat apply Fmul_nonzero; assumption|]. rewrite S1, S2 in sqLY.
            transitivity (- (- (a * (c * c) * u4) * (fG P Q * fG P Q))); [ring|rewrite sqLY; ring]. }
          rewrite IH. transitivity (d * (fH' P Q * fH' P Q) - 2 * 2 * d * a * fQ P Q); [ring|]. rewrite <- AG, IG, F0. ring.
        * left. assert (UE : u4 + e = 0) by (destruct (Feqd (u4 + e) 0) as [Z|Z]; [exact Z|destruct F; right; auto]).
          assert (NE : u4 - e <> 0) by (intro Z; exact (pm u4 UE Z)).
          assert (G0 : fG P Q = 0) by (apply (Fcancel_l K (u4 - e) _ _ NE); rewrite LY, UE; ring).
          split; [|exact G0]. apply (Fsqr_zero K). apply (Fcancel_l K d _ _ d_nz).
          assert (U4 : u4 = - e) by (transitivity (u4 + e - e); [ring|rewrite UE; ring]).
          assert (V2 : v4 * v4 = e * e * (d * (c * c))) by (rewrite C4, Hd, U4; ring).
          assert (DF : fF P Q * fF P Q = d * (fE' P Q * fE' P Q)).
          { apply (Fcancel_l K (c * c * (e * e))); [repeat apply Fmul_nonzero; assumption|]. rewrite V2, U4 in sqLX.
            transitivity (c * c * (- e * - e) * (fF P Q * fF P Q)); [ring|rewrite sqLX; ring]. }
          rewrite IE. transitivity (d * (fE' P Q * fE' P Q) + 2 * 2 * d * fQ P Q); [ring|]. rewrite <- DF, <- IG, G0. ring.
      + intros F D.
        assert (AD : forall x, a * x = d * x -> x = 0) by exact (a_d K a d A c e two e_nz Ha Hd).
        destruct D as [[DE DG]|[DF DH]].
        * (* E = G = 0 *)
          assert (EQ4 : fE' P Q * fE' P Q = - (2 * 2 * fQ P Q)) by (transitivity (fE' P Q * fE' P Q + 2 * 2 * fQ P Q - 2 * 2 * fQ P Q); [ring|rewrite <- IE, DE; ring]).
          assert (FQ4 : fF P Q * fF P Q = d * (fE' P Q * fE' P Q)) by (transitivity (fF P Q * fF P Q + 2 * 2 * d * fQ P Q - 2 * 2 * d * fQ P Q); [ring|rewrite <- IG, DG, EQ4; ring]).
          assert (QE : fE' P Q = 0 -> fQ P Q = 0) by (intro Z; apply (Fcancel_l K (2 * 2) _ _ four); transitivity (- - (2 * 2 * fQ P Q)); [ring|rewrite <- EQ4, Z; ring]).
          destruct F as [[V4 U4]|[V4 NE]].
          -- apply (not_dead P Q O1 O2 Z1 Z2 DE DG); [|exact (QE (L3 U4))]. rewrite U4 in LY. apply (Fcancel_l K e _ _ e_nz).
             transitivity ((0 + e) * fH' P Q); [ring|]. rewrite <- LY, DG. ring.
          -- assert (H0 : fH' P Q = 0) by (apply (Fcancel_l K (u4 + e) _ _ NE); rewrite <- LY, DG; ring).
             destruct (Feqd (fE' P Q) 0) as [Z|NZ]; [exact (not_dead P Q O1 O2 Z1 Z2 DE DG H0 (QE Z))|].
             apply NE. apply (Fsqr_zero K). 
             assert (W : d * (c * c) * (u4 * u4) = v4 * v4).
             { apply (Fcancel_l K (fE' P Q * fE' P Q) _ _ (Fmul_nonzero K _ _ NZ NZ)). rewrite FQ4 in sqLX.
               transitivity (c * c * (u4 * u4) * (d * (fE' P Q * fE' P Q))); [ring|rewrite sqLX; ring]. }
             assert (U4 : u4 <> 0) by (intro Z; apply V4; apply (Fsqr_zero K); rewrite <- W, Z; ring).
             apply (Fcancel_l K u4 _ _ U4). rewrite Hd, C4 in W.
             transitivity (u4 * (u4 * u4 + A * u4 + e * e) - (A - 2 * e) * (u4 * u4)); [ring|rewrite W; ring].
        * (* F = H = 0 *)
          assert (GQ : fG P Q * fG P Q = 2 * 2 * d * fQ P Q) by (rewrite IG, DF; ring).
          assert (HQ : fH' P Q * fH' P Q = 2 * 2 * a * fQ P Q) by (transitivity (fH' P Q * fH' P Q - 2 * 2 * a * fQ P Q + 2 * 2 * a * fQ P Q); [ring|rewrite <- IH, DH; ring]).
          assert (E0 : fE' P Q = 0).
          { destruct F as [[V4 U4]|[V4 NE]]; [exact (L3 U4)|]. apply (Fcancel_l K v4 _ _ V4). rewrite <- LX, DF. ring. }
          apply (not_dead2 P Q O1 O2 Z1 Z2 DF DH E0).
          assert (RQ : (u4 - e) * (u4 - e) * (d * fQ P Q) = (u4 + e) * (u4 + e) * (a * fQ P Q)).
          { apply (Fcancel_l K (2 * 2) _ _ four). rewrite GQ, HQ in sqLY. transitivity ((u4 - e) * (u4 - e) * (2 * 2 * d * fQ P Q)); [ring|rewrite sqLY; ring]. }
          destruct F as [[V4 U4]|[V4 NE]].
          -- rewrite U4 in RQ. apply AD. apply (Fcancel_l K (e * e)); [apply Fmul_nonzero; assumption|].
             transitivity ((0 + e) * (0 + e) * (a * fQ P Q)); [ring|rewrite <- RQ; ring].
          -- destruct (Feqd (fQ P Q) 0) as [Z|NQ]; [exact Z|exfalso].
             assert (W : (u4 - e) * (u4 - e) * (d * (c * c)) = (u4 + e) * (u4 + e) * (a * (c * c))).
             { apply (Fcancel_l K (fQ P Q) _ _ NQ). transitivity (c * c * ((u4 - e) * (u4 - e) * (d * fQ P Q))); [ring|rewrite RQ; ring]. }
             rewrite Ha, Hd in W. apply V4. apply (Fsqr_zero K). rewrite C4.
             assert (W0 : u4 * u4 + A * u4 + e * e = 0).
             { apply (Fcancel_l K (2 * 2 * e)); [repeat apply Fmul_nonzero; assumption|].
               transitivity ((u4 + e) * (u4 + e) * (A + 2 * e) - (u4 - e) * (u4 - e) * (A - 2 * e)); [ring|rewrite W; ring]. }
             rewrite W0. ring.
  Qed.

  (** not all products vanish: they are those of the sum *)
  Lemma right4 u1 v1 u2 v2 : on (Aff u1 v1) -> on (Aff u2 v2) -> u1 <> 0 -> u2 <> 0 ->
    let P := tau (Aff u1 v1) in let Q := tau (Aff u2 v2) in ~ dead P Q ->
    exists l, l <> 0 /\ add4 P Q = scale l (tau (padd (Aff u1 v1) (Aff u2 v2))).
  Proof.
    intros HM HN U1 U2 P Q ND. destruct (sum_rel4 u1 v1 u2 v2 HM HN U1 U2) as [E|(u3 & v3 & E & LX & LY & L3)].
    - rewrite E, padd_opp_r. destruct (opp_factors P u1 v1 U1) as (FE & FF & FG & FH). rewrite <- E in FE, FF, FG, FH. fold Q P in FE, FF, FG, FH.
      pose proof (on4_tau _ HM) as O1. fold P in O1. clearbody P Q.
      assert (E0 : fE P Q = 0) by (rewrite FE; destruct P as [[[x y] t] z]; unfold fE'; ring).
      assert (HF : fH P Q = fF P Q) by (rewrite FH, FF; destruct P as [[[x y] t] z]; unfold fH', fG; destruct O1 as [_ R]; f_equal; transitivity (a * (x * x) + y * y); [ring|exact R]).
      exists (fF P Q * fG P Q). split.
      + apply Fmul_nonzero; intro Z; apply ND; [right; rewrite HF|left]; auto.
      + unfold add4, scale, tau. rewrite E0, HF. apply q_eq; ring.
    - rewrite E. cbv zeta in LX, LY, L3. fold P Q in LX, LY, L3. clearbody P Q. unfold tau. destruct (Feqd u3 0) as [Z3|N3].
      + specialize (L3 Z3). rewrite Z3 in LY.
        assert (HF : fH P Q = - fF P Q) by (apply (Fcancel_l K e _ _ e_nz); transitivity ((0 + e) * fH P Q); [ring|rewrite <- LY; ring]).
        exists (fF P Q * fG P Q). split.
        * apply Fmul_nonzero; intro Z; apply ND; [right; rewrite HF, Z; split; [reflexivity|ring]|left; auto].
        * unfold add4, scale. rewrite L3, HF. apply q_eq; ring.
      + pose proof (Fmul_nonzero K c u3 cn N3) as N4.
        set (m := fE P Q / (c * u3)).
        assert (ME : fE P Q = m * (c * u3)) by (symmetry; apply Fdiv_mul; exact N4).
        assert (MG : fG P Q = m * v3) by (apply (Fcancel_l K (c * u3) _ _ N4); rewrite LX, ME; ring).
        assert (exists n, fF P Q = n * (u3 + e) /\ fH P Q = n * (u3 - e)) as (n & NF & NH).
        { destruct (Feqd (u3 + e) 0) as [Z|N5].
          - assert (NE : u3 - e <> 0) by (intro Z2; exact (pm u3 Z Z2)). exists (fH P Q / (u3 - e)).
            split; [|symmetry; apply Fdiv_mul; exact NE]. rewrite Z. apply (Fcancel_l K (u3 - e) _ _ NE). rewrite LY, Z. ring.
          - exists (fF P Q / (u3 + e)). assert (EF : fF P Q / (u3 + e) * (u3 + e) = fF P Q) by (apply Fdiv_mul; exact N5).
            split; [symmetry; exact EF|]. apply (Fcancel_l K (u3 + e) _ _ N5). rewrite <- LY. rewrite <- EF at 1. ring. }
        clearbody m. exists (m * n). split.
        * apply Fmul_nonzero; intro Z; apply ND; [left; rewrite ME, MG|right; rewrite NF, NH]; rewrite Z; split; ring.
        * unfold add4, scale. rewrite ME, MG, NF, NH. apply q_eq; ring.
  Qed.

  Definition q4 (P : quad) : K := let '(_, _, _, z) := P in z.
  Lemma fin_q4 M : on M -> (fin M <-> q4 (tau M) <> 0).
  Proof.
    destruct M as [|u v]; intro H; unfold tau; [split; [intros _; exact (F_1_neq_0 K)|constructor]|].
    destruct (Feqd u 0) as [Z|N]; cbn.
    - split; [intros _; exact (F_1_neq_0 K)|]. intros _. left. split; [|exact Z]. apply on_uv in H. apply (Fsqr_zero K). rewrite H, Z. ring.
    - split.
      + intros [[_ Z]|[V U]]; [contradiction|]. apply Fmul_nonzero; assumption.
      + intro Z. right. split; intro E; apply Z; rewrite E; ring.
  Qed.
  Lemma fin_opp_iff M : fin (popp M) <-> fin M.
  Proof. split; [|apply fin_opp]. intro H. rewrite <- (popp_invol K M). apply fin_opp, H. Qed.
  Lemma u0 u v : on (Aff u v) -> u = 0 -> Aff u v = Aff 0 0.
  Proof. intros H Z. apply on_uv in H. assert (v = 0) as -> by (apply (Fsqr_zero K); rewrite H, Z; ring). rewrite Z. reflexivity. Qed.
  Lemma third_T u v : u <> 0 -> on (Aff u v) -> padd (Aff 0 0) (Aff u v) = Aff (e * e / u) (- (e * e * v / (u * u))).
  Proof.
    intros Nu H. rewrite padd_gen by congruence. apply on_uv in H.
    unfold third. assert (NN : u - 0 <> 0) by (intro Z; apply Nu; rewrite <- Z; ring).
    assert (EX : (v - 0) / (u - 0) * ((v - 0) / (u - 0)) - A - 0 - u = e * e / u).
    { transitivity (v * v / (u * u) - A - u); [field; assumption|]. rewrite H. field. assumption. }
    rewrite EX. f_equal. field. assumption.
  Qed.
  (** adding the point (0, 0) *)
  Lemma tau_T N : on N -> exists r, r <> 0 /\ tau (padd (Aff 0 0) N) = let '(x, y, t, z) := tau N in scale r (- x, - y, t, z).
  Proof.
    destruct N as [|u v]; intro H.
    - rewrite padd_inf_r. unfold tau, scale. destruct (Feqd 0 (0 : K)) as [_|N]; [|destruct (N eq_refl)].
      exists 1. split; [exact (F_1_neq_0 K)|]. apply q_eq; ring.
    - destruct (Feqd u 0) as [Z|Nu].
      + rewrite (u0 u v H Z). assert (E : padd (Aff 0 0) (Aff 0 0) = Inf).
        { replace (Aff 0 0) with (popp (Aff 0 0)) at 2 by (cbn; f_equal; ring). apply padd_opp_r. }
        rewrite E. unfold tau, scale. destruct (Feqd 0 (0 : K)) as [_|N]; [|destruct (N eq_refl)].
        exists 1. split; [exact (F_1_neq_0 K)|]. apply q_eq; ring.
      + rewrite (third_T u v Nu H). unfold tau, scale.
        assert (N3 : e * e / u <> 0) by (apply Fdiv_nonzero; [apply Fmul_nonzero|]; assumption).
        destruct (Feqd (e * e / u) 0) as [?|_]; [contradiction|]. destruct (Feqd u 0) as [?|_]; [contradiction|].
        exists (- (e * e * e / (u * u * u))). split.
        * intro Z. apply ne_opp in Z. revert Z. apply Fdiv_nonzero; repeat apply Fmul_nonzero; assumption.
        * apply q_eq; field; assumption.
  Qed.
  Lemma on_T : on (Aff 0 0). Proof. cbn. unfold cubic. ring. Qed.
  Lemma fin_T N : on N -> (fin (padd (Aff 0 0) N) <-> fin N).
  Proof.
    intro H. rewrite !fin_q4 by (assumption || (apply on_padd; [exact two|exact on_T|exact H])).
    destruct (tau_T N H) as (r & Nr & ->). destruct (tau N) as [[[x y] t] z]. cbn. split.
    - intros Z E. apply Z. rewrite E. ring.
    - intro Z. apply Fmul_nonzero; assumption.
  Qed.
  Definition good (M N : pt) : Prop :=
    (~ fin (padd M (popp N)) -> add4 (tau M) (tau N) = zero4)
    /\ (fin (padd M (popp N)) -> exists l, l <> 0 /\ add4 (tau M) (tau N) = scale l (tau (padd M N))).
  Lemma add4_comm P Q : add4 P Q = add4 Q P.
  Proof.
    destruct P as [[[x1 y1] t1] z1], Q as [[[x2 y2] t2] z2]. unfold add4, fE, fF, fG, fH. apply q_eq; ring.
  Qed.
  Lemma good_comm M N : on M -> on N -> good M N -> good N M.
  Proof.
    intros HM HN. assert (E : fin (padd N (popp M)) <-> fin (padd M (popp N))).
    { rewrite <- fin_opp_iff. rewrite (popp_padd K A (e * e) 0) by (auto using on_popp). rewrite popp_invol.
      rewrite (padd_comm K A (e * e) 0) by (auto using on_popp). reflexivity. }
    unfold good. rewrite E, add4_comm, (padd_comm K A (e * e) 0 N M) by assumption. trivial.
  Qed.
  Lemma good_inf N : on N -> good Inf N.
  Proof.
    intro H. unfold good. rewrite !padd_inf_l, fin_opp_iff, (fin_q4 N H). pose proof (on4_tau N H) as O.
    destruct (tau N) as [[[x y] t] z]. unfold tau, add4, scale, fE, fF, fG, fH, zero4. cbn [q4]. destruct O as [O _].
    assert (XY : (0 * y + 1 * x) * (1 * y - a * (0 * x)) = z * t) by (transitivity (x * y); [ring|rewrite O; ring]). split.
    - intro Z. assert (z = 0) as -> by (destruct (Feqd z 0) as [E|NN]; [exact E|destruct (Z NN)]). rewrite XY. apply q_eq; ring.
    - intro Z. exists z. split; [exact Z|]. rewrite XY. apply q_eq; ring.
  Qed.
  Lemma good_T N : on N -> good (Aff 0 0) N.
  Proof.
    intro H. unfold good. rewrite fin_T by (apply on_popp, H). rewrite fin_opp_iff, (fin_q4 N H). pose proof (on4_tau N H) as O.
    destruct (tau_T N H) as (r & Nr & ->).
    destruct (tau N) as [[[x y] t] z]. unfold tau, add4, scale, fE, fF, fG, fH, zero4. destruct (Feqd 0 (0 : K)) as [_|NN]; [|destruct (NN eq_refl)].
    cbn [q4]. destruct O as [O _].
    assert (XY : (0 * y + - (1) * x) * (- (1) * y - a * (0 * x)) = z * t) by (transitivity (x * y); [ring|rewrite O; ring]). split.
    - intro Z. assert (z = 0) as -> by (destruct (Feqd z 0) as [E|N']; [exact E|destruct (Z N')]). rewrite XY. apply q_eq; ring.
    - intro Z. exists (z / r). split; [apply Fdiv_nonzero; assumption|]. rewrite XY. apply q_eq; field; assumption.
  Qed.
  Lemma comp_add M N : on M -> on N -> good M N.
  Proof.
    intros HM HN. destruct M as [|u1 v1]; [apply good_inf, HN|]. destruct N as [|u2 v2]; [apply good_comm, good_inf; (exact HM || exact I)|].
    destruct (Feqd u1 0) as [Z1|N1]; [rewrite (u0 _ _ HM Z1); apply good_T, HN|].
    destruct (Feqd u2 0) as [Z2|N2]; [rewrite (u0 _ _ HN Z2); apply good_comm, good_T; try exact HM; exact on_T|].
    destruct (dead_iff u1 v1 u2 v2 HM HN N1 N2) as [D1 D2]. split; intro F.
    - apply dead_zero, D1, F.
    - apply right4; try assumption. apply D2, F.
  Qed.
  Lemma add4_scale l m P Q : add4 (scale l P) (scale m Q) = scale (l * l * (m * m)) (add4 P Q).
  Proof. destruct P as [[[x1 y1] t1] z1], Q as [[[x2 y2] t2] z2]. unfold add4, scale, fE, fF, fG, fH. apply q_eq; ring. Qed.
  Lemma scale_scale l m P : scale l (scale m P) = scale (l * m) P.
  Proof. destruct P as [[[x1 y1] t1] z1]. unfold scale. apply q_eq; ring. Qed.
  Lemma scale_zero l : scale l zero4 = zero4. Proof. unfold scale, zero4. apply q_eq; ring. Qed.
  Lemma add4_zero P : add4 zero4 P = zero4.
  Proof. destruct P as [[[x1 y1] t1] z1]. unfold add4, zero4, fE, fF, fG, fH. apply q_eq; ring. Qed.
  Lemma on4_scale l P : on4 P -> on4 (scale l P).
  Proof.
    destruct P as [[[x y] t] z]. unfold on4, scale. intros [E1 E2]. split.
    - transitivity (l * l * (x * y)); [ring|rewrite E1; ring].
    - transitivity (l * l * (a * (x * x) + y * y)); [ring|rewrite E2; ring].
  Qed.
  Lemma scale_nz l P : l <> 0 -> P <> zero4 -> scale l P <> zero4.
  Proof.
    destruct P as [[[x y] t] z]. unfold scale, zero4. intros N H E. injection E as E1 E2 E3 E4. apply H.
    apply q_eq; apply (Fcancel_l K l _ _ N); (rewrite E1 || rewrite E2 || rewrite E3 || rewrite E4); ring.
  Qed.
  (** negation *)
  Lemma tau_neg M : on M -> exists l, l <> 0 /\ tau (popp M) = scale l (let '(x, y, t, z) := tau M in (- x, y, - t, z)).
  Proof.
    destruct M as [|u v]; intro H.
    - exists 1. split; [exact (F_1_neq_0 K)|]. cbn. apply q_eq; ring.
    - destruct (Feqd u 0) as [Z|N].
      + rewrite (u0 _ _ H Z). exists 1. split; [exact (F_1_neq_0 K)|]. unfold tau. cbn [ECGroup.popp]. destruct (Feqd 0 (0 : K)) as [_|NN]; [|destruct (NN eq_refl)].
        unfold scale. apply q_eq; ring.
      + rewrite (tau_opp u v N). destruct (tau (Aff u v)) as [[[x y] t] z]. exists (- (1)). split; [intro E; apply ne_opp in E; exact (F_1_neq_0 K E)|].
        unfold scale. apply q_eq; ring.
  Qed.

  (** every tuple of the curve other than 0 stands for exactly one point *)
  Definition xt (P : quad) : K := let '(x, _, t, _) := P in x - t.
  Lemma xt_scale l P : xt (scale l P) = l * xt P. Proof. destruct P as [[[x y] t] z]. cbn. ring. Qed.
  Lemma xt_gen u v : u <> 0 -> xt (tau (Aff u v)) = c * u * (2 * e).
  Proof. intro N. unfold tau. destruct (Feqd u 0) as [?|_]; [contradiction|]. cbn. ring. Qed.
  Lemma ceu u : u <> 0 -> c * u * (2 * e) <> 0.
  Proof. intro N. pose proof cn. repeat apply Fmul_nonzero; assumption. Qed.
  Lemma ratio0 (m s s' : K) : m <> 0 -> (0, s, 0, 1) = scale m (0, s', 0, 1) -> s = s'.
  Proof.
    unfold scale. intros Nm E. injection E as _ E1 _ E2. rewrite E1. assert (m = 1) as -> by (rewrite E2; ring). ring.
  Qed.
  Lemma pm1 : (1 : K) = - (1) -> False.
  Proof. intro E. apply two. transitivity (1 - - (1) : K); [ring|]. rewrite <- E. ring. Qed.
  Lemma tau_low M : on M -> xt (tau M) = 0 -> (M = Inf /\ tau M = (0, 1, 0, 1)) \/ (M = Aff 0 0 /\ tau M = (0, - (1), 0, 1)).
  Proof.
    destruct M as [|u v]; intros H E; [left; auto|]. destruct (Feqd u 0) as [Z|N].
    - right. rewrite (u0 _ _ H Z). unfold tau. destruct (Feqd 0 (0 : K)) as [_|NN]; [auto|destruct (NN eq_refl)].
    - rewrite (xt_gen u v N) in E. destruct (ceu u N E).
  Qed.
  Lemma tau_inj m M N : on M -> on N -> m <> 0 -> tau M = scale m (tau N) -> M = N.
  Proof.
    intros HM HN Nm E. pose proof (f_equal xt E) as EX. rewrite xt_scale in EX.
    destruct (Feqd (xt (tau N)) 0) as [Z|NZ].
    - assert (Z' : xt (tau M) = 0) by (rewrite EX, Z; ring).
      destruct (tau_low M HM Z') as [[-> T1]|[-> T1]], (tau_low N HN Z) as [[-> T2]|[-> T2]]; try reflexivity; exfalso; rewrite T1, T2 in E;
        apply ratio0 in E; try exact Nm; apply pm1; [exact E|symmetry; exact E].
    - assert (NZ' : xt (tau M) <> 0) by (rewrite EX; apply Fmul_nonzero; assumption).
      destruct M as [|u v]; [destruct NZ'; cbn; ring|]. destruct N as [|u' v']; [destruct NZ; cbn; ring|].
      destruct (Feqd u 0) as [Z|N1]; [destruct NZ'; rewrite (u0 _ _ HM Z); unfold tau; destruct (Feqd 0 (0 : K)); cbn; ring|].
      destruct (Feqd u' 0) as [Z|N2]; [destruct NZ; rewrite (u0 _ _ HN Z); unfold tau; destruct (Feqd 0 (0 : K)); cbn; ring|].
      unfold tau in E. destruct (Feqd u 0) as [?|_]; [contradiction|]. destruct (Feqd u' 0) as [?|_]; [contradiction|].
      unfold scale in E. injection E as E1 E2 E3 E4.
      assert (S : u = m * u').
      { apply (Fcancel_l K (c * (2 * e))); [pose proof cn; repeat apply Fmul_nonzero; assumption|].
        transitivity (c * u * (u + e) - c * u * (u - e)); [ring|]. rewrite E1, E3. ring. }
      assert (S2 : u * u = m * (u' * u')).
      { apply (Fcancel_l K (c * 2)); [pose proof cn; repeat apply Fmul_nonzero; assumption|].
        transitivity (c * u * (u + e) + c * u * (u - e)); [ring|]. rewrite E1, E3. ring. }
      assert (M1 : m = 1).
      { apply (Fcancel_l K (m * (u' * u'))); [repeat apply Fmul_nonzero; assumption|].
        transitivity (u * u); [rewrite S; ring|]. rewrite S2. ring. }
      assert (EU : u = u') by (rewrite S, M1; ring). rewrite EU, M1 in *.
      f_equal. apply (Fcancel_l K (2 * e)); [apply Fmul_nonzero; assumption|].
      transitivity (v * (u' + e) - v * (u' - e)); [ring|]. rewrite E2, E4. ring.
  Qed.
  Lemma tau_onto P : on4 P -> P <> zero4 -> exists M l, on M /\ l <> 0 /\ P = scale l (tau M).
  Proof.
    destruct P as [[[x y] t] z]. intros [Q R] NZ.
    assert (AD : forall x, (a - d) * x = 0 -> x = 0) by (intros w Hw; apply (a_d K a d A c e two e_nz Ha Hd); apply (proj1 (Fsub_zero K _ _)); rewrite <- Hw; ring).
    destruct (Feqd x t) as [XT|XT].
    - assert (X0 : x = 0).
      { apply (Fsqr_zero K). rewrite <- XT in Q, R. destruct (Feqd x 0) as [->|N]; [ring|].
        assert (YZ : y = z) by (apply (Fcancel_l K x _ _ N); exact Q). rewrite YZ in R. apply AD.
        transitivity (a * (x * x) + z * z - (z * z + d * (x * x))); [ring|]. rewrite R. ring. }
      rewrite X0 in XT. subst t x. assert (S : (y - z) * (y + z) = 0) by (transitivity (a * (0 * 0) + y * y - (z * z + d * (0 * 0))); [ring|rewrite R; ring]).
      assert (Nz : z <> 0).
      { intro Z. apply NZ. unfold zero4. rewrite Z in S. assert (y = 0) as -> by (apply (Fsqr_zero K); rewrite <- S; ring). rewrite Z. reflexivity. }
      destruct (Fmul_integral K _ _ S) as [E|E].
      + exists Inf, z. split; [exact I|]. split; [exact Nz|]. cbn. apply q_eq; try ring. transitivity (y - z + z); [ring|rewrite E; ring].
      + exists (Aff 0 0), z. split; [exact on_T|]. split; [exact Nz|]. unfold tau. destruct (Feqd 0 (0 : K)) as [_|NN]; [|destruct (NN eq_refl)].
        cbn. apply q_eq; try ring. transitivity (y + z - z); [ring|rewrite E; ring].
    - assert (XT' : x - t <> 0) by (apply Fsub_nonzero; exact XT).
      assert (XP : x + t <> 0).
      { intro Z. assert (T : t = - x) by (transitivity (x + t - x); [ring|rewrite Z; ring]). rewrite T in Q, R, XT'.
        assert (Nx : x <> 0) by (intro X; apply XT'; rewrite X; ring).
        assert (YZ : y = - z) by (apply (Fcancel_l K x _ _ Nx); rewrite Q; ring). rewrite YZ in R. apply Nx. apply (Fsqr_zero K). apply AD.
        transitivity (a * (x * x) + - z * - z - (z * z + d * (- x * - x))); [ring|]. rewrite R. ring. }
      set (u := e * (x + t) / (x - t)). assert (EU : u * (x - t) = e * (x + t)) by (apply Fdiv_mul; exact XT').
      assert (Nu : u <> 0) by (apply Fdiv_nonzero; [apply Fmul_nonzero|]; assumption). clearbody u.
      set (l := (x - t) / (c * u * (2 * e))). assert (EL : l * (c * u * (2 * e)) = x - t) by (apply Fdiv_mul, ceu, Nu).
      assert (Nl : l <> 0) by (apply Fdiv_nonzero; [exact XT'|apply ceu, Nu]). clearbody l.
      set (v := (z - y) / (2 * l * e)). assert (NV : 2 * l * e <> 0) by (repeat apply Fmul_nonzero; assumption).
      assert (EV : v * (2 * l * e) = z - y) by (apply Fdiv_mul, NV). clearbody v.
      assert (ES : l * (2 * c * (u * u)) = x + t).
      { apply (Fcancel_l K e _ _ e_nz). rewrite <- EU, <- EL. ring. }
      assert (EX : x = l * (c * u * (u + e))) by (apply (Fcancel_l K 2 _ _ two); transitivity ((x + t) + (x - t)); [ring|rewrite <- ES, <- EL; ring]).
      assert (ET : t = l * (c * u * (u - e))) by (apply (Fcancel_l K 2 _ _ two); transitivity ((x + t) - (x - t)); [ring|rewrite <- ES, <- EL; ring]).
      assert (ZY : z + y = 2 * l * v * u).
      { apply (Fcancel_l K (e * (x - t))); [apply Fmul_nonzero; assumption|].
        transitivity (e * (2 * (x * y) + (x * z - y * t) - (t * z + x * y))); [ring|].
        transitivity ((z - y) * (u * (x - t))); [|rewrite <- EV; ring]. rewrite EU.
        transitivity (e * (2 * (t * z) + (x * z - y * t) - (t * z + x * y))); [rewrite Q; ring|]. ring. }
      assert (EY : y = l * (v * (u - e))) by (apply (Fcancel_l K 2 _ _ two); transitivity ((z + y) - (z - y)); [ring|rewrite ZY, <- EV; ring]).
      assert (EZ : z = l * (v * (u + e))) by (apply (Fcancel_l K 2 _ _ two); transitivity ((z + y) + (z - y)); [ring|rewrite ZY, <- EV; ring]).
      exists (Aff u v), l. split; [|split; [exact Nl|]].
      + cbn. unfold cubic. apply (Fcancel_l K (l * l * (2 * 2 * e * u))); [repeat apply Fmul_nonzero; assumption|].
        transitivity (z * z - y * y); [rewrite EZ, EY; ring|].
        transitivity (a * (x * x) - d * (t * t)).
        { transitivity (z * z + d * (t * t) - y * y - d * (t * t)); [ring|]. rewrite <- R. ring. }
        rewrite EX, ET. transitivity (l * l * (u * u) * ((a * (c * c)) * ((u + e) * (u + e)) - (d * (c * c)) * ((u - e) * (u - e)))); [ring|].
        rewrite Ha, Hd. ring.
      + unfold tau. destruct (Feqd u 0) as [?|_]; [contradiction|]. cbn. apply q_eq; assumption.
  Qed.
End EdComp.
