(** The chord-and-tangent group on the affine points (plus infinity) of
    y^2 = x^3 + a2 x^2 + a4 x + a6 over a field of characteristic different from 2,
    without rational singular point: abelian group laws, in particular associativity.
    Proof structure after Friedl ("An elementary proof of the group law for elliptic curves"). *)
From Coq Require Import Ring Field Setoid.
From Verif.Math Require Import Fld.

Section EC.
  Variable K : Fld.
  Add Field KF : (Fth K).
  Open Scope fld_scope.
  Variables a2 a4 a6 : K.
  Hypothesis two : (2 : K) <> 0.

  Definition cubic (x : K) : K := x * x * x + a2 * (x * x) + a4 * x + a6.
  Definition dcubic (x : K) : K := 3 * (x * x) + 2 * a2 * x + a4.
  Hypothesis nonsing : forall x, cubic x = 0 -> dcubic x <> 0.

  Inductive pt := Inf | Aff (x y : K).

  Definition on (P : pt) : Prop :=
    match P with Inf => True | Aff x y => y * y = cubic x end.

  Definition third (l x1 y1 x2 : K) : pt :=
    let x3 := l * l - a2 - x1 - x2 in Aff x3 (l * (x1 - x3) - y1).

  Definition padd (P Q : pt) : pt :=
    match P, Q with
    | Inf, _ => Q
    | _, Inf => P
    | Aff x1 y1, Aff x2 y2 =>
        if Feqd x1 x2 then
          if Feqd y1 (- y2) then Inf
          else third (dcubic x1 / (2 * y1)) x1 y1 x1
        else third ((y2 - y1) / (x2 - x1)) x1 y1 x2
    end.

  Definition popp (P : pt) : pt := match P with Inf => Inf | Aff x y => Aff x (- y) end.

  Lemma pt_eqd (P Q : pt) : {P = Q} + {P <> Q}.
  Proof. decide equality; apply Feqd. Qed.

  Lemma popp_invol P : popp (popp P) = P.
  Proof. destruct P; cbn; [reflexivity|f_equal; ring]. Qed.

  Lemma on_popp P : on P -> on (popp P).
  Proof. destruct P; cbn; [auto|]. intro H. rewrite <- H. ring. Qed.

  (** same x means equal or opposite *)
  Lemma same_x (x y1 y2 : K) : on (Aff x y1) -> on (Aff x y2) -> y1 = y2 \/ y1 = - y2.
  Proof. cbn. intros H1 H2. apply Fsqr_eq. congruence. Qed.

  (** Case view of addition on curve points. *)
  Inductive view : pt -> pt -> Prop :=
  | v_inf_l Q : view Inf Q
  | v_inf_r P : view P Inf
  | v_opp P : view P (popp P)
  | v_dbl (x y : K) : y <> 0 -> view (Aff x y) (Aff x y)
  | v_gen (x1 y1 x2 y2 : K) : x1 <> x2 -> view (Aff x1 y1) (Aff x2 y2).

  Lemma view_all P Q : on P -> on Q -> view P Q.
  Proof.
    destruct P as [|x1 y1], Q as [|x2 y2]; intros HP HQ;
      [apply v_inf_l|apply v_inf_l|apply v_inf_r|].
    destruct (Feqd x1 x2) as [E|E]; [subst x2|apply v_gen; assumption].
    destruct (Feqd y1 (- y2)) as [E|E].
    - replace (Aff x1 y2) with (popp (Aff x1 y1)); [apply v_opp|]. cbn. rewrite E. f_equal. ring.
    - destruct (same_x _ _ _ HP HQ) as [E'|E']; [subst y2|contradiction].
      apply v_dbl. intro Hy. apply E. rewrite Hy. ring.
  Qed.

  Lemma padd_inf_l P : padd Inf P = P. Proof. reflexivity. Qed.
  Lemma padd_inf_r P : padd P Inf = P. Proof. destruct P; reflexivity. Qed.

  Lemma padd_opp_r P : padd P (popp P) = Inf.
  Proof.
    destruct P as [|x y]; cbn; [reflexivity|].
    destruct (Feqd x x); [|congruence]. destruct (Feqd y (- - y)) as [|H]; [reflexivity|].
    exfalso. apply H. ring.
  Qed.

  Lemma neq_opp (y : K) : y <> 0 -> y <> - y.
  Proof. intros Hy H. apply Hy, opp_self_zero; assumption. Qed.

  Lemma padd_dbl (x y : K) : y <> 0 -> padd (Aff x y) (Aff x y) = third (dcubic x / (2 * y)) x y x.
  Proof.
    intro Hy. cbn. destruct (Feqd x x); [|congruence].
    destruct (Feqd y (- y)) as [H|]; [|reflexivity]. exfalso. exact (neq_opp y Hy H).
  Qed.

  Lemma padd_gen (x1 y1 x2 y2 : K) : x1 <> x2 ->
    padd (Aff x1 y1) (Aff x2 y2) = third ((y2 - y1) / (x2 - x1)) x1 y1 x2.
  Proof. intro H. cbn. destruct (Feqd x1 x2); [contradiction|reflexivity]. Qed.

  Ltac nz := repeat match goal with
    | H : ?a <> ?b |- ?a - ?b <> 0 => apply Fsub_nonzero; exact H
    | H : ?b <> ?a |- ?a - ?b <> 0 => apply Fsub_nonzero; intro; apply H; symmetry; assumption
    | |- _ * _ <> 0 => apply Fmul_nonzero
    | H : ?a <> 0 |- - ?a <> 0 => intro; apply H, Fopp_zero; assumption
    | |- _ /\ _ => split
    end; try assumption.

  Lemma on_dbl (x y : K) : on (Aff x y) -> y <> 0 -> on (third (dcubic x / (2 * y)) x y x).
  Proof.
    unfold third, on, cubic, dcubic. intros H Hy.
    field [H]. nz.
  Qed.

  Lemma on_gen (x1 y1 x2 y2 : K) : on (Aff x1 y1) -> on (Aff x2 y2) -> x1 <> x2 ->
    on (third ((y2 - y1) / (x2 - x1)) x1 y1 x2).
  Proof.
    unfold third, on, cubic. intros H1 H2 Hx.
    field [H1 H2]. nz.
  Qed.

  Lemma on_padd P Q : on P -> on Q -> on (padd P Q).
  Proof.
    intros HP HQ. destruct (view_all P Q HP HQ).
    - assumption.
    - rewrite padd_inf_r. assumption.
    - rewrite padd_opp_r. exact I.
    - rewrite padd_dbl by assumption. apply on_dbl; assumption.
    - rewrite padd_gen by assumption. apply on_gen; assumption.
  Qed.

  Lemma padd_comm P Q : on P -> on Q -> padd P Q = padd Q P.
  Proof.
    intros HP HQ. destruct (view_all P Q HP HQ).
    - rewrite padd_inf_r. reflexivity.
    - rewrite padd_inf_r. reflexivity.
    - rewrite padd_opp_r. rewrite <- (popp_invol P) at 2. rewrite padd_opp_r. reflexivity.
    - reflexivity.
    - rewrite !padd_gen by congruence. unfold third. f_equal; field; nz.
  Qed.

  Lemma popp_padd P Q : on P -> on Q -> popp (padd P Q) = padd (popp P) (popp Q).
  Proof.
    intros HP HQ. destruct (view_all P Q HP HQ) as [Q|P|P|x y Hy|x1 y1 x2 y2 Hx].
    - reflexivity.
    - rewrite !padd_inf_r. cbn [popp]. rewrite ?padd_inf_r. reflexivity.
    - rewrite !padd_opp_r. reflexivity.
    - rewrite padd_dbl by assumption. cbn [popp]. rewrite padd_dbl.
      + unfold third. cbn [popp]. f_equal; field; nz.
      + nz.
    - rewrite padd_gen by assumption. cbn [popp]. rewrite padd_gen by assumption.
      unfold third. cbn [popp]. f_equal; field; nz.
  Qed.

  (** ** Uniqueness of the neutral element; this is where non-singularity is used *)
  Lemma padd_neutral_unique P Q : on P -> on Q -> padd P Q = P -> Q = Inf.
  Proof.
    intros HP HQ E. destruct (view_all P Q HP HQ) as [Q|P|P|x y Hy|x1 y1 x2 y2 Hx].
    - exact E.
    - reflexivity.
    - rewrite padd_opp_r in E. subst P. reflexivity.
    - exfalso. rewrite padd_dbl in E by assumption. unfold third in E. injection E as Ex Ey.
      apply (neq_opp y Hy). rewrite <- Ey at 1. rewrite Ex. ring.
    - exfalso. rewrite padd_gen in E by assumption. unfold third in E. injection E as Ex Ey.
      assert (Hy1 : y1 = 0).
      { apply opp_self_zero; [assumption|]. rewrite <- Ey at 1. rewrite Ex. ring. }
      subst y1. cbn in HP, HQ. clear Ey.
      assert (C0 : cubic x1 = 0) by (rewrite <- HP; ring).
      apply (nonsing x1 C0).
      assert (E2 : y2 * y2 = (a2 + x1 + x1 + x2) * ((x2 - x1) * (x2 - x1))).
      { transitivity (((y2 - 0) / (x2 - x1) * ((y2 - 0) / (x2 - x1)) - a2 - x1 - x2 + (a2 + x1 + x2)) * ((x2 - x1) * (x2 - x1))).
        - field. nz.
        - rewrite Ex. ring. }
      apply (Fcancel_l K (x2 - x1)); [nz|].
      unfold cubic in *. unfold dcubic.
      transitivity ((x2 * x2 * x2 + a2 * (x2 * x2) + a4 * x2 + a6)
        - (x1 * x1 * x1 + a2 * (x1 * x1) + a4 * x1 + a6)
        - (a2 + x1 + x1 + x2) * ((x2 - x1) * (x2 - x1))); [ring|].
      rewrite <- E2, C0, HQ. ring.
  Qed.

  (** ** (A + B) - B = A *)
  Lemma padd_sub P Q : on P -> on Q -> padd (padd P Q) (popp Q) = P.
  Proof.
    intros HP HQ. pose proof (padd_neutral_unique Q P HQ HP) as Hneu.
    rewrite (padd_comm Q P HQ HP) in Hneu.
    pose proof (on_padd P Q HP HQ) as HS.
    destruct (view_all P Q HP HQ) as [Q|P|P|x y Hy|x1 y1 x2 y2 Hx].
    - cbn [padd]. apply padd_opp_r.
    - rewrite padd_inf_r. cbn [popp]. rewrite ?padd_inf_r. reflexivity.
    - rewrite padd_opp_r, popp_invol. reflexivity.
    - rewrite padd_dbl by assumption. unfold third. cbn zeta.
      set (l := dcubic x / (2 * y)). set (xs := l * l - a2 - x - x).
      cbn [popp]. destruct (Feqd xs x) as [Exs|Exs].
      + rewrite Exs. replace (l * (x - x) - y) with (- y) by ring.
        rewrite padd_dbl by nz. unfold third.
        assert (El : dcubic x / (2 * - y) = - l) by (unfold l; field; nz).
        rewrite El. replace (- l * - l - a2 - x - x) with xs by (unfold xs; ring).
        rewrite Exs. f_equal. ring.
      + rewrite padd_gen by assumption. unfold third.
        assert (El : (- y - (l * (x - xs) - y)) / (x - xs) = - l) by (field; nz).
        rewrite El. replace (- l * - l - a2 - xs - x) with x by (unfold xs; ring).
        f_equal. ring.
    - rewrite padd_gen in HS, Hneu |- * by assumption. unfold third in HS, Hneu |- *.
      cbn zeta in HS, Hneu |- *.
      assert (El : (y2 - y1) / (x2 - x1) * (x2 - x1) = y2 - y1) by (field; nz).
      set (l := (y2 - y1) / (x2 - x1)) in *. set (xs := l * l - a2 - x1 - x2) in *.
      cbn [popp]. destruct (Feqd xs x2) as [Exs|Exs].
      + assert (Eys : l * (x1 - xs) - y1 = - y2).
        { rewrite Exs. transitivity (- (l * (x2 - x1)) - y1); [ring|]. rewrite El. ring. }
        rewrite Eys in *. rewrite Exs in *.
        assert (Hy : y2 <> 0).
        { intro E. subst y2. discriminate (Hneu (f_equal2 Aff eq_refl (eq_trans (f_equal (fun t => - t) eq_refl) (ltac:(ring) : - 0 = 0 :> K)))). }
        rewrite padd_dbl by nz. unfold third.
        assert (Ell : l * l = a2 + x1 + x2 + x2).
        { transitivity (xs + a2 + x1 + x2); [unfold xs; ring|]. rewrite Exs. ring. }
        assert (Et : dcubic x2 / (2 * - y2) = - l).
        { apply Fdiv_eq_iff; [nz|].
          apply (Fcancel_l K (x2 - x1)); [nz|]. cbn in HP, HQ.
          assert (Ey1 : y1 = y2 - l * (x2 - x1)) by (rewrite El; ring).
          transitivity ((x2 - x1) * (x2 * x2 + x1 * x2 + x1 * x1 + a2 * (x1 + x2) + a4)
            + (a2 + x1 + x2 + x2) * ((x2 - x1) * (x2 - x1))); [unfold dcubic; ring|].
          transitivity (cubic x2 - cubic x1 + l * l * ((x2 - x1) * (x2 - x1))).
          - rewrite Ell. unfold cubic. ring.
          - rewrite <- HP, <- HQ. rewrite Ey1 at 1 2. ring. }
        rewrite Et. replace (- l * - l - a2 - x2 - x2) with x1 by (transitivity (l * l - a2 - x2 - x2); [rewrite Ell|]; ring).
        f_equal. transitivity (y2 - l * (x2 - x1)); [ring|]. rewrite El. ring.
      + rewrite padd_gen by assumption. unfold third.
        assert (Em : (- y2 - (l * (x1 - xs) - y1)) / (x2 - xs) = - l).
        { apply Fdiv_eq_iff; [nz|].
          transitivity (- (y2 - y1) - l * (x1 - xs)); [ring|]. rewrite <- El. ring. }
        rewrite Em. replace (- l * - l - a2 - xs - x2) with x1 by (unfold xs; ring).
        f_equal. ring.
  Qed.

  Lemma padd_opp_cancel P Q : on P -> on Q -> padd (popp Q) (padd Q P) = P.
  Proof.
    intros HP HQ. rewrite padd_comm by (auto using on_popp, on_padd).
    rewrite (padd_comm Q P) by assumption. apply padd_sub; assumption.
  Qed.

  Lemma padd_move P Q R : on P -> on Q -> on R -> padd P Q = R -> P = padd R (popp Q).
  Proof. intros HP HQ HR <-. symmetry. apply padd_sub; assumption. Qed.

  Lemma padd_move_opp P Q R : on P -> on Q -> on R -> padd P (popp Q) = R -> P = padd R Q.
  Proof.
    intros HP HQ HR H. rewrite <- (popp_invol Q). apply padd_move; auto using on_popp.
  Qed.

  Lemma padd_cancel_r P Q R : on P -> on Q -> on R -> padd P R = padd Q R -> P = Q.
  Proof.
    intros HP HQ HR H. rewrite <- (padd_sub P R), <- (padd_sub Q R) by assumption.
    rewrite H. reflexivity.
  Qed.

  Lemma padd_inf_opp P Q : on P -> on Q -> padd P Q = Inf -> Q = popp P.
  Proof.
    intros HP HQ H. rewrite (padd_comm P Q HP HQ) in H.
    rewrite (padd_move Q P Inf HQ HP I H). reflexivity.
  Qed.

  (** ** The three computational cases *)
  Lemma nzs (c D E : K) : D <> 0 -> c <> 0 -> E = D * c -> E <> 0.
  Proof. intros HD Hc ->. apply Fmul_nonzero; assumption. Qed.

  Lemma Fopp_nonzero (c : K) : c <> 0 -> - c <> 0.
  Proof. intros H E. apply H, Fopp_zero, E. Qed.

  Ltac refold :=
    let u := eval cbv beta iota delta [Fadd car] in (@Fadd K) in
    let o := eval cbv beta iota delta [F1 car] in (@F1 K) in
    change u with (@Fadd K); change o with (@F1 K).

  (** linear combinations of hypotheses *)
  Tactic Notation "lin" uconstr(c1) constr(E1) := match type of E1 with ?u1 = ?v1 =>
    apply (proj1 (Fsub_zero K _ _)); transitivity (c1 * (u1 - v1));
    [ring|rewrite (proj2 (Fsub_zero K _ _) E1); ring] end.
  Tactic Notation "lin2" uconstr(c1) constr(E1) uconstr(c2) constr(E2) :=
    match type of E1 with ?u1 = ?v1 => match type of E2 with ?u2 = ?v2 =>
    apply (proj1 (Fsub_zero K _ _)); transitivity (c1 * (u1 - v1) + c2 * (u2 - v2));
    [ring|rewrite (proj2 (Fsub_zero K _ _) E1), (proj2 (Fsub_zero K _ _) E2); ring] end end.
  Tactic Notation "lin3" uconstr(c1) constr(E1) uconstr(c2) constr(E2) uconstr(c3) constr(E3) :=
    match type of E1 with ?u1 = ?v1 =>
    match type of E2 with ?u2 = ?v2 => match type of E3 with ?u3 = ?v3 =>
    apply (proj1 (Fsub_zero K _ _)); transitivity (c1 * (u1 - v1) + c2 * (u2 - v2) + c3 * (u3 - v3));
    [ring|rewrite (proj2 (Fsub_zero K _ _) E1), (proj2 (Fsub_zero K _ _) E2),
            (proj2 (Fsub_zero K _ _) E3); ring] end end end.

  (** The algebraic heart: [l] is the slope through A and B (or the tangent when A = B),
      [m] the slope through B and C, [n] the slope through A+B and C and [k] the slope
      through A and B+C; abscissas are relative to B. *)
  Lemma assoc_core (l m d1 d3 s v y n k : K) :
    (m - l) * (m + l) = d3 + v - d1 - s ->
    2 * y * (m - l) = d1 * s - d3 * v ->
    d3 - s <> 0 -> v - d1 <> 0 ->
    n * (d3 - s) = 2 * y + m * d3 + l * s ->
    k * (v - d1) = - (2 * y + m * v + l * d1) ->
    n * n - k * k = s + d3 - d1 - v /\
    n * (s - (n * n - l * l + d1 - d3)) + y + l * s
    = k * (d1 - (n * n - l * l + d1 - d3)) - y - l * d1.
  Proof.
    intros R1 R2 Na Nb Hn Hk.
    destruct (Feqd m l) as [Eml|Nml].
    - subst m.
      assert (E : (d3 - s) * (d3 - d1) = 0).
      { lin2 (- d3) R1 (- (1)) R2. }
      destruct (Fmul_integral K _ _ E) as [E'|E']; [contradiction|].
      apply (proj1 (Fsub_zero K _ _)) in E'. subst d3.
      assert (v = s) by lin (- (1)) R1. subst v.
      assert (n = k) by (apply (Fcancel_l K (d1 - s)); [assumption|]; lin2 1 Hn 1 Hk). subst k.
      split; [ring|]. lin (- (1)) Hn.
    - assert (Nd : m - l <> 0) by nz.
      assert (En : (m - l) * (n - m) = s - v).
      { apply (Fcancel_l K (d3 - s)); [assumption|]. lin3 (m - l) Hn 1 R2 s R1. }
      assert (Ek : (m - l) * (k + m) = d3 - d1).
      { apply (Fcancel_l K (v - d1)); [assumption|]. lin3 (m - l) Hk (- (1)) R2 (- d1) R1. }
      assert (Enk : n - k = m - l).
      { apply (Fcancel_l K (m - l)); [assumption|]. lin3 1 En (- (1)) Ek (1) R1. }
      split.
      + transitivity ((m - l) * (n + k)); [rewrite <- Enk; ring|]. lin2 1 En 1 Ek.
      + assert (E : k = n - (m - l)) by lin (- (1)) Enk. subst k. clear Enk Ek Hk.
        apply (Fcancel_l K (m - l)); [assumption|].
        lin3 (s - d1 - ((m - l) * (n + m) + s - v)) En (v - (m - l) * (m - l)) R1 1 R2.
  Qed.

  (** the relations of [assoc_core] hold on the curve *)
  Lemma chord_slope (x1 y1 x2 y2 : K) : x1 <> x2 -> (y2 - y1) / (x2 - x1) * (x2 - x1) = y2 - y1.
  Proof. intro. field. nz. Qed.

  Lemma assoc_generic x1 y1 x2 y2 x3 y3 :
    on (Aff x1 y1) -> on (Aff x2 y2) -> on (Aff x3 y3) ->
    x1 <> x2 -> x2 <> x3 ->
    (y2 - y1) / (x2 - x1) * ((y2 - y1) / (x2 - x1)) - a2 - x1 - x2 <> x3 ->
    x1 <> (y3 - y2) / (x3 - x2) * ((y3 - y2) / (x3 - x2)) - a2 - x2 - x3 ->
    padd (padd (Aff x1 y1) (Aff x2 y2)) (Aff x3 y3) = padd (Aff x1 y1) (padd (Aff x2 y2) (Aff x3 y3)).
  Proof.
    unfold on. intros H1 H2 H3 N12 N23 Ns Nt.
    rewrite (padd_gen x1 y1 x2 y2 N12), (padd_gen x2 y2 x3 y3 N23).
    unfold third. cbn zeta. rewrite !padd_gen by assumption. unfold third.
    pose proof (chord_slope x1 y1 x2 y2 N12) as El.
    pose proof (chord_slope x2 y2 x3 y3 N23) as Em.
    set (l := (y2 - y1) / (x2 - x1)) in *. set (m := (y3 - y2) / (x3 - x2)) in *.
    clearbody l m.
    set (xs := l * l - a2 - x1 - x2) in *. set (xt := m * m - a2 - x2 - x3) in *.
    pose proof (chord_slope xs (l * (x1 - xs) - y1) x3 y3 Ns) as En.
    pose proof (chord_slope x1 y1 xt (m * (x2 - xt) - y2) Nt) as Ek.
    set (n := (y3 - (l * (x1 - xs) - y1)) / (x3 - xs)) in *.
    set (k := (m * (x2 - xt) - y2 - y1) / (xt - x1)) in *.
    clearbody n k.
    assert (Es : xs = l * l - a2 - x1 - x2) by reflexivity.
    assert (Et : xt = m * m - a2 - x2 - x3) by reflexivity.
    clearbody xs xt.
    (* y1, y3 and the coefficients a2, a4 are functions of the slopes *)
    assert (E1 : y1 = y2 - l * (x2 - x1)) by (rewrite El; ring).
    assert (E3 : y3 = y2 + m * (x3 - x2)) by (rewrite Em; ring).
    clear El Em. subst y1 y3.
    assert (Ea : a2 = l * l - x1 - x2 - xs) by (rewrite Es; ring). clear Es.
    assert (R1 : (m - l) * (m + l) = (x3 - x2) + (xt - x2) - (x1 - x2) - (xs - x2))
      by (rewrite Et, Ea; ring).
    (* divided differences of the curve equation *)
    assert (C1 : l * (y2 + y2 - l * (x2 - x1)) = x2 * x2 + x1 * x2 + x1 * x1 + a2 * (x1 + x2) + a4).
    { apply (Fcancel_l K (x2 - x1)); [nz|]. unfold cubic in *. lin2 1 H2 (- (1)) H1. }
    assert (C3 : m * (y2 + y2 + m * (x3 - x2)) = x2 * x2 + x3 * x2 + x3 * x3 + a2 * (x3 + x2) + a4).
    { apply (Fcancel_l K (x3 - x2)); [nz|]. unfold cubic in *. lin2 1 H3 (- (1)) H2. }
    clear H1 H2 H3.
    assert (R2 : 2 * y2 * (m - l) = (x1 - x2) * (xs - x2) - (x3 - x2) * (xt - x2)).
    { assert (Ext : xt = m * m - l * l + x1 + xs - x3) by (rewrite Et, Ea; ring).
      rewrite Ext. rewrite Ea in C1, C3. lin2 1 C3 (- (1)) C1. }
    destruct (assoc_core l m (x1 - x2) (x3 - x2) (xs - x2) (xt - x2) y2 n k R1 R2) as [X Y].
    - intro E. apply Ns. apply (proj1 (Fsub_zero K _ _)) in E. symmetry. lin 1 E.
    - intro E. apply Nt. apply (proj1 (Fsub_zero K _ _)) in E. symmetry. lin 1 E.
    - lin 1 En.
    - lin 1 Ek.
    - assert (EX : n * n - a2 - xs - x3 = k * k - a2 - x1 - xt) by lin 1 X.
      rewrite <- EX. f_equal.
      assert (EX' : n * n - a2 - xs - x3 = x2 + (n * n - l * l + (x1 - x2) - (x3 - x2)))
        by (rewrite Ea; ring).
      rewrite EX'. lin 1 Y.
  Qed.

  (** (A + A) + B = A + (A + B), all additions generic *)
  Lemma assoc_dbl_generic x2 y2 x3 y3 :
    on (Aff x2 y2) -> on (Aff x3 y3) ->
    y2 <> 0 -> x2 <> x3 ->
    dcubic x2 / (2 * y2) * (dcubic x2 / (2 * y2)) - a2 - x2 - x2 <> x3 ->
    x2 <> (y3 - y2) / (x3 - x2) * ((y3 - y2) / (x3 - x2)) - a2 - x2 - x3 ->
    padd (padd (Aff x2 y2) (Aff x2 y2)) (Aff x3 y3) = padd (Aff x2 y2) (padd (Aff x2 y2) (Aff x3 y3)).
  Proof.
    unfold on. intros H2 H3 Ny N23 Ns Nt.
    rewrite (padd_dbl x2 y2 Ny), (padd_gen x2 y2 x3 y3 N23).
    unfold third. cbn zeta. rewrite !padd_gen by assumption. unfold third.
    assert (El : dcubic x2 / (2 * y2) * (2 * y2) = dcubic x2) by (field; nz).
    pose proof (chord_slope x2 y2 x3 y3 N23) as Em.
    set (l := dcubic x2 / (2 * y2)) in *. set (m := (y3 - y2) / (x3 - x2)) in *.
    clearbody l m.
    set (xs := l * l - a2 - x2 - x2) in *. set (xt := m * m - a2 - x2 - x3) in *.
    pose proof (chord_slope xs (l * (x2 - xs) - y2) x3 y3 Ns) as En.
    pose proof (chord_slope x2 y2 xt (m * (x2 - xt) - y2) Nt) as Ek.
    set (n := (y3 - (l * (x2 - xs) - y2)) / (x3 - xs)) in *.
    set (k := (m * (x2 - xt) - y2 - y2) / (xt - x2)) in *.
    clearbody n k.
    assert (Es : xs = l * l - a2 - x2 - x2) by reflexivity.
    assert (Et : xt = m * m - a2 - x2 - x3) by reflexivity.
    clearbody xs xt.
    assert (E3 : y3 = y2 + m * (x3 - x2)) by (rewrite Em; ring).
    clear Em. subst y3.
    assert (Ea : a2 = l * l - x2 - x2 - xs) by (rewrite Es; ring). clear Es.
    assert (R1 : (m - l) * (m + l) = (x3 - x2) + (xt - x2) - 0 - (xs - x2))
      by (rewrite Et, Ea; ring).
    assert (C3 : m * (y2 + y2 + m * (x3 - x2)) = x2 * x2 + x3 * x2 + x3 * x3 + a2 * (x3 + x2) + a4).
    { apply (Fcancel_l K (x3 - x2)); [nz|]. unfold cubic in *. lin2 1 H3 (- (1)) H2. }
    clear H2 H3.
    assert (R2 : 2 * y2 * (m - l) = 0 * (xs - x2) - (x3 - x2) * (xt - x2)).
    { assert (Ext : xt = m * m - l * l + x2 + xs - x3) by (rewrite Et, Ea; ring).
      rewrite Ext. unfold dcubic in El. rewrite Ea in El, C3. lin2 1 C3 (- (1)) El. }
    destruct (assoc_core l m 0 (x3 - x2) (xs - x2) (xt - x2) y2 n k R1 R2) as [X Y].
    - intro E. apply Ns. apply (proj1 (Fsub_zero K _ _)) in E. symmetry. lin 1 E.
    - intro E. apply Nt. apply (proj1 (Fsub_zero K _ _)) in E. symmetry. lin 1 E.
    - lin 1 En.
    - lin 1 Ek.
    - assert (EX : n * n - a2 - xs - x3 = k * k - a2 - x2 - xt) by lin 1 X.
      rewrite <- EX. f_equal.
      assert (EX' : n * n - a2 - xs - x3 = x2 + (n * n - l * l + 0 - (x3 - x2)))
        by (rewrite Ea; ring).
      rewrite EX'. lin 1 Y.
  Qed.

  (** (A + A) + (A + A) = A + (A + (A + A)), all additions generic *)
  Lemma assoc_quad_generic x1 y1 x2 y2 x3 y3 :
    on (Aff x1 y1) ->
    y1 <> 0 -> padd (Aff x1 y1) (Aff x1 y1) = Aff x2 y2 -> y2 <> 0 ->
    x1 <> x2 -> padd (Aff x1 y1) (Aff x2 y2) = Aff x3 y3 ->
    x1 <> x3 ->
    padd (Aff x2 y2) (Aff x2 y2) = padd (Aff x1 y1) (Aff x3 y3).
  Proof.
    unfold on. intros H1 Ny E2 Ny2 N12 E3 N13.
    rewrite (padd_dbl x1 y1 Ny) in E2. rewrite (padd_gen x1 y1 x2 y2 N12) in E3.
    rewrite (padd_dbl x2 y2 Ny2), (padd_gen x1 y1 x3 y3 N13).
    unfold third in *. injection E2 as Ex2 Ey2. injection E3 as Ex3 Ey3.
    set (l := dcubic x1 / (2 * y1)) in *.
    assert (El : dcubic x1 = 2 * y1 * l) by (unfold l; field; nz).
    clearbody l. rewrite Ex2 in Ey2. rewrite Ex3 in Ey3.
    subst y2 y3.
    assert (Ea : a2 = l * l - x1 - x1 - x2) by (rewrite <- Ex2; ring).
    assert (Nd : x2 - x1 <> 0) by nz.
    assert (Ed : x2 = x1 + (x2 - x1)) by ring.
    clear Ex2. set (d := x2 - x1) in *. clearbody d. subst x2.
    assert (Nw : l * d + y1 <> 0).
    { intro E. apply Ny2. transitivity (- (l * d + y1)); [ring|]. rewrite E. ring. }
    assert (Edc : dcubic (x1 + d) = 2 * l * (l * d + y1) + d * d).
    { transitivity (dcubic x1 + (2 * a2 + 3 * (x1 + x1 + d)) * d); [unfold dcubic; ring|].
      rewrite El, Ea. ring. }
    assert (Emu : dcubic (x1 + d) / (2 * (l * (x1 - (x1 + d)) - y1))
                  = - l - d * d / (2 * (l * d + y1))).
    { rewrite Edc. field. nz. }
    rewrite Emu. clear Emu Edc El H1.
    assert (Em : (l * (x1 - (x1 + d)) - y1 - y1) / d = - l - 2 * y1 / d) by (field; nz).
    rewrite Em in *. clear Em.
    assert (Ee : x3 = x1 + 2 * 2 * y1 * (l * d + y1) / (d * d)).
    { rewrite <- Ex3, Ea. field. nz. }
    assert (Ne : 2 * 2 * y1 * (l * d + y1) / (d * d) <> 0).
    { intro E. apply N13. rewrite Ee, E. ring. }
    assert (En : ((- l - 2 * y1 / d) * (x1 - x3) - y1 - y1) / (x3 - x1)
                 = l + 2 * y1 / d - d * d / (2 * (l * d + y1))).
    { rewrite Ee. replace (x1 + 2 * 2 * y1 * (l * d + y1) / (d * d) - x1)
        with (2 * 2 * y1 * (l * d + y1) / (d * d)) by (field; nz). field. nz; exact (Fmul_nonzero K _ _ two two). }
    rewrite En. clear En Ex3. rewrite Ee, Ea. clear - Nd Nw two.
    f_equal; field; nz.
  Qed.

  (** ** Full associativity *)
  Lemma padd_opp_l P : padd (popp P) P = Inf.
  Proof. rewrite <- (popp_invol P) at 2. apply padd_opp_r. Qed.

  Lemma gen_neq x1 y1 x2 y2 : on (Aff x1 y1) -> on (Aff x2 y2) ->
    Aff x1 y1 <> Aff x2 y2 -> Aff x1 y1 <> popp (Aff x2 y2) -> x1 <> x2.
  Proof.
    intros H1 H2 N1 N2 E. subst x2. destruct (same_x _ _ _ H1 H2) as [E|E]; subst y1.
    - apply N1. reflexivity.
    - apply N2. reflexivity.
  Qed.

  Lemma dbl_neq x y : Aff x y <> popp (Aff x y) -> y <> 0.
  Proof. intros N E. apply N. cbn. rewrite E. f_equal. ring. Qed.

  Lemma padd_sub_opp P Q : on P -> on Q -> padd (padd P (popp Q)) Q = P.
  Proof.
    intros HP HQ. rewrite <- (popp_invol Q) at 2. apply padd_sub; auto using on_popp.
  Qed.

  Lemma two_opp A : on A -> padd A (padd (popp A) (popp A)) = popp A.
  Proof.
    intro HA. rewrite padd_comm by (auto using on_popp, on_padd).
    apply padd_sub_opp; auto using on_popp.
  Qed.

  (** 2A + 2A = A + (A + 2A) *)
  Lemma assoc_quad A : on A ->
    padd (padd A A) (padd A A) = padd A (padd A (padd A A)).
  Proof.
    intro HA. pose proof (on_padd A A HA HA) as H2.
    pose proof (on_padd A _ HA H2) as H3.
    destruct (pt_eqd A (popp A)) as [E|N].
    { assert (E2 : padd A A = Inf) by (etransitivity; [exact (f_equal (padd A) E)|apply padd_opp_r]).
      rewrite E2, !padd_inf_r, E2. reflexivity. }
    destruct (pt_eqd (padd A A) (popp (padd A A))) as [E|N2].
    { transitivity Inf; [etransitivity; [exact (f_equal (padd (padd A A)) E)|apply padd_opp_r]|].
      (* A + (A + 2A) = A + (A - 2A) = A - A *)
      rewrite E, popp_padd, two_opp, padd_opp_r by assumption. reflexivity. }
    destruct (pt_eqd A (padd A A)) as [E|N12].
    { symmetry in E. apply padd_neutral_unique in E; [|assumption|assumption]. subst A. reflexivity. }
    destruct (pt_eqd A (popp (padd A A))) as [E|N12'].
    { assert (E2 : padd A A = popp A) by (rewrite <- (popp_invol (padd A A)), <- E; reflexivity).
      rewrite E2. rewrite padd_opp_r. rewrite padd_inf_r.
      rewrite <- popp_padd by assumption. rewrite E2. apply popp_invol. }
    destruct (pt_eqd A (padd A (padd A A))) as [E|N13].
    { symmetry in E. apply padd_neutral_unique in E; [|assumption|assumption].
      exfalso. apply padd_inf_opp in E; auto. }
    destruct (pt_eqd A (popp (padd A (padd A A)))) as [E|N13'].
    { exfalso. apply N2. 
      assert (E3 : padd (padd A A) A = popp A).
      { rewrite padd_comm by assumption. rewrite <- (popp_invol (padd A (padd A A))), <- E. reflexivity. }
      apply padd_move in E3; auto using on_popp.
      rewrite popp_padd by assumption. exact E3. }
    destruct A as [|x1 y1]; [contradiction (N eq_refl)|].
    destruct (padd (Aff x1 y1) (Aff x1 y1)) as [|x2 y2] eqn:E2; [contradiction (N2 eq_refl)|].
    destruct (padd (Aff x1 y1) (Aff x2 y2)) as [|x3 y3] eqn:E3.
    { exfalso. apply padd_inf_opp in E3; auto. apply N12'. rewrite E3, popp_invol. reflexivity. }
    apply assoc_quad_generic; try assumption;
      solve [eapply dbl_neq; eassumption | eapply gen_neq; eassumption].
  Qed.

  (** 2A + B = A + (A + B) *)
  Lemma assoc_dbl A B : on A -> on B -> padd (padd A A) B = padd A (padd A B).
  Proof.
    intros HA HB. pose proof (on_padd A A HA HA) as H2.
    pose proof (on_padd A B HA HB) as HAB.
    destruct (pt_eqd A Inf) as [->|NA]; [reflexivity|].
    destruct (pt_eqd B Inf) as [->|NB]; [rewrite !padd_inf_r; reflexivity|].
    destruct (pt_eqd A (popp A)) as [E|N].
    { assert (E2 : padd A A = Inf) by (etransitivity; [exact (f_equal (padd A) E)|apply padd_opp_r]).
      rewrite E2. symmetry. transitivity (padd (popp A) (padd A B)); [rewrite <- E; reflexivity|].
      apply padd_opp_cancel; assumption. }
    destruct (pt_eqd A B) as [<-|N1]. { apply padd_comm; assumption. }
    destruct (pt_eqd A (popp B)) as [E|N1'].
    { assert (E' : B = popp A) by (rewrite E, popp_invol; reflexivity). subst B.
      rewrite padd_sub, padd_opp_r, padd_inf_r by assumption. reflexivity. }
    destruct (pt_eqd (padd A A) B) as [<-|N2]. { apply assoc_quad, HA. }
    destruct (pt_eqd (padd A A) (popp B)) as [E|N2'].
    { (* B = -2A *)
      assert (E' : B = popp (padd A A)) by (rewrite E, popp_invol; reflexivity). subst B.
      rewrite padd_opp_r, popp_padd, two_opp, padd_opp_r by assumption. reflexivity. }
    destruct (pt_eqd A (padd A B)) as [E|N3].
    { symmetry in E. apply padd_neutral_unique in E; auto. contradiction. }
    destruct (pt_eqd A (popp (padd A B))) as [E|N3'].
    { exfalso. apply N2'.
      assert (E3 : padd B A = popp A).
      { rewrite padd_comm by assumption. rewrite <- (popp_invol (padd A B)), <- E. reflexivity. }
      apply padd_move in E3; auto using on_popp.
      rewrite E3, popp_padd, popp_invol by (auto using on_popp). reflexivity. }
    destruct A as [|x1 y1]; [congruence|]. destruct B as [|x2 y2]; [congruence|].
    pose proof (dbl_neq _ _ N) as Ny. pose proof (gen_neq _ _ _ _ HA HB N1 N1') as Nx.
    apply assoc_dbl_generic; try assumption.
    - rewrite padd_dbl in * by assumption. unfold third in *. cbn zeta in *.
      eapply gen_neq; eassumption.
    - rewrite padd_gen in * by assumption. unfold third in *. cbn zeta in *.
      eapply gen_neq; eassumption.
  Qed.

  Lemma assoc_dbl_r A B : on A -> on B -> padd (padd B A) A = padd B (padd A A).
  Proof.
    intros HA HB. rewrite (padd_comm B A), (padd_comm (padd A B) A) by auto using on_padd.
    rewrite <- assoc_dbl by assumption. apply padd_comm; auto using on_padd.
  Qed.

  Theorem padd_assoc A B C : on A -> on B -> on C ->
    padd (padd A B) C = padd A (padd B C).
  Proof.
    intros HA HB HC.
    pose proof (on_padd A B HA HB) as HAB. pose proof (on_padd B C HB HC) as HBC.
    destruct (pt_eqd A Inf) as [->|NA]; [reflexivity|].
    destruct (pt_eqd B Inf) as [->|NB]; [rewrite padd_inf_r; reflexivity|].
    destruct (pt_eqd C Inf) as [->|NC]; [rewrite !padd_inf_r; reflexivity|].
    destruct (pt_eqd A B) as [<-|N1]. { apply assoc_dbl; assumption. }
    destruct (pt_eqd A (popp B)) as [E|N1'].
    { subst A. rewrite padd_opp_l, padd_opp_cancel by assumption. reflexivity. }
    destruct (pt_eqd B C) as [<-|N2]. { apply assoc_dbl_r; assumption. }
    destruct (pt_eqd B (popp C)) as [E|N2'].
    { assert (E' : C = popp B) by (rewrite E, popp_invol; reflexivity). subst C.
      rewrite padd_sub, padd_opp_r, padd_inf_r by assumption. reflexivity. }
    destruct (pt_eqd (padd A B) (popp C)) as [E|N3'].
    { rewrite E, padd_opp_l.
      apply padd_move in E; auto using on_popp.
      rewrite E, <- popp_padd, (padd_comm C B), padd_opp_l by assumption. reflexivity. }
    destruct (pt_eqd A (popp (padd B C))) as [E|N4'].
    { transitivity Inf; [|rewrite E, padd_opp_l; reflexivity]. rewrite E.
      rewrite popp_padd by assumption.
      rewrite (padd_comm (popp B) (popp C)) by auto using on_popp.
      rewrite padd_sub_opp by auto using on_popp.
      apply padd_opp_l. }
    destruct (pt_eqd (padd A B) C) as [E|N3].
    { (* A = C - B, so A + (B + C) = ... *)
      subst C. set (C := padd A B) in *.
      assert (EB : B = padd C (popp A)).
      { unfold C. rewrite (padd_comm A B HA HB). symmetry. apply padd_sub; assumption. }
      assert (E1 : padd (padd C C) (popp A) = padd B C).
      { rewrite assoc_dbl by (auto using on_popp). rewrite <- EB. apply padd_comm; assumption. }
      apply padd_move_opp in E1; auto using on_padd.
      rewrite E1. apply padd_comm; assumption. }
    destruct (pt_eqd A (padd B C)) as [E|N4].
    { subst A. set (A := padd B C) in *.
      assert (EB : B = padd A (popp C)) by (symmetry; apply padd_sub; assumption).
      assert (E1 : padd (padd A A) (popp C) = padd A B).
      { rewrite assoc_dbl by (auto using on_popp). rewrite <- EB. reflexivity. }
      apply padd_move_opp in E1; auto using on_padd. }
    destruct A as [|x1 y1]; [congruence|]. destruct B as [|x2 y2]; [congruence|].
    destruct C as [|x3 y3]; [congruence|].
    pose proof (gen_neq _ _ _ _ HA HB N1 N1') as Nx12.
    pose proof (gen_neq _ _ _ _ HB HC N2 N2') as Nx23.
    apply assoc_generic; try assumption.
    - rewrite (padd_gen x1 y1 x2 y2) in * by assumption. unfold third in HAB, N3, N3'. cbn zeta in *.
      exact (gen_neq _ _ _ _ HAB HC N3 N3').
    - rewrite (padd_gen x2 y2 x3 y3) in * by assumption. unfold third in HBC, N4, N4'. cbn zeta in *.
      exact (gen_neq _ _ _ _ HA HBC N4 N4').
  Qed.
End EC.
