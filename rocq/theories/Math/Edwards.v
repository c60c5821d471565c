(** Twisted Edwards curves a x^2 + y^2 = 1 + d x^2 y^2 with a a non-zero square and d not a
    square: the addition law is defined everywhere and makes the points an abelian group. *)
From Coq Require Import Ring Field Setoid.
From Verif.Math Require Import Fld.

Section Ed.
  Variable K : Fld.
  Add Field KF : (Fth K).
  Open Scope fld_scope.
  Variables a d : K.
  Hypothesis two : (2 : K) <> 0.
  Hypothesis a_sq : exists s : K, s * s = a.
  Hypothesis a_nz : a <> 0.
  Hypothesis d_nonsq : forall s : K, s * s <> d.

  Definition eon (P : K * K) : Prop :=
    let (x, y) := P in a * (x * x) + y * y = 1 + d * (x * x) * (y * y).
  Definition exy (P Q : K * K) : K := fst P * fst Q * (snd P * snd Q).
  Definition eadd (P Q : K * K) : K * K :=
    ((fst P * snd Q + snd P * fst Q) / (1 + d * exy P Q),
     (snd P * snd Q - a * (fst P * fst Q)) / (1 - d * exy P Q)).
  Definition eopp (P : K * K) : K * K := (- fst P, snd P).
  Definition ezero : K * K := (0, 1).

  Lemma sq_ratio (u v : K) : v <> 0 -> u * u = d * (v * v) -> False.
  Proof.
    intros Hv H. apply (d_nonsq (u / v)). transitivity (u * u / (v * v)); [field; exact Hv|].
    rewrite H. field. exact Hv.
  Qed.

  (** completeness *)
  Lemma no_unit P Q e : eon P -> eon Q -> e * e = 1 -> d * exy P Q <> e.
  Proof.
    destruct P as [x1 y1], Q as [x2 y2]. unfold eon, exy. cbn [fst snd]. intros H1 H2 He E.
    destruct a_sq as [s Hs].
    assert (E0 : e <> 0) by (intro Z; apply (F_1_neq_0 K); rewrite <- He, Z; ring).
    assert (N1 : x1 * y1 <> 0) by (intro Z; apply E0; rewrite <- E; transitivity (d * ((x1 * y1) * (x2 * y2))); [ring|rewrite Z; ring]).
    assert (N2 : x2 * y2 <> 0) by (intro Z; apply E0; rewrite <- E; transitivity (d * ((x1 * y1) * (x2 * y2))); [ring|rewrite Z; ring]).
    assert (Sq : d * (d * (x1 * x1) * (y1 * y1)) * ((x2 * x2) * (y2 * y2)) = 1).
    { rewrite <- He, <- E. ring. }
    assert (B : a * (x1 * x1) + y1 * y1 = d * (x1 * x1) * (y1 * y1) * (a * (x2 * x2) + y2 * y2)).
    { rewrite H1, H2. transitivity (d * (x1 * x1) * (y1 * y1) + d * (d * (x1 * x1) * (y1 * y1)) * ((x2 * x2) * (y2 * y2)));
        [rewrite Sq; ring|ring]. }
    assert (P1 : (s * x1 + e * y1) * (s * x1 + e * y1) = d * (((x1 * y1) * (s * x2 + y2)) * ((x1 * y1) * (s * x2 + y2)))).
    { transitivity (s * s * (x1 * x1) + (e * e) * (y1 * y1) + 2 * e * s * (x1 * y1)); [ring|].
      rewrite He, Hs. transitivity (a * (x1 * x1) + y1 * y1 + 2 * e * s * (x1 * y1)); [ring|].
      rewrite B, <- E, <- Hs. ring. }
    assert (P2 : (s * x1 - e * y1) * (s * x1 - e * y1) = d * (((x1 * y1) * (s * x2 - y2)) * ((x1 * y1) * (s * x2 - y2)))).
    { transitivity (s * s * (x1 * x1) + (e * e) * (y1 * y1) - 2 * e * s * (x1 * y1)); [ring|].
      rewrite He, Hs. transitivity (a * (x1 * x1) + y1 * y1 - 2 * e * s * (x1 * y1)); [ring|].
      rewrite B, <- E, <- Hs. ring. }
    destruct (Feqd (s * x2 + y2) 0) as [A|A].
    - destruct (Feqd (s * x2 - y2) 0) as [A'|A'].
      + apply N2. assert (Y : 2 * y2 = 0) by (transitivity (s * x2 + y2 - (s * x2 - y2)); [ring|rewrite A, A'; ring]).
        destruct (Fmul_integral K _ _ Y) as [|Z]; [contradiction|]. rewrite Z. ring.
      + apply (sq_ratio _ _ (Fmul_nonzero K _ _ N1 A') P2).
    - apply (sq_ratio _ _ (Fmul_nonzero K _ _ N1 A) P1).
  Qed.
  Lemma den_plus P Q : eon P -> eon Q -> 1 + d * exy P Q <> 0.
  Proof.
    intros HP HQ E. apply (no_unit P Q (- (1)) HP HQ); [ring|].
    transitivity (1 + d * exy P Q - 1); [ring|]. rewrite E. ring.
  Qed.
  Lemma den_minus P Q : eon P -> eon Q -> 1 - d * exy P Q <> 0.
  Proof.
    intros HP HQ E. apply (no_unit P Q 1 HP HQ); [ring|].
    transitivity (1 - (1 - d * exy P Q)); [ring|]. rewrite E. ring.
  Qed.
  Lemma dx_nz (x : K) : 1 - d * (x * x) <> 0.
  Proof.
    intro E. destruct (Feqd x 0) as [->|Hx].
    - apply (F_1_neq_0 K). rewrite <- E. ring.
    - apply (sq_ratio 1 x Hx). transitivity (1 - (1 - d * (x * x))); [rewrite E; ring|ring].
  Qed.
  Lemma y_sq (x y : K) : eon (x, y) -> y * y = (1 - a * (x * x)) / (1 - d * (x * x)).
  Proof.
    cbn. intro H. pose proof (dx_nz x) as N. symmetry. apply (Fdiv_eq_iff K); [exact N|].
    transitivity (a * (x * x) + y * y - d * (x * x) * (y * y) - a * (x * x)); [rewrite H|]; ring.
  Qed.

  (** [field_simplify_eq] leaves unfolded record projections *)
  Ltac refold :=
    let u := eval cbv beta iota delta [Fadd car] in (@Fadd K) in
    let o := eval cbv beta iota delta [F1 car] in (@F1 K) in
    let m := eval cbv beta iota delta [Fmul car] in (@Fmul K) in
    change u with (@Fadd K); change o with (@F1 K); change m with (@Fmul K).

  Lemma eon_add P Q : eon P -> eon Q -> eon (eadd P Q).
  Proof.
    intros HP HQ. pose proof (den_plus P Q HP HQ) as N1. pose proof (den_minus P Q HP HQ) as N2.
    destruct P as [x1 y1], Q as [x2 y2]. unfold exy, eadd in *. cbn [fst snd] in *.
    pose proof (dx_nz x1) as D1. pose proof (dx_nz x2) as D2.
    apply y_sq in HP, HQ. unfold exy. cbn [fst snd].
    unfold eon.
    remember ((1 - a * (x1 * x1)) / (1 - d * (x1 * x1))) as w1 eqn:W1.
    remember ((1 - a * (x2 * x2)) / (1 - d * (x2 * x2))) as w2 eqn:W2.
    field_simplify_eq [HP HQ]; [|repeat split; assumption].
    refold. rewrite W1, W2. field. repeat split; assumption.
  Qed.

  Lemma eadd_comm P Q : eadd P Q = eadd Q P.
  Proof.
    unfold eadd. replace (exy Q P) with (exy P Q) by (unfold exy; ring). f_equal; f_equal; ring.
  Qed.
  Lemma eadd_zero P : eadd P ezero = P.
  Proof.
    destruct P as [x y]. unfold eadd, exy, ezero. cbn [fst snd].
    replace (1 + d * (x * 0 * (y * 1))) with (1 : K) by ring.
    replace (1 - d * (x * 0 * (y * 1))) with (1 : K) by ring.
    f_equal; field; apply (F_1_neq_0 K).
  Qed.
  Lemma eon_zero : eon ezero.
  Proof. cbn. ring. Qed.
  Lemma eon_opp P : eon P -> eon (eopp P).
  Proof. destruct P as [x y]. cbn. intro H. transitivity (a * (x * x) + y * y); [ring|]. rewrite H. ring. Qed.
  Lemma eadd_opp P : eon P -> eadd P (eopp P) = ezero.
  Proof.
    intro H. pose proof (den_plus P _ H (eon_opp P H)) as N1. pose proof (den_minus P _ H (eon_opp P H)) as N2.
    destruct P as [x y]. unfold eadd, eopp, exy, ezero in *. cbn [fst snd] in *. cbn in H. f_equal.
    - field. exact N1.
    - apply (Fdiv_eq_iff K); [exact N2|]. transitivity (a * (x * x) + y * y); [ring|]. rewrite H. ring.
  Qed.
  Lemma lift_plus (u v n m : K) : u <> 0 -> v <> 0 -> 1 + d * (n / u * (m / v)) <> 0 -> u * v + d * (n * m) <> 0.
  Proof.
    intros Hu Hv H E. apply H. transitivity ((u * v + d * (n * m)) / (u * v)); [field; split; assumption|].
    rewrite E. field. split; assumption.
  Qed.
  Lemma lift_minus (u v n m : K) : u <> 0 -> v <> 0 -> 1 - d * (n / u * (m / v)) <> 0 -> u * v - d * (n * m) <> 0.
  Proof.
    intros Hu Hv H E. apply H. transitivity ((u * v - d * (n * m)) / (u * v)); [field; split; assumption|].
    rewrite E. field. split; assumption.
  Qed.
  Lemma eadd_assoc P Q R : eon P -> eon Q -> eon R -> eadd (eadd P Q) R = eadd P (eadd Q R).
  Proof.
    intros HP HQ HR.
    pose proof (den_plus P Q HP HQ) as N1. pose proof (den_minus P Q HP HQ) as N2.
    pose proof (den_plus Q R HQ HR) as N3. pose proof (den_minus Q R HQ HR) as N4.
    pose proof (den_plus _ R (eon_add P Q HP HQ) HR) as N5. pose proof (den_minus _ R (eon_add P Q HP HQ) HR) as N6.
    pose proof (den_plus P _ HP (eon_add Q R HQ HR)) as N7. pose proof (den_minus P _ HP (eon_add Q R HQ HR)) as N8.
    destruct P as [x1 y1], Q as [x2 y2], R as [x3 y3]. unfold eadd, exy in *. cbn [fst snd] in *.
    pose proof (dx_nz x1) as D1. pose proof (dx_nz x2) as D2. pose proof (dx_nz x3) as D3.
    apply y_sq in HP, HQ, HR.
    remember ((1 - a * (x1 * x1)) / (1 - d * (x1 * x1))) as w1 eqn:W1.
    remember ((1 - a * (x2 * x2)) / (1 - d * (x2 * x2))) as w2 eqn:W2.
    remember ((1 - a * (x3 * x3)) / (1 - d * (x3 * x3))) as w3 eqn:W3.
    f_equal.
    - assert (A : (1 + d * (x1 * x2 * (y1 * y2))) * (1 - d * (x1 * x2 * (y1 * y2)))
           + d * ((x1 * y2 + y1 * x2) * x3 * ((y1 * y2 - a * (x1 * x2)) * y3)) <> 0).
      { apply lift_plus; [exact N1|exact N2|]. intro E. apply N5. rewrite <- E. field. split; assumption. }
      assert (B : (1 + d * (x2 * x3 * (y2 * y3))) * (1 - d * (x2 * x3 * (y2 * y3)))
           + d * (x1 * (x2 * y3 + y2 * x3) * (y1 * (y2 * y3 - a * (x2 * x3)))) <> 0).
      { apply lift_plus; [exact N3|exact N4|]. intro E. apply N7. rewrite <- E. field. split; assumption. }
      clear N5 N6 N7 N8.
      field_simplify_eq [HP HQ HR]; [|repeat split; assumption].
      refold. rewrite W1, W2, W3. field. repeat split; assumption.
    - assert (A : (1 + d * (x1 * x2 * (y1 * y2))) * (1 - d * (x1 * x2 * (y1 * y2)))
           - d * ((x1 * y2 + y1 * x2) * x3 * ((y1 * y2 - a * (x1 * x2)) * y3)) <> 0).
      { apply lift_minus; [exact N1|exact N2|]. intro E. apply N6. rewrite <- E. field. split; assumption. }
      assert (B : (1 + d * (x2 * x3 * (y2 * y3))) * (1 - d * (x2 * x3 * (y2 * y3)))
           - d * (x1 * (x2 * y3 + y2 * x3) * (y1 * (y2 * y3 - a * (x2 * x3)))) <> 0).
      { apply lift_minus; [exact N3|exact N4|]. intro E. apply N8. rewrite <- E. field. split; assumption. }
      clear N5 N6 N7 N8.
      field_simplify_eq [HP HQ HR]; [|repeat split; assumption].
      refold. rewrite W1, W2, W3. field. repeat split; assumption.
  Qed.
End Ed.
