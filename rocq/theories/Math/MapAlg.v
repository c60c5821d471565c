(** The algebra behind the maps from field elements to curves: the simplified SWU map, the
    Shallue-van de Woestijne map and Elligator 2, over any field in which the product of two non-squares
    is a square. *)
From Coq Require Import Ring Field.
From Verif.Math Require Import Fld.

Section Maps.
  Variable K : Fld.
  Add Field KFm : (Fth K).
  Open Scope fld_scope.
  Definition sq (x : K) : Prop := exists s, s * s = x.
  Hypothesis NN : forall x y, ~ sq x -> ~ sq y -> sq (x * y).
  Hypothesis sq_dec : forall x, {sq x} + {~ sq x}.

  Lemma sq_mul x y : sq x -> sq y -> sq (x * y).
  Proof. intros [s <-] [t <-]. exists (s * t). ring. Qed.
  Lemma sq_0 : sq 0. Proof. exists 0. ring. Qed.
  Lemma sq_cancel x s : s <> 0 -> sq (x * (s * s)) -> sq x.
  Proof. intros N [t E]. exists (t / s). transitivity ((t * t) / (s * s)); [field; exact N|]. rewrite E. field. exact N. Qed.
  Lemma Finv_zero (x : K) : x <> 0 -> Finv x <> 0.
  Proof. intros N E. apply (F_1_neq_0 K). transitivity (x * Finv x); [field; exact N|]. rewrite E. ring. Qed.

  Variables A B : K.
  Definition g (x : K) : K := (x * x + A) * x + B.

  (** *** simplified SWU *)
  Section Sswu.
    Variable Z : K.
    Hypotheses (A_nz : A <> 0) (Z_nonsq : ~ sq Z).
    Definition sw_t (u : K) : K := Z * (u * u).
    Definition sw_n (u : K) : K := sw_t u + sw_t u * sw_t u.
    Definition sw_c1 : K := - B * Finv A.
    Definition sw_c2 : K := - Finv Z.
    Definition sw_x1 (u : K) : K := (if Feqd (sw_n u) 0 then sw_c2 else Finv (sw_n u) + 1) * sw_c1.
    Lemma Z_nz : Z <> 0. Proof. intro E. apply Z_nonsq. rewrite E. apply sq_0. Qed.
    Lemma sw_x1_exc u : sw_n u = 0 -> sw_x1 u * Z * A = B.
    Proof. intro H. unfold sw_x1, sw_c1, sw_c2. destruct (Feqd (sw_n u) 0); [|contradiction]. field. split; [exact A_nz|exact Z_nz]. Qed.
    Lemma sw_x1_gen u : sw_n u <> 0 -> sw_x1 u * A * sw_n u = - B * (sw_n u + 1).
    Proof. intro H. unfold sw_x1, sw_c1. destruct (Feqd (sw_n u) 0); [contradiction|]. field. split; assumption. Qed.
    (** g(t x1) = t^3 g(x1) *)
    Lemma sw_second (t x1 : K) : t <> 0 -> x1 * A * (t + t * t) = - B * (t + t * t + 1) -> g (t * x1) = g x1 * (t * (t * t)).
    Proof.
      intros N H. unfold g. apply (proj1 (Fsub_zero K _ _)).
      transitivity ((1 - t) * (x1 * A * (t + t * t) - - B * (t + t * t + 1))); [ring|]. rewrite H. ring.
    Qed.
    (** when x1 is not the abscissa of a point, t x1 is *)
    Lemma sw_other u : sq (g (sw_x1 u)) \/
      (sw_n u <> 0 /\ sq (g (sw_t u * sw_x1 u)) /\ g (sw_t u * sw_x1 u) = g (sw_x1 u) * (sw_t u * (sw_t u * sw_t u)))
      \/ sw_n u = 0.
    Proof.
      destruct (sq_dec (g (sw_x1 u))) as [S|S]; [left; exact S|right].
      destruct (Feqd (sw_n u) 0) as [E|N]; [right; exact E|left]. split; [exact N|].
      assert (Nt : sw_t u <> 0). { intro E. apply N. unfold sw_n. rewrite E. ring. }
      pose proof (sw_second _ _ Nt (sw_x1_gen u N)) as E. split; [|exact E].
      rewrite E. assert (Nu : u <> 0). { intro H. apply Nt. unfold sw_t. rewrite H. ring. }
      apply (sq_cancel _ (Finv (u * sw_t u))). { apply Finv_zero, Fmul_nonzero; assumption. }
      destruct (NN _ _ S Z_nonsq) as [s Es]. exists s. rewrite Es. unfold sw_t in *. field. split; [exact Nu|exact Z_nz].
    Qed.
    (** the congruences that characterise x1 *)
    Lemma sw_x1_iff u x1 : let t := Z * (u * u) in let n := t * t + t in
      ((n = 0 -> x1 * (Z * A) - B = 0) /\ (n <> 0 -> x1 * (A * n) + B * (n + 1) = 0)) <-> x1 = sw_x1 u.
    Proof.
      intros t n. assert (En : n = sw_n u) by (unfold n, t, sw_n, sw_t; ring). rewrite En. clear En n t.
      destruct (Feqd (sw_n u) 0) as [E|N].
      - pose proof (sw_x1_exc u E) as H. split.
        + intros [H1 _]. specialize (H1 E). apply (Fcancel_l K (Z * A)); [apply Fmul_nonzero; [apply Z_nz|exact A_nz]|].
          apply (proj1 (Fsub_zero K _ _)). transitivity ((x1 * (Z * A) - B) - (sw_x1 u * Z * A - B)); [ring|]. rewrite H1, H. ring.
        + intros ->. split; [intros _|intro; contradiction]. transitivity (sw_x1 u * Z * A - B); [ring|]. rewrite H. ring.
      - pose proof (sw_x1_gen u N) as H. split.
        + intros [_ H1]. specialize (H1 N). apply (Fcancel_l K (A * sw_n u)); [apply Fmul_nonzero; assumption|].
          apply (proj1 (Fsub_zero K _ _)). transitivity ((x1 * (A * sw_n u) + B * (sw_n u + 1)) - (sw_x1 u * A * sw_n u - - B * (sw_n u + 1))); [ring|].
          rewrite H1, H. ring.
        + intros ->. split; [intro; contradiction|intros _]. transitivity (sw_x1 u * A * sw_n u - - B * (sw_n u + 1)); [ring|]. rewrite H. ring.
    Qed.
  End Sswu.

  (** *** Shallue-van de Woestijne *)
  Section Svdw.
    Variables (Z c3 : K).
    Hypotheses (two : (1 + 1 : K) <> 0).
    Definition sv_h : K := 3 * (Z * Z) + (1 + 1) * (1 + 1) * A.
    Hypotheses (gZ : g Z <> 0) (h_nz : sv_h <> 0) (c3_sq : c3 * c3 = - g Z * sv_h) (c4_sq : sq (- sv_h * Finv ((1 + 1) * (1 + 1) * g Z))).
    (** Skalba's identity: g(v) g(-Z-v) g(Z+w) is w N^2 ((Z+w-v)(2Z+v+w))^2 where w N = -g(Z) *)
    Lemma skalba (v w : K) : w * (v * v + Z * v + Z * Z + A) = - g Z ->
      g v * g (- Z - v) * g (Z + w) = w * ((v * v + Z * v + Z * Z + A) * (Z + w - v) * (2 * Z + v + w)
                                        * ((v * v + Z * v + Z * Z + A) * (Z + w - v) * (2 * Z + v + w))).
    Proof.
      set (N := v * v + Z * v + Z * Z + A). intro H.
      assert (E1 : g v = N * (v - Z - w)). { transitivity (g Z + (v - Z) * N); [unfold g, N; ring|]. transitivity (- - g Z + (v - Z) * N); [ring|]. rewrite <- H. ring. }
      assert (E2 : g (- Z - v) = N * (- (2) * Z - v - w)). { transitivity (g Z + (- (2) * Z - v) * N); [unfold g, N; ring|]. transitivity (- - g Z + (- (2) * Z - v) * N); [ring|]. rewrite <- H. ring. }
      assert (E3 : g (Z + w) = w * ((Z + w - v) * (2 * Z + w + v))).
      { transitivity (g Z + w * ((Z + w - v) * (2 * Z + w + v) + N)); [unfold g, N; ring|].
        transitivity (- - g Z + w * ((Z + w - v) * (2 * Z + w + v) + N)); [ring|]. rewrite <- H. ring. }
      rewrite E1, E2, E3. ring.
    Qed.
    Definition sv_t (u : K) : K := u * u * g Z.
    Definition sv_d (u : K) : K := (1 - sv_t u) * (1 + sv_t u).
    Definition sv_i (u : K) : K := if Feqd (sv_d u) 0 then 0 else Finv (sv_d u).
    Definition sv_t4 (u : K) : K := u * (1 - sv_t u) * sv_i u * c3.
    Definition sk_c2 : K := - Z * Finv (1 + 1).
    Definition sk_c4 : K := (1 + 1) * (1 + 1) * - g Z * Finv sv_h.
    Definition sv_x1 (u : K) : K := sk_c2 - sv_t4 u.
    Definition sv_x2 (u : K) : K := sk_c2 + sv_t4 u.
    Definition sv_w (u : K) : K := (1 + sv_t u) * (1 + sv_t u) * sv_i u.
    Definition sv_x3 (u : K) : K := sv_w u * sv_w u * sk_c4 + Z.

    Lemma sv_d_nz u : sv_d u <> 0 -> 1 - sv_t u <> 0 /\ 1 + sv_t u <> 0.
    Proof. intro N. split; intro E; apply N; unfold sv_d; rewrite E; ring. Qed.
    Lemma sv_x1_gen u : sv_d u <> 0 -> 2 * sv_x1 u * (1 + sv_t u) = - Z * (1 + sv_t u) - 2 * u * c3.
    Proof.
      intro N. destruct (sv_d_nz u N) as [N1 N2]. unfold sv_x1, sv_t4, sk_c2, sv_i. destruct (Feqd (sv_d u) 0); [contradiction|].
      unfold sv_d. field. split; [exact N2|]. split; [exact N1|exact two].
    Qed.
    Lemma sv_x1_exc u : sv_d u = 0 -> 2 * sv_x1 u = - Z.
    Proof.
      intro N. unfold sv_x1, sv_t4, sk_c2, sv_i. destruct (Feqd (sv_d u) 0); [|contradiction]. field. exact two.
    Qed.
    Lemma sv_x2_x1 u : sv_x2 u = - Z - sv_x1 u.
    Proof. unfold sv_x1, sv_x2, sk_c2. field. exact two. Qed.
    Lemma sv_x3_gen u : sv_d u <> 0 -> (sv_x3 u - Z) * sv_h * ((1 - sv_t u) * (1 - sv_t u)) = - ((1 + 1) * (1 + 1)) * g Z * ((1 + sv_t u) * (1 + sv_t u)).
    Proof.
      intro N. destruct (sv_d_nz u N) as [N1 N2]. unfold sv_x3, sv_w, sk_c4, sv_i. destruct (Feqd (sv_d u) 0); [contradiction|].
      unfold sv_d. field. split; [exact h_nz|]. split; [exact N2|exact N1].
    Qed.
    Lemma sv_x3_exc u : sv_d u = 0 -> sv_x3 u = Z.
    Proof. intro N. unfold sv_x3, sv_w, sv_i. destruct (Feqd (sv_d u) 0); [|contradiction]. ring. Qed.

    Lemma four_nz : (1 + 1) * (1 + 1) <> (0 : K). Proof. apply Fmul_nonzero; exact two. Qed.
    Lemma c4_is_sq : sq sk_c4 /\ sk_c4 <> 0.
    Proof.
      assert (N : sk_c4 <> 0).
      { unfold sk_c4. apply Fmul_nonzero; [|apply Finv_zero, h_nz]. apply Fmul_nonzero; [apply four_nz|].
        intro E. apply gZ. transitivity (- - g Z); [ring|]. rewrite E. ring. }
      split; [|exact N]. apply (sq_cancel _ (Finv sk_c4)); [apply Finv_zero, N|].
      destruct c4_sq as [s Es]. exists s. rewrite Es. revert N. unfold sk_c4. intro N. field.
      assert (NG : - g Z <> 0) by (intro E; apply gZ; transitivity (- - g Z); [ring|]; rewrite E; ring). repeat split; first [exact two|exact gZ|exact h_nz|exact NG|apply four_nz].
    Qed.
    Lemma sv_N u : sv_d u <> 0 -> (sv_x3 u - Z) * (sv_x1 u * sv_x1 u + Z * sv_x1 u + Z * Z + A) = - g Z.
    Proof.
      intro N. destruct (sv_d_nz u N) as [N1 N2].
      assert (E : (1 + 1) * (1 + 1) * ((1 + sv_t u) * (1 + sv_t u)) * (sv_x1 u * sv_x1 u + Z * sv_x1 u + Z * Z + A)
        = sv_h * ((1 - sv_t u) * (1 - sv_t u))).
      { transitivity ((2 * sv_x1 u * (1 + sv_t u)) * (2 * sv_x1 u * (1 + sv_t u)) + 2 * Z * (1 + sv_t u) * (2 * sv_x1 u * (1 + sv_t u))
           + (1 + 1) * (1 + 1) * ((1 + sv_t u) * (1 + sv_t u)) * (Z * Z + A)); [ring|].
        rewrite (sv_x1_gen u N).
        transitivity ((1 + 1) * (1 + 1) * (u * u) * (c3 * c3) - Z * Z * ((1 + sv_t u) * (1 + sv_t u)) + (1 + 1) * (1 + 1) * ((1 + sv_t u) * (1 + sv_t u)) * (Z * Z + A)); [ring|].
        rewrite c3_sq. unfold sv_t, sv_h. ring. }
      apply (Fcancel_l K ((1 + 1) * (1 + 1) * ((1 + sv_t u) * (1 + sv_t u)))).
      { apply Fmul_nonzero; [apply four_nz|]. apply Fmul_nonzero; exact N2. }
      transitivity ((sv_x3 u - Z) * ((1 + 1) * (1 + 1) * ((1 + sv_t u) * (1 + sv_t u)) * (sv_x1 u * sv_x1 u + Z * sv_x1 u + Z * Z + A))); [ring|].
      rewrite E. transitivity ((sv_x3 u - Z) * sv_h * ((1 - sv_t u) * (1 - sv_t u))); [ring|]. rewrite (sv_x3_gen u N). ring.
    Qed.
    (** one of the three abscissas belongs to a point *)
    Lemma sv_one u : (sq (g Z) \/ sq (g sk_c2)) -> sq (g (sv_x1 u)) \/ sq (g (sv_x2 u)) \/ sq (g (sv_x3 u)).
    Proof.
      intro Hz. destruct (sq_dec (g (sv_x1 u))) as [S1|S1]; [left; exact S1|right].
      destruct (sq_dec (g (sv_x2 u))) as [S2|S2]; [left; exact S2|right].
      destruct (Feqd (sv_d u) 0) as [E|N].
      - rewrite (sv_x3_exc u E). destruct Hz as [Hz|Hz]; [exact Hz|]. exfalso. apply S1.
        unfold sv_x1, sv_t4, sv_i. destruct (Feqd (sv_d u) 0); [|contradiction].
        replace (sk_c2 - u * (1 - sv_t u) * 0 * c3) with sk_c2 by ring. exact Hz.
      - pose proof (skalba (sv_x1 u) (sv_x3 u - Z) (sv_N u N)) as E. rewrite <- sv_x2_x1 in E.
        replace (Z + (sv_x3 u - Z)) with (sv_x3 u) in E by ring.
        destruct (NN _ _ S1 S2) as [s Es]. rewrite <- Es in E.
        assert (Ns : s <> 0).
        { intro H0. subst s. assert (Z0 : g (sv_x1 u) * g (sv_x2 u) = 0) by (rewrite <- Es; ring).
          destruct (Fmul_integral K _ _ Z0) as [Z1|Z1]; [apply S1|apply S2]; rewrite Z1; apply sq_0. }
        apply (sq_cancel _ s Ns). replace (g (sv_x3 u) * (s * s)) with (s * s * g (sv_x3 u)) by ring. rewrite E.
        apply sq_mul; [|eexists; reflexivity].
        replace (sv_x3 u - Z) with (sv_w u * sv_w u * sk_c4) by (unfold sv_x3; ring).
        apply sq_mul; [eexists; reflexivity|apply c4_is_sq].
    Qed.
    (** the square roots taken by the constructor exist *)
    Lemma sv_c3_exists : sq (- g Z * sv_h).
    Proof.
      destruct c4_sq as [s Es]. exists ((1 + 1) * g Z * s).
      transitivity ((1 + 1) * (1 + 1) * g Z * g Z * (s * s)); [ring|]. rewrite Es. field. split; [exact gZ|apply four_nz].
    Qed.
    (** the congruences that characterise the candidates *)
    Lemma sv_candidates_iff u x1 x2 x3 : let t := u * u * g Z in
      (x2 + x1 + Z = 0
       /\ (1 - t * t <> 0 -> 2 * x1 * (1 + t) + (Z * (1 + t) + 2 * u * c3) = 0
                        /\ (x3 - Z) * sv_h * ((1 - t) * (1 - t)) + 2 * 2 * g Z * ((1 + t) * (1 + t)) = 0)
       /\ (1 - t * t = 0 -> 2 * x1 + Z = 0 /\ x3 - Z = 0))
      <-> x1 = sv_x1 u /\ x2 = sv_x2 u /\ x3 = sv_x3 u.
    Proof.
      intro t. rewrite sv_x2_x1.
      assert (E2 : forall x1 x2, x2 + x1 + Z = 0 <-> x2 = - Z - x1).
      { intros y1 y2. rewrite <- (Fsub_zero K y2 (- Z - y1)). split; intro H; (etransitivity; [|exact H]; ring). }
      assert (Ed : 1 - t * t = sv_d u) by (unfold t, sv_d, sv_t; ring). rewrite Ed. clear Ed.
      change t with (sv_t u). clear t. destruct (Feqd (sv_d u) 0) as [E|N].
      - pose proof (sv_x1_exc u E) as H1. rewrite (sv_x3_exc u E). split.
        + intros (S & _ & H). destruct (H E) as [L1 L3].
          assert (X : x1 = sv_x1 u).
          { apply (Fcancel_l K 2 _ _ two). apply (proj1 (Fsub_zero K _ _)). rewrite H1. etransitivity; [|exact L1]. ring. }
          subst x1. split; [reflexivity|]. split; [apply E2, S|apply (proj1 (Fsub_zero K _ _)), L3].
        + intros (-> & -> & ->). split; [ring|]. split; [intro; contradiction|]. intros _. split; [rewrite H1; ring|ring].
      - pose proof (sv_x1_gen u N) as H1. pose proof (sv_x3_gen u N) as H3. destruct (sv_d_nz u N) as [N1 N2]. split.
        + intros (S & H & _). destruct (H N) as [L1 L3].
          assert (X : x1 = sv_x1 u).
          { apply (Fcancel_l K (2 * (1 + sv_t u))); [apply Fmul_nonzero; [exact two|exact N2]|].
            apply (proj1 (Fsub_zero K _ _)). transitivity (2 * x1 * (1 + sv_t u) - 2 * sv_x1 u * (1 + sv_t u)); [ring|]. rewrite H1.
            etransitivity; [|exact L1]. ring. }
          subst x1. split; [reflexivity|]. split; [apply E2, S|].
          apply (Fcancel_l K (sv_h * ((1 - sv_t u) * (1 - sv_t u)))); [apply Fmul_nonzero; [exact h_nz|apply Fmul_nonzero; exact N1]|].
          apply (proj1 (Fsub_zero K _ _)).
          transitivity ((x3 - Z) * sv_h * ((1 - sv_t u) * (1 - sv_t u)) - (sv_x3 u - Z) * sv_h * ((1 - sv_t u) * (1 - sv_t u))); [ring|].
          rewrite H3. etransitivity; [|exact L3]. ring.
        + intros (-> & -> & ->). split; [ring|]. split; [|intro; contradiction]. intros _. split.
          * rewrite H1. ring.
          * rewrite H3. ring.
    Qed.
  End Svdw.

  (** *** Elligator 2 on y^2 = x^3 + J x^2 + L x *)
  Section Ell.
    Variables (J L Z : K).
    Hypotheses (Z_nonsq : ~ sq Z).
    Definition el_t (u : K) : K := if Feqd (Z * (u * u)) (- (1)) then 0 else Z * (u * u).
    Definition el_g (x : K) : K := ((x + J) * x + L) * x.
    Definition el_x1 (u : K) : K := - J * Finv (el_t u + 1).
    Lemma el_nz u : el_t u + 1 <> 0.
    Proof.
      unfold el_t. destruct (Feqd (Z * (u * u)) (- (1))) as [E|N]; intro H.
      - apply (F_1_neq_0 K). rewrite <- H. ring.
      - apply N. transitivity (Z * (u * u) + 1 - 1); [ring|]. rewrite H. ring.
    Qed.
    Lemma el_second u : el_g (- el_x1 u - J) = el_t u * el_g (el_x1 u).
    Proof. unfold el_g, el_x1. field. apply el_nz. Qed.
    Lemma el_other u : sq (el_g (el_x1 u)) \/ sq (el_g (- el_x1 u - J)).
    Proof.
      destruct (sq_dec (el_g (el_x1 u))) as [S|S]; [left; exact S|right]. rewrite el_second.
      unfold el_t at 1. destruct (Feqd (Z * (u * u)) (- (1))).
      - replace (0 * el_g (el_x1 u)) with (0 : K) by ring. apply sq_0.
      - destruct (NN _ _ Z_nonsq S) as [s Es]. exists (s * u). transitivity (s * s * (u * u)); [ring|]. rewrite Es. ring.
    Qed.
    Lemma el_x1_iff u x1 : ((1 + Z * (u * u) = 0 -> x1 + J = 0) /\ (1 + Z * (u * u) <> 0 -> x1 * (1 + Z * (u * u)) + J = 0))
      <-> x1 = el_x1 u.
    Proof.
      unfold el_x1, el_t. destruct (Feqd (Z * (u * u)) (- (1))) as [E|N].
      - assert (E0 : 1 + Z * (u * u) = 0) by (rewrite E; ring). split.
        + intros [H _]. transitivity ((x1 + J) - J); [ring|]. rewrite (H E0). field; exact (F_1_neq_0 K).
        + intros ->. split; [intros _|intro; contradiction]. field; exact (F_1_neq_0 K).
      - assert (N0 : 1 + Z * (u * u) <> 0). { intro E. apply N. transitivity (1 + Z * (u * u) - 1); [ring|]. rewrite E. ring. }
        assert (N1 : Z * (u * u) + 1 <> 0). { intro E. apply N0. rewrite <- E. ring. } split.
        + intros [_ H]. apply (Fcancel_l K (1 + Z * (u * u)) _ _ N0). transitivity ((x1 * (1 + Z * (u * u)) + J) - J); [ring|].
          rewrite (H N0). field. exact N1.
        + intros ->. split; [intro; contradiction|intros _]. field. exact N1.
    Qed.
  End Ell.
End Maps.
