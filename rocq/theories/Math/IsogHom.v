(** Maps (x, y) -> (N(x)/h(x)^2, y M(x)/h(x)^3) between two curves in short Weierstrass form: a criterion for being a
    homomorphism. Three points on a line y = l x + v must be sent to three points on one line, with multiplicities; the
    criterion states this with symmetric functions of the three abscissas. *)
From Coq Require Import Ring Field Setoid List Lia.
From Verif.Math Require Import Fld ECGroup.
Import ListNotations.

Section Hom.
  Variable K : Fld.
  Add Field KF : (Fth K).
  Open Scope fld_scope.
  Variables a b a' b' : K.
  Hypothesis two : (2 : K) <> 0.
  Local Notation on := (on K 0 a b).
  Local Notation padd := (padd K 0 a).
  Local Notation on' := (ECGroup.on K 0 a' b').
  Local Notation padd' := (ECGroup.padd K 0 a').
  Local Notation Inf := (Inf K).
  Local Notation Aff := (Aff K).
  Local Notation popp := (popp K).
  Hypothesis nonsing : forall x, cubic K 0 a b x = 0 -> dcubic K 0 a x <> 0.
  Hypothesis nonsing' : forall x, cubic K 0 a' b' x = 0 -> dcubic K 0 a' x <> 0.

  (** *** three points of a line *)
  Definition line3 (l v x1 x2 x3 : K) : Prop :=
    x1 + x2 + x3 = l * l /\ x1 * x2 + x1 * x3 + x2 * x3 = a - 2 * l * v /\ x1 * x2 * x3 = v * v - b.
  Lemma line_of x1 y1 x2 y2 x3 y3 : on (Aff x1 y1) -> on (Aff x2 y2) -> padd (Aff x1 y1) (Aff x2 y2) = Aff x3 y3 ->
    exists l v, line3 l v x1 x2 x3 /\ y1 = l * x1 + v /\ y2 = l * x2 + v /\ - y3 = l * x3 + v.
  Proof.
    intros H1 H2 E. destruct (Feqd x1 x2) as [->|N].
    - destruct (Feqd y1 (- y2)) as [O|O].
      + exfalso. revert E. rewrite O. change (padd (Aff x2 (- y2)) (Aff x2 y2)) with (padd (popp (Aff x2 y2)) (Aff x2 y2)).
        rewrite (padd_opp_l K 0 a). discriminate.
      + destruct (same_x K 0 a b _ _ _ H1 H2) as [->|Q]; [|contradiction].
        assert (Hy : y2 <> 0) by (intro Z; apply O; rewrite Z; ring).
        rewrite (padd_dbl K 0 a two) in E by exact Hy. unfold third in E. injection E as Ex Ey.
        set (l := dcubic K 0 a x2 / (2 * y2)) in *. assert (El : l * (2 * y2) = 3 * (x2 * x2) + a).
        { unfold l, dcubic. field. split; [exact Hy|exact two]. }
        clearbody l. exists l, (y2 - l * x2). unfold on, cubic in H1. subst x3 y3. repeat split.
        * ring.
        * replace (a - 2 * l * (y2 - l * x2)) with (a - l * (2 * y2) + 2 * (l * l) * x2) by ring. rewrite El. ring.
        * replace ((y2 - l * x2) * (y2 - l * x2) - b) with (y2 * y2 - l * (2 * y2) * x2 + l * l * (x2 * x2) - b) by ring. rewrite El, H1. ring.
        * ring.
        * ring.
        * ring.
    - rewrite (padd_gen K 0 a) in E by exact N. unfold third in E. injection E as Ex Ey.
      set (l := (y2 - y1) / (x2 - x1)) in *.
      assert (Nd : x2 - x1 <> 0) by (apply Fsub_nonzero; intro Q; apply N; symmetry; exact Q).
      assert (El : y2 = y1 + l * (x2 - x1)) by (unfold l; field; exact Nd).
      clearbody l. exists l, (y1 - l * x1). unfold on, cubic in H1, H2. subst x3 y3 y2.
      assert (Q : x1 * x1 + x1 * x2 + x2 * x2 + a = 2 * l * (y1 - l * x1) + l * l * (x1 + x2)).
      { apply (Fcancel_l K (x2 - x1)); [exact Nd|].
        transitivity ((x2 * x2 * x2 + 0 * (x2 * x2) + a * x2 + b) - (x1 * x1 * x1 + 0 * (x1 * x1) + a * x1 + b)); [ring|].
        rewrite <- H1, <- H2. ring. }
      assert (Q' : a = 2 * l * (y1 - l * x1) + l * l * (x1 + x2) - (x1 * x1 + x1 * x2 + x2 * x2)) by (rewrite <- Q; ring).
      assert (Qb : b = y1 * y1 - (x1 * x1 * x1 + a * x1)) by (rewrite H1; ring).
      repeat split.
      + ring.
      + rewrite Q'. ring.
      + rewrite Qb, Q'. ring.
      + ring.
      + ring.
      + ring.
  Qed.
  (** conversely *)
  Lemma of_line l v X1 Y1 X2 Y2 X3 Y3 : on' (Aff X1 Y1) -> on' (Aff X2 Y2) ->
    Y1 = l * X1 + v -> Y2 = l * X2 + v -> Y3 = l * X3 + v ->
    X1 + X2 + X3 = l * l -> X1 * X2 + X1 * X3 + X2 * X3 = a' - 2 * l * v ->
    padd' (Aff X1 Y1) (Aff X2 Y2) = Aff X3 (- Y3).
  Proof.
    intros H1 H2 E1 E2 E3 S1 S2. destruct (Feqd X1 X2) as [->|N].
    - assert (EY : Y1 = Y2) by congruence. rewrite EY. rewrite EY in H1. clear EY E1 Y1 H2. rename X2 into X, Y2 into Y, E2 into E1.
      assert (T : dcubic K 0 a' X = l * (2 * Y)).
      { unfold dcubic. replace a' with (X * X + X * X3 + X * X3 + 2 * l * v) by (rewrite S2; ring).
        rewrite E1. transitivity (2 * X * (X + X + X3) + 2 * l * v); [ring|]. rewrite S1. ring. }
      assert (NY : Y <> 0).
      { intro Z. apply (nonsing' X).
        - unfold on, ECGroup.on in H1. rewrite <- H1, Z. ring.
        - rewrite T, Z. ring. }
      rewrite (padd_dbl K 0 a' two) by exact NY. unfold third.
      assert (El : dcubic K 0 a' X / (2 * Y) = l) by (rewrite T; field; split; [exact NY|exact two]).
      rewrite El. assert (EX : l * l - 0 - X - X = X3) by (rewrite <- S1; ring). rewrite EX, E3. f_equal. rewrite E1. ring.
    - rewrite (padd_gen K 0 a') by exact N. unfold third.
      assert (Nd : X2 - X1 <> 0) by (apply Fsub_nonzero; intro Q; apply N; symmetry; exact Q).
      assert (El : (Y2 - Y1) / (X2 - X1) = l) by (rewrite E1, E2; field; exact Nd).
      rewrite El. assert (EX : l * l - 0 - X1 - X2 = X3) by (rewrite <- S1; ring). rewrite EX, E3. f_equal. rewrite E1. ring.
  Qed.

  (** *** the map *)
  Variables N h M : K -> K.
  Hypothesis curve_id : forall x, cubic K 0 a b x * (M x * M x) =
    N x * N x * N x + a' * N x * (h x * h x * (h x * h x)) + b' * (h x * h x * h x * (h x * h x * h x)).
  Hypothesis line_id : forall l v x1 x2 x3, line3 l v x1 x2 x3 -> let W := h x1 * h x2 * h x3 in
    exists A B,
      (forall x, x = x1 \/ x = x2 \/ x = x3 -> (l * x + v) * M x * W = A * (N x * h x) + B * (h x * h x * h x))
      /\ N x1 * ((h x2 * h x3) * (h x2 * h x3)) + N x2 * ((h x1 * h x3) * (h x1 * h x3)) + N x3 * ((h x1 * h x2) * (h x1 * h x2)) = A * A
      /\ h x1 * h x1 * (N x2 * N x3) + h x2 * h x2 * (N x1 * N x3) + h x3 * h x3 * (N x1 * N x2) = a' * (W * W) - 2 * A * B.
  Definition phi (P : ECGroup.pt K) : ECGroup.pt K :=
    match P with
    | ECGroup.Inf _ => Inf
    | ECGroup.Aff _ x y => if Feqd (h x) 0 then Inf else Aff (N x / (h x * h x)) (y * M x / (h x * h x * h x))
    end.
  Lemma on_phi P : on P -> on' (phi P).
  Proof.
    destruct P as [|x y]; cbn [phi]; [intros _; exact I|]. intro H. destruct (Feqd (h x) 0) as [|Z]; [exact I|].
    unfold on, ECGroup.on in H. unfold ECGroup.on, cubic. pose proof (curve_id x) as C. rewrite <- H in C.
    apply (Fcancel_l K (h x * h x * h x * (h x * h x * h x))); [repeat apply Fmul_nonzero; exact Z|].
    transitivity (y * y * (M x * M x)); [field; exact Z|]. rewrite C. field. exact Z.
  Qed.
  Lemma phi_popp P : phi (popp P) = popp (phi P).
  Proof.
    destruct P as [|x y]; cbn [phi ECGroup.popp]; [reflexivity|]. destruct (Feqd (h x) 0) as [|Z]; [reflexivity|]. cbn [ECGroup.popp].
    f_equal. field. exact Z.
  Qed.
  Definition ker (P : ECGroup.pt K) : Prop := phi P = Inf.
  Lemma ker_aff x y : ker (Aff x y) <-> h x = 0.
  Proof. unfold ker. cbn [phi]. destruct (Feqd (h x) 0) as [E|E]; split; intro H; congruence. Qed.
  Lemma ker_popp P : ker P <-> ker (popp P).
  Proof. unfold ker. rewrite phi_popp. destruct (phi P); cbn [ECGroup.popp]; split; congruence. Qed.
  (** additivity away from the kernel *)
  Lemma phi_padd_generic P Q : on P -> on Q -> (P = Inf \/ ~ ker P) -> (Q = Inf \/ ~ ker Q) -> (padd P Q = Inf \/ ~ ker (padd P Q)) ->
    phi (padd P Q) = padd' (phi P) (phi Q).
  Proof.
    intros HP HQ KP KQ KR. destruct P as [|x1 y1]; [reflexivity|]. destruct Q as [|x2 y2]; [rewrite padd_inf_r; cbn [phi]; rewrite padd_inf_r; reflexivity|].
    destruct KP as [KP|KP]; [discriminate|]. destruct KQ as [KQ|KQ]; [discriminate|].
    destruct (padd (Aff x1 y1) (Aff x2 y2)) as [|x3 y3] eqn:ER.
    - apply (padd_inf_opp K 0 a b two nonsing) in ER; [|assumption..]. rewrite ER, phi_popp, padd_opp_r. reflexivity.
    - destruct KR as [KR|KR]; [discriminate|]. rewrite ker_aff in KP, KQ, KR.
      destruct (line_of _ _ _ _ _ _ HP HQ ER) as (l & v & L & E1 & E2 & E3).
      destruct (line_id _ _ _ _ _ L) as (A & B & I1 & I2 & I3). cbn zeta in I1, I3.
      set (W := h x1 * h x2 * h x3) in *. assert (NW : W <> 0) by (unfold W; repeat apply Fmul_nonzero; assumption).
      pose proof (on_phi _ HP) as O1. pose proof (on_phi _ HQ) as O2. cbn [phi] in O1, O2 |- *.
      destruct (Feqd (h x1) 0) as [|_]; [contradiction|]. destruct (Feqd (h x2) 0) as [|_]; [contradiction|]. destruct (Feqd (h x3) 0) as [|_]; [contradiction|].
      assert (Y : forall x, (x = x1 \/ x = x2 \/ x = x3) -> h x <> 0 ->
                  (l * x + v) * M x / (h x * h x * h x) = A / W * (N x / (h x * h x)) + B / W).
      { intros x Hx Nh. specialize (I1 x Hx). apply (Fcancel_l K (W * (h x * h x * h x))); [repeat apply Fmul_nonzero; assumption|].
        transitivity ((l * x + v) * M x * W); [field; exact Nh|]. rewrite I1. field. split; assumption. }
      transitivity (Aff (N x3 / (h x3 * h x3)) (- ((- y3) * M x3 / (h x3 * h x3 * h x3)))); [f_equal; field; exact KR|]. symmetry.
      apply (of_line (A / W) (B / W)); try assumption.
      + rewrite E1. apply Y; auto.
      + rewrite E2. apply Y; auto.
      + rewrite E3. apply Y; auto.
      + apply (Fcancel_l K (W * W)); [apply Fmul_nonzero; exact NW|]. transitivity (A * A); [|field; exact NW]. rewrite <- I2.
        unfold W. field. repeat split; assumption.
      + apply (Fcancel_l K (W * W)); [apply Fmul_nonzero; exact NW|]. transitivity (a' * (W * W) - 2 * A * B); [|field; exact NW]. rewrite <- I3.
        unfold W. field. repeat split; assumption.
  Qed.

  (** *** the kernel *)
  (** if the kernel is finite, the curve has many points, and every point of the kernel (up to sign) translates one given point
      outside the kernel without changing its image, then the map is a homomorphism *)
  Local Notation onp := (on_padd K 0 a b two).
  Local Notation asc := (padd_assoc K 0 a b two nonsing).
  Local Notation cmm := (padd_comm K 0 a b).
  Lemma ker_inf : ker Inf. Proof. reflexivity. Qed.
  Lemma ker_dec P : {ker P} + {~ ker P}. Proof. unfold ker. destruct (phi P); [left; reflexivity|right; discriminate]. Defined.
  Lemma phi_padd_out P Q : on P -> on Q -> ~ ker P -> ~ ker Q -> ~ ker (padd P Q) -> phi (padd P Q) = padd' (phi P) (phi Q).
  Proof. intros. apply phi_padd_generic; auto. Qed.
  Variable SL : list (ECGroup.pt K).
  Hypothesis ker_list : forall P, on P -> ker P -> In P SL.
  Hypothesis ker_list_on : forall P, In P SL -> on P.
  Hypothesis many : forall L : list (ECGroup.pt K), length L <= 4 * length SL -> exists R, on R /\ ~ In R L.
  Variable G0 : ECGroup.pt K.
  Hypothesis on_G0 : on G0.
  Hypothesis G0_out : ~ ker G0.
  Hypothesis G0_trans : forall T, on T -> ker T -> phi (padd G0 T) = phi G0 \/ phi (padd G0 (popp T)) = phi G0.
  Lemma fresh4 A B C D : on A -> on B -> on C -> on D ->
    exists V, on V /\ ~ ker (padd V A) /\ ~ ker (padd V B) /\ ~ ker (padd V C) /\ ~ ker (padd V D).
  Proof.
    intros OA OB OC OD. set (tr := fun X => map (fun T => padd T (popp X)) SL).
    destruct (many (tr A ++ tr B ++ tr C ++ tr D)) as (V & OM & NM).
    { unfold tr. rewrite !app_length, !map_length. lia. }
    exists V. split; [exact OM|].
    assert (X : forall A, on A -> ~ In V (tr A) -> ~ ker (padd V A)).
    { intros X OX NX KX. apply NX. unfold tr. apply in_map_iff. exists (padd V X). split; [|apply ker_list; [apply onp; assumption|exact KX]].
      apply (padd_sub K 0 a b two nonsing); assumption. }
    rewrite !in_app_iff in NM. repeat split; apply X; tauto.
  Qed.
  (** the translation by a point of the kernel changes all images by the same point *)
  Lemma trans_const T Q : on T -> on Q -> ~ ker Q -> ~ ker (padd Q T) -> ~ ker (padd G0 T) ->
    phi (padd G0 T) = phi G0 -> phi (padd Q T) = phi Q.
  Proof.
    intros OT OQ NQ NQT NGT EG.
    destruct (fresh4 Inf T (popp Q) (popp G0) I OT (on_popp K 0 a b _ OQ) (on_popp K 0 a b _ on_G0)) as (V & OM & N1 & N2 & N3 & N4).
    rewrite padd_inf_r in N1. pose proof (on_popp K 0 a b _ OQ) as OnQ. pose proof (on_popp K 0 a b _ on_G0) as OnG.
    assert (ST : forall X, on X -> ~ ker X -> ~ ker (padd X T) -> ~ ker (padd V (popp X)) ->
               phi V = padd' (phi (padd V (popp X))) (phi X) /\ phi (padd V T) = padd' (phi (padd V (popp X))) (phi (padd X T))).
    { intros X OX NX NXT NMX. pose proof (on_popp K 0 a b _ OX) as OnX.
      assert (E1 : padd (padd V (popp X)) X = V) by (apply (padd_sub_opp K 0 a b two nonsing); assumption).
      assert (OMX : on (padd V (popp X))) by (apply onp; assumption).
      assert (E2 : padd (padd V (popp X)) (padd X T) = padd V T) by (rewrite <- asc by (try apply onp; assumption); rewrite E1; reflexivity).
      split.
      - rewrite <- E1 at 1. apply phi_padd_out; try assumption. rewrite E1. exact N1.
      - rewrite <- E2. apply phi_padd_out; try assumption; [apply onp; assumption|rewrite E2; exact N2]. }
    destruct (ST Q OQ NQ NQT N3) as [A1 A2]. destruct (ST G0 on_G0 G0_out NGT N4) as [B1 B2]. rewrite EG, <- B1 in B2. rewrite B2, A1 in A2.
    assert (O1 : on' (phi (padd V (popp Q)))) by (apply on_phi, onp; assumption).
    assert (O2 : on' (phi Q)) by (apply on_phi; assumption). assert (O3 : on' (phi (padd Q T))) by (apply on_phi, onp; assumption).
    rewrite !(padd_comm K 0 a' b' (phi (padd V (popp Q)))) in A2 by assumption.
    symmetry. apply (padd_cancel_r K 0 a' b' two nonsing' _ _ (phi (padd V (popp Q)))); [exact O2|exact O3|exact O1|exact A2].
  Qed.
  Lemma ker_trans T Q : on T -> ker T -> on Q -> ~ ker Q -> ~ ker (padd Q T) -> phi (padd Q T) = phi Q.
  Proof.
    intros OT KT OQ NQ NQT. destruct (G0_trans T OT KT) as [E|E].
    - apply trans_const; try assumption. intro Z. apply G0_out. unfold ker in *. congruence.
    - pose proof (on_popp K 0 a b _ OT) as OnT.
      assert (X : padd (padd Q T) (popp T) = Q) by (apply (padd_sub K 0 a b two nonsing); assumption).
      rewrite <- X at 2. symmetry. apply trans_const; try assumption.
      + apply onp; assumption.
      + rewrite X. exact NQ.
      + intro Z. apply G0_out. unfold ker in *. congruence.
  Qed.
  Lemma ker_padd P Q : on P -> on Q -> ker P -> ker Q -> ker (padd P Q).
  Proof.
    intros OP OQ KP KQ. destruct (ker_dec (padd P Q)) as [H|NK]; [exact H|].
    assert (OPQ : on (padd P Q)) by (apply onp; assumption).
    destruct (fresh4 Inf Q (padd P Q) Inf I OQ OPQ I) as (V & OV & N1 & N2 & N3 & _). rewrite padd_inf_r in N1.
    assert (E1 : padd V (padd P Q) = padd (padd V Q) P) by (rewrite (cmm P Q) by assumption; symmetry; apply asc; assumption).
    assert (E2 : phi (padd V (padd P Q)) = phi V).
    { rewrite E1. rewrite E1 in N3. rewrite ker_trans; try assumption; [|apply onp; assumption].
      apply ker_trans; assumption. }
    rewrite phi_padd_out in E2; try assumption.
    apply (padd_neutral_unique K 0 a' b' two nonsing') in E2; [exact E2|apply on_phi; assumption..].
  Qed.
  Theorem phi_padd P Q : on P -> on Q -> phi (padd P Q) = padd' (phi P) (phi Q).
  Proof.
    intros OP OQ. assert (OPQ : on (padd P Q)) by (apply onp; assumption).
    assert (W : forall P Q, on P -> on Q -> ker P -> phi (padd P Q) = phi Q).
    { clear P Q OP OQ OPQ. intros P Q OP OQ KP. destruct (ker_dec Q) as [KQ|NQ].
      - rewrite KQ. apply ker_padd; assumption.
      - rewrite (cmm P Q) by assumption. apply ker_trans; try assumption. intro Z. apply NQ.
        replace Q with (padd (padd Q P) (popp P)) by (apply (padd_sub K 0 a b two nonsing); assumption).
        apply ker_padd; [apply onp; assumption|apply on_popp; assumption|exact Z|apply (proj1 (ker_popp P)), KP]. }
    destruct (ker_dec P) as [KP|NP]; [rewrite (W P Q OP OQ KP), KP; reflexivity|].
    destruct (ker_dec Q) as [KQ|NQ]; [rewrite (cmm P Q), (W Q P OQ OP KQ), KQ by assumption; symmetry; apply padd_inf_r|].
    destruct (ker_dec (padd P Q)) as [KR|NR]; [|apply phi_padd_out; assumption].
    rewrite KR. assert (E : phi (padd (padd P Q) (popp P)) = phi (popp P)) by (apply W; [assumption|apply on_popp; assumption|assumption]).
    assert (X : padd (padd P Q) (popp P) = Q) by (rewrite (cmm P Q) by assumption; apply (padd_sub K 0 a b two nonsing); assumption).
    rewrite X in E. rewrite E, phi_popp, padd_opp_r. reflexivity.
  Qed.
End Hom.
