(** Polynomials in two variables on limbs, and the ring of polynomials modulo the cubic x^3 = s x^2 + t x + n whose roots are
    the abscissas of three points on a line. *)
From Coq Require Import ZArith Znumtheory Lia Bool List Ring Field Uint63.
From Verif.Math Require Import Fld Zp Residue Limb LimbF.
From Verif.Spec Require Import Isogeny.
From Verif.Proofs Require Import CurveP InstP PolyL.
Import ListNotations.
Open Scope Z_scope.

(** *** polynomials with coefficients in a ring with partial operations *)
Section Poly.
  Variable A : Type.
  Variables (ad mu : A -> A -> option A) (z : A).
  Fixpoint gadd (a b : list A) : option (list A) :=
    match a, b with
    | [], _ => Some b
    | _, [] => Some a
    | x :: a', y :: b' => match ad x y with Some c => match gadd a' b' with Some r => Some (c :: r) | None => None end | None => None end
    end.
  Fixpoint gscale (x : A) (b : list A) : option (list A) :=
    match b with
    | [] => Some []
    | y :: b' => match mu x y with Some c => match gscale x b' with Some r => Some (c :: r) | None => None end | None => None end
    end.
  Fixpoint gmul (a b : list A) : option (list A) :=
    match a with
    | [] => Some []
    | x :: a' => match gscale x b with Some s => match gmul a' b with Some t => gadd s (z :: t) | None => None end | None => None end
    end.
End Poly.
Section PolyK.
  Variable K : Fld.
  Add Field KP : (Fth K).
  Open Scope fld_scope.
  Variable A : Type.
  Variables (ad mu : A -> A -> option A) (z : A).
  Variable RA : A -> K -> Prop.
  Definition sound (A : Type) (RA : A -> K -> Prop) (op : A -> A -> option A) (f : K -> K -> K) : Prop :=
    forall a b c x y, RA a x -> RA b y -> op a b = Some c -> RA c (f x y).
  Hypothesis Had : sound A RA ad Fadd.
  Hypothesis Hmu : sound A RA mu Fmul.
  Hypothesis Hz : RA z 0.
  Variable t : K.
  Definition RG (l : list A) (v : K) : Prop := exists f, Forall2 RA l f /\ v = pev K f t.
  Lemma RG_nil : RG [] 0. Proof. exists []. split; [constructor|reflexivity]. Qed.
  Lemma RG_cons a l x v : RA a x -> RG l v -> RG (a :: l) (x + t * v).
  Proof. intros Ha (f & Hf & ->). exists (x :: f). split; [constructor; assumption|reflexivity]. Qed.
  Lemma RG_inv a l v : RG (a :: l) v -> exists x w, RA a x /\ RG l w /\ v = x + t * w.
  Proof. intros (f & Hf & ->). inversion Hf as [|? x ? g Hx Hg]; subst. exists x, (pev K g t). split; [exact Hx|]. split; [exists g; auto|reflexivity]. Qed.
  Lemma RG_inv0 v : RG [] v -> v = 0.
  Proof. intros (f & Hf & ->). inversion Hf. reflexivity. Qed.
  Lemma gadd_ok : sound _ RG (gadd A ad) Fadd.
  Proof.
    intro a. induction a as [|u a IH]; intros b c x y Ha Hb.
    - apply RG_inv0 in Ha. subst x. cbn [gadd]. intro E. assert (c = b) by (destruct b; congruence). subst c. replace (0 + y) with y by ring. exact Hb.
    - destruct b as [|w b]; cbn [gadd].
      + apply RG_inv0 in Hb. subst y. intro E. injection E as <-. replace (x + 0) with x by ring. exact Ha.
      + destruct (ad u w) as [d|] eqn:Ed; [|discriminate]. destruct (gadd A ad a b) as [r|] eqn:Er; [|discriminate].
        intro E. injection E as <-. destruct (RG_inv _ _ _ Ha) as (x0 & x1 & H0 & H1 & ->), (RG_inv _ _ _ Hb) as (y0 & y1 & G0 & G1 & ->).
        replace (x0 + t * x1 + (y0 + t * y1)) with ((x0 + y0) + t * (x1 + y1)) by ring. apply RG_cons; [exact (Had _ _ _ _ _ H0 G0 Ed)|exact (IH _ _ _ _ H1 G1 Er)].
  Qed.
  Lemma gscale_ok a x : RA a x -> forall b c y, RG b y -> gscale A mu a b = Some c -> RG c (x * y).
  Proof.
    intros Ha b. induction b as [|w b IH]; intros c y Hb; cbn [gscale].
    - apply RG_inv0 in Hb. subst y. intro E. injection E as <-. replace (x * 0) with (0 : K) by ring. apply RG_nil.
    - destruct (mu a w) as [d|] eqn:Ed; [|discriminate]. destruct (gscale A mu a b) as [r|] eqn:Er; [|discriminate].
      intro E. injection E as <-. destruct (RG_inv _ _ _ Hb) as (y0 & y1 & G0 & G1 & ->).
      replace (x * (y0 + t * y1)) with (x * y0 + t * (x * y1)) by ring. apply RG_cons; [exact (Hmu _ _ _ _ _ Ha G0 Ed)|exact (IH _ _ G1 eq_refl)].
  Qed.
  Lemma gmul_ok : sound _ RG (gmul A ad mu z) Fmul.
  Proof.
    intro a. induction a as [|u a IH]; intros b c x y Ha Hb; cbn [gmul].
    - apply RG_inv0 in Ha. subst x. intro E. injection E as <-. replace (0 * y) with (0 : K) by ring. apply RG_nil.
    - destruct (gscale A mu u b) as [s|] eqn:Es; [|discriminate]. destruct (gmul A ad mu z a b) as [r|] eqn:Er; [|discriminate]. intro E.
      destruct (RG_inv _ _ _ Ha) as (x0 & x1 & H0 & H1 & ->).
      pose proof (gscale_ok _ _ H0 _ _ _ Hb Es) as G0. pose proof (IH _ _ _ _ H1 Hb Er) as G1.
      replace ((x0 + t * x1) * y) with (x0 * y + (0 + t * (x1 * y))) by ring. exact (gadd_ok _ _ _ _ _ G0 (RG_cons _ _ _ _ Hz G1) E).
  Qed.
  Lemma forall_zero (tst : A -> bool) : (forall a x, RA a x -> tst a = true -> x = 0) -> forall l v, RG l v -> forallb tst l = true -> v = 0.
  Proof.
    intros Ht l. induction l as [|a l IH]; intros v Hl H.
    - apply RG_inv0, Hl.
    - destruct (RG_inv _ _ _ Hl) as (x & w & Hx & Hw & ->). cbn [forallb] in H. apply andb_true_iff in H. destruct H as [H1 H2].
      rewrite (Ht _ _ Hx H1), (IH _ Hw H2). ring.
  Qed.
End PolyK.

(** *** u0 + u1 x + u2 x^2 modulo the cubic *)
Section Trip.
  Variable T : Type.
  Variables (ad mu : T -> T -> option T).
  Definition tri : Type := T * T * T.
  Notation "'do' x <- e ; k" := (match e with Some x => k | None => None end) (at level 200, x pattern, e at level 100, k at level 200).
  (** s, t, n, s^2 + 2 t, -1, 3, 0 *)
  Variables s t n st m1 three zero : T.
  Definition add3 (u v : tri) : option tri :=
    let '(u0, u1, u2) := u in let '(v0, v1, v2) := v in do a <- ad u0 v0; do b <- ad u1 v1; do c <- ad u2 v2; Some (a, b, c).
  Definition sc3 (k : T) (u : tri) : option tri :=
    let '(u0, u1, u2) := u in do a <- mu k u0; do b <- mu k u1; do c <- mu k u2; Some (a, b, c).
  Definition xmul (u : tri) : option tri :=
    let '(u0, u1, u2) := u in do a <- mu n u2; do b <- mu t u2; do b' <- ad u0 b; do c <- mu s u2; do c' <- ad u1 c; Some (a, b', c').
  Definition mul3 (u v : tri) : option tri :=
    let '(v0, v1, v2) := v in
    do r2 <- sc3 v2 u; do r2 <- xmul r2; do r1 <- sc3 v1 u; do r1 <- add3 r2 r1; do r1 <- xmul r1; do r0 <- sc3 v0 u; add3 r1 r0.
  Fixpoint hor3 (l : list T) (v : tri) : option tri :=
    match l with
    | [] => Some (zero, zero, zero)
    | c :: l' => do r <- hor3 l' v; do r <- xmul r; do w <- sc3 c v; add3 r w
    end.
  Definition adj3 (u : tri) : option tri :=
    let '(u0, u1, u2) := u in
    do A <- mu u0 u0; do B <- mu u0 u1; do C <- mu u0 u2; do D <- mu u1 u1; do E <- mu u1 u2; do F <- mu u2 u2;
    do Es <- mu E s; do Ft <- mu F t; do Ft <- mu m1 Ft; do q <- ad D Es; do q <- ad q Ft;
    do Fn <- mu F n; do Bn <- mu m1 B; do qs <- mu q s; do qs <- mu m1 qs; do c1 <- ad Fn Bn; do c1 <- ad c1 qs;
    do Cn <- mu m1 C; do c2 <- ad q Cn;
    do Bs <- mu B s; do Cst <- mu C st; do En <- mu E n; do Fsn <- mu Fn s; do qt <- mu q t;
    do w <- ad En Fsn; do w <- ad w qt; do w <- mu m1 w; do c0 <- ad A Bs; do c0 <- ad c0 Cst; do c0 <- ad c0 w;
    Some (c0, c1, c2).
  Definition tr3 (u : tri) : option T :=
    let '(u0, u1, u2) := u in do a <- mu three u0; do b <- mu s u1; do c <- mu st u2; do r <- ad a b; ad r c.
  Definition sub3 (u v : tri) : option tri := do w <- sc3 m1 v; add3 u w.
  Definition sub1 (u v : T) : option T := do w <- mu m1 v; ad u w.

  Variable isz : T -> bool.
  Definition isz3 (u : tri) : bool := let '(u0, u1, u2) := u in isz u0 && isz u1 && isz u2.
  (** the certificate: N, h, M low coefficients first, lines A, B *)
  Variables (one lam nu : T) (lN lh lM : list T) (A B : T).
  Definition cert : option bool :=
    do H <- hor3 lh (one, zero, zero); do Hi <- adj3 H; do (W, W1, W2) <- mul3 H Hi;
    do N <- hor3 lN (one, zero, zero); do M <- hor3 lM (one, zero, zero);
    do Nh <- hor3 lh N; do H2 <- hor3 lh H; do H3 <- hor3 lh H2;
    do yM <- mul3 M (nu, lam, zero); do l <- sc3 W yM;
    do r1 <- sc3 A Nh; do r2 <- sc3 B H3; do r <- add3 r1 r2; do i1 <- sub3 l r;
    do Hi2 <- mul3 Hi Hi; do x2 <- hor3 lN Hi2; do l2 <- tr3 x2; do r2 <- mu A A; do i2 <- sub1 l2 r2;
    do aN <- adj3 N; do x3 <- hor3 lh aN; do x3 <- hor3 lh x3; do l3 <- tr3 x3; do r3 <- mu A B; do l3 <- ad l3 r3; do i3 <- ad l3 r3;
    Some (isz W1 && isz W2 && isz3 i1 && isz i2 && isz i3).
End Trip.
Section TripK.
  Variable K : Fld.
  Add Field KT : (Fth K).
  Open Scope fld_scope.
  Variable T : Type.
  Variables (ad mu : T -> T -> option T).
  Variable R : T -> K -> Prop.
  Hypothesis Had : sound K T R ad Fadd.
  Hypothesis Hmu : sound K T R mu Fmul.
  Variables s t n st m1 three zero : T.
  Variables l v a b x1 x2 x3 : K.
  Hypothesis e1 : x1 + x2 + x3 = l * l.
  Hypothesis e2 : x1 * x2 + x1 * x3 + x2 * x3 = a - 2 * l * v.
  Hypothesis e3 : x1 * x2 * x3 = v * v - b.
  Hypothesis Rs : R s (l * l).
  Hypothesis Rt : R t (2 * l * v - a).
  Hypothesis Rn : R n (v * v - b).
  Hypothesis Rst : R st (l * l * (l * l) + 2 * (2 * l * v - a)).
  Hypothesis Rm1 : R m1 (- (1)).
  Hypothesis Rthree : R three 3.
  Hypothesis Rzero : R zero 0.
  Lemma es : l * l = x1 + x2 + x3. Proof. symmetry. exact e1. Qed.
  Lemma et : 2 * l * v - a = - (x1 * x2 + x1 * x3 + x2 * x3). Proof. rewrite e2. ring. Qed.
  Lemma en : v * v - b = x1 * x2 * x3. Proof. symmetry. exact e3. Qed.
  Definition ev3 (z : K * K * K) (x : K) : K := let '(z0, z1, z2) := z in z0 + z1 * x + z2 * (x * x).
  Definition T3 (u : tri T) (f : K * K * K) : Prop :=
    exists z0 z1 z2, R (fst (fst u)) z0 /\ R (snd (fst u)) z1 /\ R (snd u) z2
      /\ f = (ev3 (z0, z1, z2) x1, ev3 (z0, z1, z2) x2, ev3 (z0, z1, z2) x3).
  Ltac ex E := repeat match type of E with
    | (match ?e with Some _ => _ | None => None end) = Some _ => let E' := fresh "E" in destruct e eqn:E'; [|discriminate E]
    end.
  Lemma T3_add u w c f1 f2 f3 g1 g2 g3 : T3 u (f1, f2, f3) -> T3 w (g1, g2, g3) -> add3 T ad u w = Some c -> T3 c (f1 + g1, f2 + g2, f3 + g3).
  Proof.
    destruct u as [[u0 u1] u2], w as [[w0 w1] w2]. intros (z0 & z1 & z2 & H0 & H1 & H2 & E) (y0 & y1 & y2 & G0 & G1 & G2 & F). cbn [fst snd] in *.
    unfold add3. intro X. ex X. injection X as <-. injection E as -> -> ->. injection F as -> -> ->.
    exists (z0 + y0), (z1 + y1), (z2 + y2). cbn [fst snd]. split; [eapply Had; eassumption|]. split; [eapply Had; eassumption|]. split; [eapply Had; eassumption|].
    unfold ev3. f_equal; [f_equal|]; ring.
  Qed.
  Lemma T3_sc k z u c f1 f2 f3 : R k z -> T3 u (f1, f2, f3) -> sc3 T mu k u = Some c -> T3 c (z * f1, z * f2, z * f3).
  Proof.
    destruct u as [[u0 u1] u2]. intros Hk (z0 & z1 & z2 & H0 & H1 & H2 & E). cbn [fst snd] in *.
    unfold sc3. intro X. ex X. injection X as <-. injection E as -> -> ->.
    exists (z * z0), (z * z1), (z * z2). cbn [fst snd]. split; [eapply Hmu; eassumption|]. split; [eapply Hmu; eassumption|]. split; [eapply Hmu; eassumption|].
    unfold ev3. f_equal; [f_equal|]; ring.
  Qed.
  Lemma T3_xmul u c f1 f2 f3 : T3 u (f1, f2, f3) -> xmul T ad mu s t n u = Some c -> T3 c (x1 * f1, x2 * f2, x3 * f3).
  Proof.
    destruct u as [[u0 u1] u2]. intros (z0 & z1 & z2 & H0 & H1 & H2 & E). cbn [fst snd] in *.
    unfold xmul. intro X. ex X. injection X as <-. injection E as -> -> ->.
    exists ((v * v - b) * z2), (z0 + (2 * l * v - a) * z2), (z1 + l * l * z2). cbn [fst snd].
    split; [eapply Hmu; eassumption|]. split; [eapply Had; [eassumption| |eassumption]; eapply Hmu; eassumption|].
    split; [eapply Had; [eassumption| |eassumption]; eapply Hmu; eassumption|].
    unfold ev3. rewrite es, et, en. f_equal; [f_equal|]; ring.
  Qed.
  Lemma T3_mul u w c f1 f2 f3 g1 g2 g3 : T3 u (f1, f2, f3) -> T3 w (g1, g2, g3) -> mul3 T ad mu s t n u w = Some c -> T3 c (f1 * g1, f2 * g2, f3 * g3).
  Proof.
    destruct w as [[w0 w1] w2]. intros Hu (y0 & y1 & y2 & G0 & G1 & G2 & F). cbn [fst snd] in *. injection F as -> -> ->.
    unfold mul3. intro X. ex X.
    pose proof (T3_sc _ _ _ _ _ _ _ G2 Hu E) as P1. pose proof (T3_xmul _ _ _ _ _ P1 E0) as P2.
    pose proof (T3_sc _ _ _ _ _ _ _ G1 Hu E1) as P3. pose proof (T3_add _ _ _ _ _ _ _ _ _ P2 P3 E2) as P4.
    pose proof (T3_xmul _ _ _ _ _ P4 E3) as P5. pose proof (T3_sc _ _ _ _ _ _ _ G0 Hu E4) as P6.
    pose proof (T3_add _ _ _ _ _ _ _ _ _ P5 P6 X) as P7.
    match type of P7 with T3 _ ?g => match goal with |- T3 _ ?h => replace h with g; [exact P7|] end end.
    unfold ev3. f_equal; [f_equal|]; ring.
  Qed.
  Lemma T3_const k z : R k z -> T3 (k, zero, zero) (z, z, z).
  Proof. intro H. exists z, 0, 0. cbn [fst snd]. split; [exact H|]. split; [exact Rzero|]. split; [exact Rzero|]. unfold ev3. f_equal; [f_equal|]; ring. Qed.
  Lemma T3_hor ls fs : Forall2 R ls fs -> forall u c f1 f2 f3, T3 u (f1, f2, f3) -> hor3 T ad mu s t n zero ls u = Some c ->
    T3 c (pev K fs x1 * f1, pev K fs x2 * f2, pev K fs x3 * f3).
  Proof.
    intro H. induction H as [|k z ls fs Hk _ IH]; intros u c f1 f2 f3 Hu; cbn [hor3 pev].
    - intro X. injection X as <-. replace (0 * f1, 0 * f2, 0 * f3) with ((0 : K), (0 : K), (0 : K)) by (f_equal; [f_equal|]; ring). apply T3_const, Rzero.
    - intro X. ex X. pose proof (IH _ _ _ _ _ Hu E) as P1. pose proof (T3_xmul _ _ _ _ _ P1 E0) as P2. pose proof (T3_sc _ _ _ _ _ _ _ Hk Hu E1) as P3.
      pose proof (T3_add _ _ _ _ _ _ _ _ _ P2 P3 X) as P4.
      match type of P4 with T3 _ ?g => match goal with |- T3 _ ?h => replace h with g; [exact P4|] end end.
      f_equal; [f_equal|]; ring.
  Qed.
  Lemma T3_adj u c f1 f2 f3 : T3 u (f1, f2, f3) -> adj3 T ad mu s t n st m1 u = Some c -> T3 c (f2 * f3, f1 * f3, f1 * f2).
  Proof.
    destruct u as [[u0 u1] u2]. intros (z0 & z1 & z2 & H0 & H1 & H2 & E). cbn [fst snd] in *. injection E as -> -> ->.
    unfold adj3. intro X. ex X. injection X as <-.
    repeat match goal with
      | Hop : mu ?p ?p = Some ?r, Hp : R ?p _ |- _ => pose proof (Hmu _ _ _ _ _ Hp Hp Hop); clear Hop
      | Hop : mu ?p ?q = Some ?r, Hp : R ?p _, Hq : R ?q _ |- _ => pose proof (Hmu _ _ _ _ _ Hp Hq Hop); clear Hop
      | Hop : ad ?p ?q = Some ?r, Hp : R ?p _, Hq : R ?q _ |- _ => pose proof (Had _ _ _ _ _ Hp Hq Hop); clear Hop
      end.
    eexists _, _, _. cbn [fst snd]. split; [eassumption|]. split; [eassumption|]. split; [eassumption|].
    unfold ev3. rewrite es, et, en. f_equal; [f_equal|]; ring.
  Qed.
  Lemma T3_tr u c f1 f2 f3 : T3 u (f1, f2, f3) -> tr3 T ad mu s st three u = Some c -> R c (f1 + f2 + f3).
  Proof.
    destruct u as [[u0 u1] u2]. intros (z0 & z1 & z2 & H0 & H1 & H2 & E). cbn [fst snd] in *. injection E as -> -> ->.
    unfold tr3. intro X. ex X.
    repeat match goal with
      | Hop : mu ?p ?p = Some ?r, Hp : R ?p _ |- _ => pose proof (Hmu _ _ _ _ _ Hp Hp Hop); clear Hop
      | Hop : mu ?p ?q = Some ?r, Hp : R ?p _, Hq : R ?q _ |- _ => pose proof (Hmu _ _ _ _ _ Hp Hq Hop); clear Hop
      | Hop : ad ?p ?q = Some ?r, Hp : R ?p _, Hq : R ?q _ |- _ => pose proof (Had _ _ _ _ _ Hp Hq Hop); clear Hop
      end.
    match goal with H : R c ?g |- R c ?h => replace h with g; [exact H|] end. unfold ev3. rewrite es, et. ring.
  Qed.
  Variable isz : T -> bool.
  Hypothesis Hisz : forall c z, R c z -> isz c = true -> z = 0.
  Lemma T3_isz u f1 f2 f3 : T3 u (f1, f2, f3) -> isz3 T isz u = true -> f1 = 0 /\ f2 = 0 /\ f3 = 0.
  Proof.
    destruct u as [[u0 u1] u2]. intros (z0 & z1 & z2 & H0 & H1 & H2 & E). cbn [fst snd] in *. injection E as -> -> ->.
    unfold isz3. rewrite !andb_true_iff. intros ((I0 & I1) & I2). rewrite (Hisz _ _ H0 I0), (Hisz _ _ H1 I1), (Hisz _ _ H2 I2).
    unfold ev3. split; [|split]; ring.
  Qed.
  Variables (one lam nu : T) (lN lh lM : list T) (A B : T) (fN fh fM : list K) (fA fB : K).
  Hypothesis Rone : R one 1.
  Hypothesis Rlam : R lam l.
  Hypothesis Rnu : R nu v.
  Hypothesis RN : Forall2 R lN fN.
  Hypothesis Rh : Forall2 R lh fh.
  Hypothesis RM : Forall2 R lM fM.
  Hypothesis RA : R A fA.
  Hypothesis RB : R B fB.
  Lemma minus_zero (x y : K) : x + - (1) * y = 0 -> x = y.
  Proof. intro H. apply (proj1 (Fsub_zero K x y)). rewrite <- H. ring. Qed.
  Lemma cert_ok : cert T ad mu s t n st m1 three zero isz one lam nu lN lh lM A B = Some true ->
    let N := pev K fN in let h := pev K fh in let M := pev K fM in let W := h x1 * h x2 * h x3 in
      (forall x, x = x1 \/ x = x2 \/ x = x3 -> (l * x + v) * M x * W = fA * (N x * h x) + fB * (h x * h x * h x))
      /\ N x1 * ((h x2 * h x3) * (h x2 * h x3)) + N x2 * ((h x1 * h x3) * (h x1 * h x3)) + N x3 * ((h x1 * h x2) * (h x1 * h x2)) = fA * fA
      /\ h x1 * h x1 * (N x2 * N x3) + h x2 * h x2 * (N x1 * N x3) + h x3 * h x3 * (N x1 * N x2) = 0 * (W * W) - 2 * fA * fB.
  Proof.
    cbn zeta. set (N := pev K fN). set (h := pev K fh). set (M := pev K fM). unfold cert. intro X.
    destruct (hor3 T ad mu s t n zero lh (one, zero, zero)) as [H|] eqn:E1; [|discriminate].
    destruct (adj3 T ad mu s t n st m1 H) as [Hi|] eqn:E2; [|discriminate].
    destruct (mul3 T ad mu s t n H Hi) as [[[W W1] W2]|] eqn:E3; [|discriminate].
    destruct (hor3 T ad mu s t n zero lN (one, zero, zero)) as [N3|] eqn:E4; [|discriminate].
    destruct (hor3 T ad mu s t n zero lM (one, zero, zero)) as [M3|] eqn:E5; [|discriminate].
    destruct (hor3 T ad mu s t n zero lh N3) as [Nh|] eqn:E6; [|discriminate].
    destruct (hor3 T ad mu s t n zero lh H) as [H2|] eqn:E7; [|discriminate].
    destruct (hor3 T ad mu s t n zero lh H2) as [H3|] eqn:E8; [|discriminate].
    destruct (mul3 T ad mu s t n M3 (nu, lam, zero)) as [yM|] eqn:E9; [|discriminate].
    destruct (sc3 T mu W yM) as [lw|] eqn:E10; [|discriminate].
    destruct (sc3 T mu A Nh) as [r1|] eqn:E11; [|discriminate].
    destruct (sc3 T mu B H3) as [r2|] eqn:E12; [|discriminate].
    destruct (add3 T ad r1 r2) as [r|] eqn:E13; [|discriminate].
    unfold sub3 in X. destruct (sc3 T mu m1 r) as [mr|] eqn:E14; [|discriminate].
    destruct (add3 T ad lw mr) as [i1|] eqn:E15; [|discriminate].
    destruct (mul3 T ad mu s t n Hi Hi) as [Hi2|] eqn:E16; [|discriminate].
    destruct (hor3 T ad mu s t n zero lN Hi2) as [y2|] eqn:E17; [|discriminate].
    destruct (tr3 T ad mu s st three y2) as [l2|] eqn:E18; [|discriminate].
    destruct (mu A A) as [AA|] eqn:E19; [|discriminate].
    unfold sub1 in X. destruct (mu m1 AA) as [mAA|] eqn:E20; [|discriminate].
    destruct (ad l2 mAA) as [i2|] eqn:E21; [|discriminate].
    destruct (adj3 T ad mu s t n st m1 N3) as [aN|] eqn:E22; [|discriminate].
    destruct (hor3 T ad mu s t n zero lh aN) as [y3|] eqn:E23; [|discriminate].
    destruct (hor3 T ad mu s t n zero lh y3) as [y4|] eqn:E24; [|discriminate].
    destruct (tr3 T ad mu s st three y4) as [l3|] eqn:E25; [|discriminate].
    destruct (mu A B) as [AB|] eqn:E26; [|discriminate].
    destruct (ad l3 AB) as [l4|] eqn:E27; [|discriminate].
    destruct (ad l4 AB) as [i3|] eqn:E28; [|discriminate].
    injection X as X. rewrite !andb_true_iff in X. destruct X as ((((X1 & X2) & X3) & X4) & X5).
    pose proof (T3_hor _ _ Rh _ _ _ _ _ (T3_const _ _ Rone) E1) as PH. fold h in PH.
    pose proof (T3_adj _ _ _ _ _ PH E2) as PHi. pose proof (T3_mul _ _ _ _ _ _ _ _ _ PH PHi E3) as PW.
    pose proof (T3_hor _ _ RN _ _ _ _ _ (T3_const _ _ Rone) E4) as PN. fold N in PN.
    pose proof (T3_hor _ _ RM _ _ _ _ _ (T3_const _ _ Rone) E5) as PM. fold M in PM.
    pose proof (T3_hor _ _ Rh _ _ _ _ _ PN E6) as PNh. pose proof (T3_hor _ _ Rh _ _ _ _ _ PH E7) as PH2.
    pose proof (T3_hor _ _ Rh _ _ _ _ _ PH2 E8) as PH3. fold h in PNh, PH2, PH3.
    assert (Py : T3 (nu, lam, zero) (v + l * x1, v + l * x2, v + l * x3)).
    { exists v, l, 0. cbn [fst snd]. do 3 (split; [assumption|]). unfold ev3. f_equal; [f_equal|]; ring. }
    pose proof (T3_mul _ _ _ _ _ _ _ _ _ PM Py E9) as PyM.
    assert (RW : R W (h x1 * h x2 * h x3)).
    { destruct PW as (z0 & z1 & z2 & Z0 & Z1 & Z2 & EQ). cbn [fst snd] in *. injection EQ as EQ _ _. unfold ev3 in EQ.
      rewrite (Hisz _ _ Z1 X1), (Hisz _ _ Z2 X2) in EQ. replace (h x1 * h x2 * h x3) with z0; [exact Z0|].
      transitivity (h x1 * 1 * (h x2 * 1 * (h x3 * 1))); [rewrite EQ; ring|ring]. }
    pose proof (T3_sc _ _ _ _ _ _ _ RW PyM E10) as Pl.
    pose proof (T3_add _ _ _ _ _ _ _ _ _ (T3_sc _ _ _ _ _ _ _ RA PNh E11) (T3_sc _ _ _ _ _ _ _ RB PH3 E12) E13) as Pr.
    pose proof (T3_add _ _ _ _ _ _ _ _ _ Pl (T3_sc _ _ _ _ _ _ _ Rm1 Pr E14) E15) as PI.
    destruct (T3_isz _ _ _ _ PI X3) as (I1 & I2 & I3).
    pose proof (T3_hor _ _ RN _ _ _ _ _ (T3_mul _ _ _ _ _ _ _ _ _ PHi PHi E16) E17) as P2. fold N in P2.
    pose proof (Had _ _ _ _ _ (T3_tr _ _ _ _ _ P2 E18) (Hmu _ _ _ _ _ Rm1 (Hmu _ _ _ _ _ RA RA E19) E20) E21) as J2. apply Hisz in J2; [|exact X4].
    pose proof (T3_hor _ _ Rh _ _ _ _ _ (T3_hor _ _ Rh _ _ _ _ _ (T3_adj _ _ _ _ _ PN E22) E23) E24) as P3. fold h in P3.
    pose proof (Hmu _ _ _ _ _ RA RB E26) as RAB.
    pose proof (Had _ _ _ _ _ (Had _ _ _ _ _ (T3_tr _ _ _ _ _ P3 E25) RAB E27) RAB E28) as J3. apply Hisz in J3; [|exact X5].
    apply minus_zero in I1, I2, I3, J2. split; [|split].
    - intros x [E|[E|E]]; rewrite E.
      + etransitivity; [|etransitivity; [exact I1|]]; ring.
      + etransitivity; [|etransitivity; [exact I2|]]; ring.
      + etransitivity; [|etransitivity; [exact I3|]]; ring.
    - etransitivity; [|etransitivity; [exact J2|]]; ring.
    - apply (proj1 (Fsub_zero K _ _)). etransitivity; [|exact J3]. ring.
  Qed.
End TripK.

(** *** the certificate on limbs: coefficients by powers of v, then of l; [] stands for zero *)
Definition bip : Type := list (list (list int)).
Section BRun.
  Variable C : ctx.
  Variables r2 one : list int.
  Definition cadd (a b : list int) : option (list int) := match a, b with [], _ => Some b | _, [] => Some a | _, _ => madd a b end.
  Definition cmul (a b : list int) : option (list int) := match a, b with [], _ => Some [] | _, [] => Some [] | _, _ => mm C a b end.
  Definition cisz (a : list int) : bool := match a with [] => true | _ => isz C one a end.
  Definition badd : bip -> bip -> option bip := gadd _ (gadd _ cadd).
  Definition bmul : bip -> bip -> option bip := gmul _ (gadd _ cadd) (gmul _ cadd cmul []) [].
  Definition bisz : bip -> bool := forallb (forallb cisz).
  Definition cenc (x : Z) : option (list int) := match x with 0 => Some [] | _ => penc C r2 x end.
  Fixpoint omap {X Y} (f : X -> option Y) (l : list X) : option (list Y) :=
    match l with [] => Some [] | x :: l' => match f x with Some y => match omap f l' with Some r => Some (y :: r) | None => None end | None => None end end.
  Definition kenc (x : Z) : option bip := match cenc x with Some c => Some [[c]] | None => None end.
  Definition benc (l : list (list Z)) : option bip := omap (omap cenc) l.
End BRun.
Definition line_check (p sl a b : Z) (N h M : list Z) (A B : list (list Z)) : bool :=
  let C := make_s p sl in let r2 := enc C (rad C) in let one := enc C 1 in
  ctx_check p C (limbs (nl C) (8 * p)) &&
  match omap (kenc C r2) N, omap (kenc C r2) h, omap (kenc C r2) M, benc C r2 A, benc C r2 B with
  | Some N', Some h', Some M', Some A', Some B' =>
      match cert bip badd (bmul C)
        [[[]; []; one]] [[enc C (- a)]; [[]; enc C 2]] [[enc C (- b)]; []; [one]] [[enc C (- (2 * a)); []; []; []; one]; [[]; enc C 4]]
        [[enc C (-1)]] [[enc C 3]] [] (bisz C one) [[one]] [[[]; one]] [[]; [one]] N' h' M' A' B' with
      | Some r => r
      | None => false
      end
  | _, _, _, _, _ => false
  end.
Section BK.
  Variable K : Fld.
  Add Field KB : (Fth K).
  Open Scope fld_scope.
  Variables l v a b : K.
  Lemma v_s : 0 + l * (0 + l * (1 + l * 0)) + v * 0 = l * l. Proof. ring. Qed.
  Lemma v_t c2 : c2 = 2 -> - a + l * 0 + v * (0 + l * (c2 + l * 0) + v * 0) = 2 * l * v - a. Proof. intros ->. ring. Qed.
  Lemma v_n : - b + l * 0 + v * (0 + v * (1 + l * 0 + v * 0)) = v * v - b. Proof. ring. Qed.
  Lemma v_st a2 c4 : a2 = 2 * a -> c4 = 2 + 2 -> - a2 + l * (0 + l * (0 + l * (0 + l * (1 + l * 0)))) + v * (0 + l * (c4 + l * 0) + v * 0) = l * l * (l * l) + 2 * (2 * l * v - a).
  Proof. intros -> ->. ring. Qed.
  Lemma v_2 : a + a = 2 * a. Proof. ring. Qed.
  Lemma v_k (c : K) : c + l * 0 + v * 0 = c. Proof. ring. Qed.
  Lemma v_l : 0 + l * (1 + l * 0) + v * 0 = l. Proof. ring. Qed.
  Lemma v_v : 0 + v * (1 + l * 0 + v * 0) = v. Proof. ring. Qed.
  Variable C : ctx.
  Variable RK : list int -> K -> Prop.
  Hypothesis RK_mul : forall a b c x y, RK a x -> RK b y -> mm C a b = Some c -> RK c (Fmul x y).
  Hypothesis RK_add : forall a b c x y, RK a x -> RK b y -> madd a b = Some c -> RK c (Fadd x y).
  Definition RC (c : list int) (z : K) : Prop := (c = [] /\ z = 0) \/ (c <> [] /\ RK c z).
  Hypothesis RK_nil : forall a x, RK a x -> a <> [].
  Lemma RC_nil z : RC [] z -> z = 0.
  Proof. intros [[_ H]|[H _]]; [exact H|congruence]. Qed.
  Lemma RC_0 : RC [] 0. Proof. left. auto. Qed.
  Lemma RC_K c z : RK c z -> RC c z. Proof. intro H. right. split; [exact (RK_nil _ _ H)|exact H]. Qed.
  Lemma cadd_ok : sound K _ RC cadd Fadd.
  Proof.
    intros x y c p q Hx Hy. destruct x as [|i x].
    - apply RC_nil in Hx. subst p. cbn [cadd]. intro E. injection E as <-. replace (0 + q) with q by ring. exact Hy.
    - destruct y as [|j y]; cbn [cadd].
      + apply RC_nil in Hy. subst q. intro E. injection E as <-. replace (p + 0) with p by ring. exact Hx.
      + destruct Hx as [[Z _]|[_ Hx]]; [discriminate|]. destruct Hy as [[Z _]|[_ Hy]]; [discriminate|]. intro E. apply RC_K. exact (RK_add _ _ _ _ _ Hx Hy E).
  Qed.
  Lemma cmul_ok : sound K _ RC (cmul C) Fmul.
  Proof.
    intros x y c p q Hx Hy. destruct x as [|i x].
    - apply RC_nil in Hx. subst p. cbn [cmul]. intro E. injection E as <-. replace (0 * q) with (0 : K) by ring. exact RC_0.
    - destruct y as [|j y]; cbn [cmul].
      + apply RC_nil in Hy. subst q. intro E. injection E as <-. replace (p * 0) with (0 : K) by ring. exact RC_0.
      + destruct Hx as [[Z _]|[_ Hx]]; [discriminate|]. destruct Hy as [[Z _]|[_ Hy]]; [discriminate|]. intro E. apply RC_K. exact (RK_mul _ _ _ _ _ Hx Hy E).
  Qed.
  Definition RP := RG K _ RC l.
  Definition RB := RG K _ RP v.
  Lemma badd_ok : sound K _ RB badd Fadd.
  Proof. apply gadd_ok, gadd_ok, cadd_ok. Qed.
  Lemma bmul_ok : sound K _ RB (bmul C) Fmul.
  Proof.
    apply gmul_ok.
    - apply gadd_ok, cadd_ok.
    - apply gmul_ok; [exact cadd_ok|exact cmul_ok|exact RC_0].
    - apply RG_nil.
  Qed.
  Variable one : list int.
  Hypothesis Risz : forall a x, RK a x -> isz C one a = true -> x = 0.
  Lemma bisz_ok c z : RB c z -> bisz C one c = true -> z = 0.
  Proof.
    apply (forall_zero K _ RP v (forallb (cisz C one))). intros d y. apply (forall_zero K _ RC l (cisz C one)). intros e x H. destruct e as [|i e].
    - intros _. apply RC_nil, H.
    - destruct H as [[Z _]|[_ H]]; [discriminate|]. cbn [cisz]. apply Risz, H.
  Qed.
  (** a polynomial from its coefficients *)
  Lemma RB_k c z : RC c z -> RB [[c]] z.
  Proof. intro H. rewrite <- (v_k z). repeat apply RG_cons; try assumption; apply RG_nil. Qed.
End BK.
Section BZ.
  Variable p : Z.
  Hypothesis Hp : prime p.
  Local Notation K := (ZpF p Hp).
  Section C.
  Hypothesis Hp2 : 2 < p.
  Variable C : ctx.
  Hypothesis HC : ctx_ok C = true.
  Hypothesis HM : md C = p.
  Local Notation RK := (RK p Hp C).
  Local Notation RC := (RC K RK).
  Local Notation r2 := (enc C (rad C)).
  Lemma RK_nil a x : RK a x -> a <> [].
  Proof.
    intros [[L _] _] ->. destruct (ctx_open C HC) as (_ & _ & _ & _ & _ & P). cbn in L. unfold nl in L. destruct (cp C) eqn:E; [|discriminate].
    unfold md in HM. rewrite E in HM. cbn in HM. lia.
  Qed.
  Lemma cenc_ok x c : cenc C r2 x = Some c -> RC c (of_Z p x).
  Proof.
    destruct x as [|x|x]; cbn [cenc]; intro H.
    - injection H as <-. apply RC_0.
    - apply (RC_K K RK RK_nil), (penc_ok p Hp Hp2 C HC HM), H.
    - apply (RC_K K RK RK_nil), (penc_ok p Hp Hp2 C HC HM), H.
  Qed.
  Lemma omap_ok {X Y} (f : X -> option Y) (R : Y -> K -> Prop) (g : X -> K) : (forall x y, f x = Some y -> R y (g x)) ->
    forall l r, omap f l = Some r -> Forall2 R r (map g l).
  Proof.
    intros H l. induction l as [|x l IH]; intros r; cbn [omap map]; [intro E; injection E as <-; constructor|].
    destruct (f x) as [y|] eqn:E1; [|discriminate]. destruct (omap f l) as [r'|]; [|discriminate]. intro E. injection E as <-.
    constructor; [apply H, E1|apply IH; reflexivity].
  Qed.
  Variables l v : K.
  Local Notation RB := (RB K l v RK).
  Lemma kencs_ok ls r : omap (kenc C r2) ls = Some r -> Forall2 RB r (map (of_Z p) ls).
  Proof.
    apply omap_ok. intros x y. unfold kenc. destruct (cenc C r2 x) as [c|] eqn:E; [|discriminate]. intro F. injection F as <-.
    apply RB_k, cenc_ok, E.
  Qed.
  Lemma benc_ok A r : benc C r2 A = Some r -> exists z, RB r z.
  Proof.
    unfold benc. intro H. eexists. exists (map (fun c => pev K (map (of_Z p) c) l) A). split; [|reflexivity].
    revert r H. apply omap_ok. intros x y H. eexists. split; [|reflexivity]. revert H. apply omap_ok. exact cenc_ok.
  Qed.
  End C.
  Lemma line_ok sl a b N h M A B : line_check p sl a b N h M A B = true ->
    forall l v x1 x2 x3 : K, Fadd (Fadd x1 x2) x3 = Fmul l l ->
      (x1 * x2 + x1 * x3 + x2 * x3)%F = ((of_Z p a : K) - 2 * l * v)%F -> (x1 * x2 * x3 = v * v - (of_Z p b : K))%F ->
    let N := pev K (map (of_Z p) N) in let h := pev K (map (of_Z p) h) in let M := pev K (map (of_Z p) M) in let W := (h x1 * h x2 * h x3)%F in
    exists A B,
      (forall x, x = x1 \/ x = x2 \/ x = x3 -> ((l * x + v) * M x * W)%F = (A * (N x * h x) + B * (h x * h x * h x))%F)
      /\ (N x1 * ((h x2 * h x3) * (h x2 * h x3)) + N x2 * ((h x1 * h x3) * (h x1 * h x3)) + N x3 * ((h x1 * h x2) * (h x1 * h x2)))%F = Fmul A A
      /\ (h x1 * h x1 * (N x2 * N x3) + h x2 * h x2 * (N x1 * N x3) + h x3 * h x3 * (N x1 * N x2))%F = (0 * (W * W) - 2 * A * B)%F.
  Proof.
    unfold line_check, ctx_check. set (C := make_s p sl). rewrite !andb_true_iff. intros ((((HC & HM) & _) & H2) & HR) l v x1 x2 x3 e1 e2 e3.
    apply Z.eqb_eq in HM. apply Z.ltb_lt in H2.
    destruct (omap (kenc C _) N) as [N'|] eqn:EN; [|discriminate]. destruct (omap (kenc C _) h) as [h'|] eqn:Eh; [|discriminate].
    destruct (omap (kenc C _) M) as [M'|] eqn:EM; [|discriminate]. destruct (benc C _ A) as [A'|] eqn:EA; [|discriminate].
    destruct (benc C _ B) as [B'|] eqn:EB; [|discriminate]. destruct (cert _ _ _ _ _ _ _ _ _ _ _ _ _ _ _ _ _ _ _) as [r|] eqn:ER; [|discriminate]. subst r.
    destruct (benc_ok H2 C HC HM l v _ _ EA) as [fA HA], (benc_ok H2 C HC HM l v _ _ EB) as [fB HB].
    exists fA, fB.
    pose proof (RK_enc p Hp ltac:(lia) C HC HM) as RE. pose proof (RK_nil H2 C HC HM) as RN.
    assert (R1 : RC K (RK p Hp C) (enc C 1) F1) by (apply (RC_K K _ RN), (RE 1)).
    assert (RQ : forall z, RC K (RK p Hp C) (enc C z) (of_Z p z)) by (intro z; apply (RC_K K _ RN), RE).
    assert (RO : forall z, RC K (RK p Hp C) (enc C (- z)) (Fopp (of_Z p z : K))) by (intro z; replace (Fopp (of_Z p z : K)) with (of_Z p (- z) : K) by apply of_Z_opp; apply RQ).
    pose proof (RC_0 K (RK p Hp C)) as R0.
    assert (RG2 : forall c r (x y : K), RP K l (RK p Hp C) c x -> RB K l v (RK p Hp C) r y -> RB K l v (RK p Hp C) (c :: r) (x + v * y)%F) by (intros; apply RG_cons; assumption).
    assert (RG1 : forall c r (x y : K), RC K (RK p Hp C) c x -> RP K l (RK p Hp C) r y -> RP K l (RK p Hp C) (c :: r) (x + l * y)%F) by (intros; apply RG_cons; assumption).
    assert (N1 : RP K l (RK p Hp C) [] F0) by apply RG_nil. assert (N2 : RB K l v (RK p Hp C) [] F0) by apply RG_nil.
    assert (E2 : (of_Z p 2 : K) = (1 + 1)%F) by apply (of_Z_add p 1 1).
    refine (cert_ok K bip badd (bmul C) (RB K l v (RK p Hp C)) _ _ _ _ _ _ _ _ _ l v (of_Z p a) (of_Z p b) x1 x2 x3 e1 e2 e3 _ _ _ _ _ _ _ (bisz C (enc C 1)) _ _ _ _ _ _ _ _ _ _ _ _ _ _ _ _ _ _ _ _ _ _ ER).
    - apply badd_ok; [exact (RK_add p Hp ltac:(lia) C HM)|exact RN].
    - apply bmul_ok; [exact (RK_mul p Hp ltac:(lia) C HC HM)|exact (RK_add p Hp ltac:(lia) C HM)|exact RN].
    - rewrite <- (v_s K l v). auto 10.
    - rewrite <- (v_t K l v (of_Z p a) (of_Z p 2)) by apply (of_Z_add p 1 1). auto 10.
    - rewrite <- (v_n K l v (of_Z p b)). auto 10.
    - rewrite <- (v_st K l v (of_Z p a) (of_Z p (2 * a)) (of_Z p 4)); [auto 15|..].
      + replace (2 * a) with (a + a) by ring. etransitivity; [apply of_Z_add|]. apply (v_2 K).
      + etransitivity; [apply (of_Z_add p 2 2)|]. change (zadd (of_Z p 2) (of_Z p 2)) with (Fadd (of_Z p 2 : K) (of_Z p 2)). rewrite E2. reflexivity.
    - apply RB_k. apply (RO 1).
    - apply RB_k. replace (1 + 1 + 1)%F with (of_Z p 3 : K); [apply RQ|]. etransitivity; [apply (of_Z_add p 2 1)|]. change (Fadd (of_Z p 2 : K) F1 = 1 + 1 + 1)%F. rewrite E2. reflexivity.
    - exact N2.
    - apply bisz_ok. exact (isz_ok p Hp H2 C HC HM).
    - apply RB_k, R1.
    - assert (X : RB K l v (RK p Hp C) [[[]; enc C 1]] (0 + l * (1 + l * 0) + v * 0)%F) by auto 10. rewrite (v_l K l v) in X. exact X.
    - assert (X : RB K l v (RK p Hp C) [[]; [enc C 1]] (0 + v * (1 + l * 0 + v * 0))%F) by auto 10. rewrite (v_v K l v) in X. exact X.
    - exact (kencs_ok H2 C HC HM l v _ _ EN).
    - exact (kencs_ok H2 C HC HM l v _ _ Eh).
    - exact (kencs_ok H2 C HC HM l v _ _ EM).
    - exact HA.
    - exact HB.
  Qed.
End BZ.
