(** The isogenies of the specification as maps between the groups of Math.ECGroup. *)
From Coq Require Import ZArith Znumtheory Lia String Bool List Ring Field.
From Verif.Math Require Import Fld Zp Residue ECGroup LimbF IsogHom.
From Verif.Spec Require Import Arith Curve Isogeny.
From Verif.Proofs Require Import FieldP FieldProps CurveP PolyL PolyB ECPrime.
Import ListNotations.
Open Scope Z_scope.

Section Alg.
  Variable K : Fld.
  Add Field KF : (Fth K).
  Open Scope fld_scope.
  Lemma cub0 (a b x : K) : cubic K 0 a b x = x * x * x + a * x + b. Proof. unfold cubic. ring. Qed.
  Lemma cub_id (g n m h b' : K) : g * (m * m) = n * n * n + b' * (h * h * h * (h * h * h)) ->
    g * (m * m) = n * n * n + 0 * n * (h * h * (h * h)) + b' * (h * h * h * (h * h * h)).
  Proof. intros ->. ring. Qed.
  Lemma div1 (n d X : K) : d <> 0 -> (X * d = n <-> X = n / d).
  Proof. intro H. split; [intros <-; field; exact H|intros ->; field; exact H]. Qed.
  Lemma mul0 (x : K) : x * 0 = 0. Proof. ring. Qed.
  Lemma sq_nz (h : K) : h * h <> 0 <-> h <> 0.
  Proof. split; [intros H ->; apply H; ring|intro H; apply Fmul_nonzero; exact H]. Qed.
End Alg.

Section P.
  Variable p : Z.
  Hypothesis Hp : prime p.
  Hypothesis Hp2 : 2 < p.
  Local Notation K := (ZpF p Hp).
  Variable i : isogeny.
  Variable h : list Z.
  Variables a b b' : K.
  Hypothesis HD : forall x, (p | peval (i_xd i) x - peval h x * peval h x) /\ (p | peval (i_yd i) x - peval h x * (peval h x * peval h x)).
  Hypothesis HP : isogeny_params p i (zv a) (zv b) (zv b').
  Definition pk (l : list Z) (x : K) : K := pev K (map (of_Z p) l) x.
  Lemma pk_Z l x : pk l x = of_Z p (peval l (zv x)).
  Proof. unfold pk. rewrite <- (pev_of p Hp). rewrite of_Z_zv. reflexivity. Qed.
  Local Notation phi := (phi K (pk (i_xn i)) (pk h) (pk (i_yn i))).
  Lemma xd_h x : pk (i_xd i) x = Fmul (pk h x) (pk h x).
  Proof. rewrite !pk_Z. etransitivity; [|apply of_Z_mul]. apply of_Z_div; [lia|]. apply HD. Qed.
  Lemma yd_h x : pk (i_yd i) x = Fmul (pk h x) (Fmul (pk h x) (pk h x)).
  Proof.
    rewrite !pk_Z. destruct (HD (zv x)) as [_ D]. apply of_Z_div in D; [|lia]. revert D. pushZ. exact (fun e => e).
  Qed.
  Lemma mulA (x y z : K) : Fmul x (Fmul y z) = Fmul (Fmul x y) z.
  Proof. apply (F_R (Fth K)). Qed.
  Lemma curve_id x : Fmul (cubic K F0 a b x) (Fmul (pk (i_yn i) x) (pk (i_yn i) x)) =
    (let N := pk (i_xn i) x in let H := pk h x in N * N * N + 0 * N * (H * H * (H * H)) + b' * (H * H * H * (H * H * H)))%F.
  Proof.
    cbn zeta. rewrite (cub0 K). apply (cub_id K). destruct (HP (zv x)) as [_ D]. apply of_Z_div in D; [|lia]. revert D.
    replace (peval (i_xn i) (zv x) ^ 3) with (peval (i_xn i) (zv x) * peval (i_xn i) (zv x) * peval (i_xn i) (zv x)) by ring. rewrite !Z.pow_2_r.
    pushZ. intro D. rewrite <- !pk_Z in D. rewrite yd_h, mulA in D. exact D.
  Qed.
  Lemma xd_div x : (p | peval (i_xd i) (zv x)) <-> pk h x = F0.
  Proof.
    rewrite <- (Z.sub_0_r (peval _ _)), <- of_Z_div by lia. rewrite <- pk_Z, xd_h. split.
    - intro E. apply (Fsqr_zero K). exact E.
    - intros ->. apply (mul0 K).
  Qed.
  Lemma yd_div x : (p | peval (i_yd i) (zv x)) <-> pk h x = F0.
  Proof.
    rewrite <- (Z.sub_0_r (peval _ _)), <- of_Z_div by lia. rewrite <- pk_Z, yd_h. split.
    - intro E. destruct (Feqd (pk h x) F0) as [Z|N]; [exact Z|]. exfalso. apply (Fmul_nonzero K _ _ N (Fmul_nonzero K _ _ N N)). exact E.
    - intros ->. rewrite !(mul0 K). reflexivity.
  Qed.
  Lemma map_phi A A' : isogeny_map p i (ap p Hp A) A' <-> A' = ap p Hp (phi A).
  Proof.
    destruct A as [|x y]; cbn [ap isogeny_map IsogHom.phi].
    { destruct A'; split; try tauto; try discriminate. }
    destruct (Feqd (pk h x) F0) as [Z|NZ]; cbn [ap].
    - destruct A' as [|X Y].
      + split; [reflexivity|]. intros _. apply xd_div, Z.
      + split; [|discriminate]. intros (N & _). exfalso. apply N, xd_div, Z.
    - destruct A' as [|X Y].
      + split; [|discriminate]. intro D. apply xd_div in D. contradiction.
      + unfold isogeny_image. assert (N2 : Fmul (pk h x) (pk h x) <> F0) by (apply Fmul_nonzero; exact NZ).
        assert (N3 : Fmul (Fmul (pk h x) (pk h x)) (pk h x) <> F0) by (apply Fmul_nonzero; assumption). split.
        * intros (_ & _ & CX & CY & D1 & D2). rewrite <- (coord_of p X CX), <- (coord_of p Y CY) in *.
          apply of_Z_div in D1; [|lia]. apply of_Z_div in D2; [|lia]. revert D1 D2. pushZ. rewrite <- !pk_Z, xd_h, yd_h, mulA. intros D1 D2.
          f_equal; f_equal.
          -- apply (div1 K _ _ _ N2). exact D1.
          -- apply (div1 K _ _ _ N3). exact D2.
        * set (u := Fdiv (pk (i_xn i) x) (Fmul (pk h x) (pk h x))). set (w := Fdiv (Fmul y (pk (i_yn i) x)) (Fmul (Fmul (pk h x) (pk h x)) (pk h x))).
          assert (Eu : u = Fdiv (pk (i_xn i) x) (Fmul (pk h x) (pk h x))) by reflexivity.
          assert (Ew : w = Fdiv (Fmul y (pk (i_yn i) x)) (Fmul (Fmul (pk h x) (pk h x)) (pk h x))) by reflexivity. clearbody u w.
          intro E. injection E as -> ->. split; [rewrite xd_div; exact NZ|]. split; [rewrite yd_div; exact NZ|].
          split; [apply zv_range; lia|]. split; [apply zv_range; lia|].
          split; (apply of_Z_div; [lia|]); pushZ; rewrite <- !pk_Z.
          -- rewrite xd_h. apply (div1 K _ _ _ N2). exact Eu.
          -- rewrite yd_h, mulA. apply (div1 K _ _ _ N3). exact Ew.
  Qed.

  (** *** additivity *)
  Hypothesis NR : forall x, cubic K F0 a b x <> F0.
  Hypothesis NR' : forall x, cubic K F0 F0 b' x <> F0.
  Variables sl : Z.
  Variables LA LB : list (list Z).
  Hypothesis HL : line_check p sl (zv a) (zv b) (i_xn i) h (i_yn i) LA LB = true.
  Local Notation on := (ECGroup.on K F0 a b).
  Local Notation on' := (ECGroup.on K F0 F0 b').
  Local Notation padd := (ECGroup.padd K F0 a).
  Local Notation padd' := (ECGroup.padd K F0 F0).
  Local Notation popp := (ECGroup.popp K).
  Lemma two : (Fadd F1 F1 : K) <> F0. Proof. apply two_K, Hp2. Qed.
  Lemma ns x : cubic K F0 a b x = F0 -> dcubic K F0 a x <> F0. Proof. intro E. destruct (NR x E). Qed.
  Lemma ns' x : cubic K F0 F0 b' x = F0 -> dcubic K F0 F0 x <> F0. Proof. intro E. destruct (NR' x E). Qed.
  Lemma line_id l v x1 x2 x3 : line3 K a b l v x1 x2 x3 -> (let N := pk (i_xn i) in let H := pk h in let M := pk (i_yn i) in let W := H x1 * H x2 * H x3 in
    exists A B,
      (forall x, x = x1 \/ x = x2 \/ x = x3 -> (l * x + v) * M x * W = A * (N x * H x) + B * (H x * H x * H x))
      /\ N x1 * ((H x2 * H x3) * (H x2 * H x3)) + N x2 * ((H x1 * H x3) * (H x1 * H x3)) + N x3 * ((H x1 * H x2) * (H x1 * H x2)) = A * A
      /\ H x1 * H x1 * (N x2 * N x3) + H x2 * H x2 * (N x1 * N x3) + H x3 * H x3 * (N x1 * N x2) = 0 * (W * W) - 2 * A * B)%F.
  Proof.
    intros (E1 & E2 & E3). cbn zeta. unfold pk. apply (line_ok p Hp sl (zv a) (zv b) _ _ _ LA LB HL l v x1 x2 x3 E1); rewrite of_Z_zv; assumption.
  Qed.
  Lemma on_phi A : on A -> on' (phi A).
  Proof. apply (IsogHom.on_phi K a b F0 b'). exact curve_id. Qed.
  Definition additive : Prop := forall A B, on A -> on B -> phi (padd A B) = padd' (phi A) (phi B).
  Lemma additive_trivial : (forall x y, on (Aff K x y) -> pk h x <> F0) -> additive.
  Proof.
    intros NK A B OA OB. assert (O : forall C, on C -> C = Inf K \/ ~ ker K (pk (i_xn i)) (pk h) (pk (i_yn i)) C).
    { intros [|x y] OC; [left; reflexivity|right]. unfold ker. cbn [IsogHom.phi]. destruct (Feqd (pk h x) F0) as [Z|_]; [destruct (NK x y OC Z)|discriminate]. }
    apply (phi_padd_generic K a b F0 b' two ns ns' _ _ _ curve_id line_id); auto. apply O. apply on_padd; [exact two|exact OA|exact OB].
  Qed.
  Lemma pt_dec (A B : pt K) : {A = B} + {A <> B}.
  Proof.
    destruct A as [|x y], B as [|x' y']; [left; reflexivity|right; discriminate|right; discriminate|].
    destruct (Feqd x x') as [->|N]; [|right; congruence]. destruct (Feqd y y') as [->|N]; [left; reflexivity|right; congruence].
  Qed.
  Local Notation mul n A := (nmul p Hp F0 a n A).
  Lemma many_points G q n (L : list (pt K)) : on G -> (forall k, mul k G = Inf K -> (q | Z.of_nat k)) -> Z.of_nat n < q -> (length L <= n)%nat ->
    exists R, on R /\ ~ In R L.
  Proof.
    intros OG HQ Hn HLn. set (S := map (fun k => mul k G) (seq 0 (Datatypes.S n))).
    assert (ND : NoDup S).
    { apply nodup_map_in; [|apply seq_NoDup].
      assert (D : forall i j, (i < j <= n)%nat -> mul i G <> mul j G).
      { intros i0 j Hij E. assert (M : mul (j - i0) G = Inf K).
        { apply (padd_neutral_unique K F0 a b two ns (mul i0 G)); try (apply on_nmul; assumption).
          rewrite (nmul_add p Hp Hp2 F0 a b ns) by exact OG. replace (i0 + (j - i0))%nat with j by lia. symmetry. exact E. }
        apply HQ in M. apply Z.divide_pos_le in M; lia. }
      intros i0 j Hi Hj E. apply in_seq in Hi, Hj. destruct (Nat.lt_trichotomy i0 j) as [C|[C|C]]; [exfalso|exact C|exfalso].
      - apply (D i0 j); [lia|exact E].
      - apply (D j i0); [lia|symmetry; exact E]. }
    destruct (Forall_Exists_dec (fun R => In R L) (fun R => in_dec pt_dec R L) S) as [F|X].
    - exfalso. rewrite Forall_forall in F. pose proof (NoDup_incl_length ND F) as C. unfold S in C. rewrite map_length, seq_length in C. lia.
    - apply Exists_exists in X. destruct X as (R & IR & NI). exists R. split; [|exact NI].
      apply in_map_iff in IR. destruct IR as (k & <- & _). apply on_nmul; assumption.
  Qed.
  Local Notation ker := (IsogHom.ker K (pk (i_xn i)) (pk h) (pk (i_yn i))).
  Lemma additive_finite SL G q : (forall A, on A -> ker A -> In A SL) -> on G -> ~ ker G ->
    (forall T, on T -> ker T -> phi (padd G T) = phi G \/ phi (padd G (popp T)) = phi G) ->
    (forall k, mul k G = Inf K -> (q | Z.of_nat k)) -> Z.of_nat (4 * length SL) < q -> additive.
  Proof.
    intros KL OG NG GT HQ Hq A B OA OB.
    refine (phi_padd K a b F0 b' two ns ns' _ _ _ curve_id line_id SL KL _ G OG NG GT A B OA OB).
    intros L HLn. apply (many_points G q (4 * length SL)); assumption.
  Qed.

  (** *** consequences *)
  Lemma phi_mul n A : additive -> on A -> phi (mul n A) = nmul p Hp F0 F0 n (phi A).
  Proof.
    intros AD OA. induction n as [|n IH]; [reflexivity|]. cbn [nmul]. rewrite AD, IH; [reflexivity|apply on_nmul; assumption|exact OA].
  Qed.
  Lemma phi_fibre A B : additive -> on A -> on B -> (phi A = phi B <-> ker (padd A (popp B))).
  Proof.
    intros AD OA OB. unfold IsogHom.ker. rewrite AD, phi_popp; [|exact OA|apply on_popp, OB]. split.
    - intros ->. apply padd_opp_r.
    - intro E. apply (padd_inf_opp K F0 F0 b' two ns') in E; [|apply on_phi, OA|apply on_popp, on_phi, OB].
      rewrite <- (popp_invol K (phi A)), <- E. apply popp_invol.
  Qed.
End P.
