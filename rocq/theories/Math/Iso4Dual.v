(** The second map of Math/Iso4.v, from v^2 = u^3 + A u^2 + u to x^2 + y^2 = 1 + d x^2 y^2: it is the composite of two
    isogenies of degree two and the map of Math/Birat2.v, hence a homomorphism; followed by the first map it multiplies by
    four. *)
From Coq Require Import Ring Field Setoid.
From Verif.Math Require Import Fld Edwards ECGroup Iso4 Iso2 Birat2.

Section Dual.
  Variable K : Fld.
  Add Field KF : (Fth K).
  Open Scope fld_scope.
  Variables d A : K.
  Hypothesis two : (2 : K) <> 0.
  Hypothesis d_nonsq : forall s : K, s * s <> d.
  Hypothesis HA : A = 2 - 2 * 2 * d.
  Hypothesis A_nonsq : forall s : K, s * s <> A * A - 2 * 2.
  Local Notation Inf := (Inf K).
  Local Notation Aff := (Aff K).
  Local Notation on := (on K A 1 0).
  Local Notation padd := (padd K A 1).
  Local Notation eon := (eon K 1 d).
  Local Notation eadd := (eadd K 1 d).
  Local Notation phi := (phi K).
  Local Notation psi := (psi K).
  Local Notation z0 := (z0 K).
  Local Notation z1 := (z1 K).

  Lemma d_nz : d <> 0. Proof. intro E. apply (d_nonsq 0). rewrite E. ring. Qed.
  Lemma d_n1 : 1 - d <> 0.
  Proof. intro E. apply (d_nonsq 1). transitivity (d + (1 - d)); [ring|]. rewrite E. ring. Qed.
  Lemma four : (2 * 2 : K) <> 0. Proof. apply Fmul_nonzero; exact two. Qed.
  Local Ltac fs := repeat split; first [assumption | exact two | exact four].

  (** the chain *)
  Definition step1 : pt K -> pt K := iso K 1.
  Definition step2 : pt K -> pt K := move K (A - 2).
  Definition step3 : pt K -> pt K := iso K (- (2 * 2) * (A - 2)).
  Definition step4 : pt K -> K * K := alpha K (2 * 2) (A + 2).
  Definition chain (M : pt K) : K * K := step4 (step3 (step2 (step1 M))).

  Lemma disc1 : A * A - 2 * 2 * 1 <> 0.
  Proof. intro E. apply (A_nonsq 0). transitivity (0 : K); [ring|]. rewrite <- E. ring. Qed.
  Lemma b3_nz : - (2 * 2) * (A - 2) <> 0.
  Proof.
    intro E. apply (Fmul_nonzero K (2 * 2 * (2 * 2)) d); [apply Fmul_nonzero; exact four|exact d_nz|].
    rewrite <- E, HA. ring.
  Qed.
  Lemma e_eq : (A - 2 * 3) * (A - 2 * 3) - 2 * 2 * (- (2 * 2) * (A - 2)) = (A + 2) * (A + 2).
  Proof. ring. Qed.
  Lemma e_nz : A + 2 <> 0.
  Proof. intro E. apply (Fmul_nonzero K (2 * 2) (1 - d) four d_n1). rewrite <- E, HA. ring. Qed.
  Lemma disc3 : (A - 2 * 3) * (A - 2 * 3) - 2 * 2 * (- (2 * 2) * (A - 2)) <> 0.
  Proof. rewrite e_eq. apply Fmul_nonzero; exact e_nz. Qed.
  Lemma moved : A - 2 * 3 = - (2 * A) + 3 * (A - 2)
    /\ - (2 * 2) * (A - 2) = A * A - 2 * 2 * 1 + 2 * - (2 * A) * (A - 2) + 3 * ((A - 2) * (A - 2))
    /\ 0 = cubic K (- (2 * A)) (A * A - 2 * 2 * 1) 0 (A - 2).
  Proof. unfold cubic. repeat split; ring. Qed.
  Lemma Ha4 : 1 * (2 * 2 * (2 * 2)) = - (2 * (A - 2 * 3)) + 2 * (A + 2). Proof. ring. Qed.
  Lemma Hd4 : d * (2 * 2 * (2 * 2)) = - (2 * (A - 2 * 3)) - 2 * (A + 2). Proof. rewrite HA. ring. Qed.

  Lemma on1 M : on M -> ECGroup.on K (- (2 * A)) (A * A - 2 * 2 * 1) 0 (step1 M).
  Proof. apply (on_iso K A 1). Qed.
  Lemma on2 M : ECGroup.on K (- (2 * A)) (A * A - 2 * 2 * 1) 0 M -> ECGroup.on K (A - 2 * 3) (- (2 * 2) * (A - 2)) 0 (step2 M).
  Proof. apply (on_move K _ _ _ _ _ _ _ moved). Qed.
  Lemma on3 M : ECGroup.on K (A - 2 * 3) (- (2 * 2) * (A - 2)) 0 M -> ECGroup.on K (- (2 * (A - 2 * 3))) ((A + 2) * (A + 2)) 0 (step3 M).
  Proof. intro H. rewrite <- e_eq. apply (on_iso K (A - 2 * 3)). exact H. Qed.

  Theorem chain_add M N : on M -> on N -> chain (padd M N) = eadd (chain M) (chain N).
  Proof.
    intros HM HN. unfold chain.
    assert (E1 : step1 (padd M N) = ECGroup.padd K (- (2 * A)) (A * A - 2 * 2 * 1) (step1 M) (step1 N)).
    { apply (iso_add K A 1 two (F_1_neq_0 K) disc1); assumption. }
    rewrite E1. pose proof (on1 M HM) as M1. pose proof (on1 N HN) as N1.
    assert (E2 : step2 (ECGroup.padd K (- (2 * A)) (A * A - 2 * 2 * 1) (step1 M) (step1 N))
      = ECGroup.padd K (A - 2 * 3) (- (2 * 2) * (A - 2)) (step2 (step1 M)) (step2 (step1 N))).
    { apply (move_add K (- (2 * A)) (A * A - 2 * 2 * 1) 0 two (A - 2) (A - 2 * 3) (- (2 * 2) * (A - 2)) 0 moved); assumption. }
    rewrite E2. pose proof (on2 _ M1) as M2. pose proof (on2 _ N1) as N2.
    assert (E3 : step3 (ECGroup.padd K (A - 2 * 3) (- (2 * 2) * (A - 2)) (step2 (step1 M)) (step2 (step1 N)))
      = ECGroup.padd K (- (2 * (A - 2 * 3))) ((A + 2) * (A + 2)) (step3 (step2 (step1 M))) (step3 (step2 (step1 N)))).
    { rewrite <- e_eq. apply (iso_add K (A - 2 * 3) (- (2 * 2) * (A - 2)) two b3_nz disc3); assumption. }
    rewrite E3. apply (alpha_add K 1 d (- (2 * (A - 2 * 3))) (2 * 2) (A + 2) two (one_sq K) (F_1_neq_0 K) e_nz d_nonsq Ha4 Hd4); apply on3; assumption.
  Qed.
  Lemma v_nz u v : on (Aff u v) -> u <> 0 -> v <> 0.
  Proof.
    cbn. unfold cubic. intros H N Z. rewrite Z in H. apply (A_nonsq (2 * u + A)).
    destruct (Fmul_integral K u (u * u + A * u + 1)) as [E|E]; [transitivity (0 * 0 : K); [rewrite H; ring|ring]|contradiction|].
    transitivity (2 * 2 * (u * u + A * u + 1) + A * A - 2 * 2); [ring|]. rewrite E. ring.
  Qed.
  Theorem psi_chain M : on M -> psi M = chain M.
  Proof.
    destruct M as [|u v]; intro H; [reflexivity|].
    unfold chain, step1, iso. unfold Iso4.psi. destruct (Feqd u 0) as [Z|N]; [reflexivity|].
    pose proof (v_nz u v H N) as Nv. pose proof (z0_nz K d A two d_nonsq HA u v H N) as N0. pose proof (z1_nz K A A_nonsq u v H N) as N1.
    unfold step2, move, step3, iso. cbn in H. unfold cubic in H.
    assert (X : v * v / (u * u) - (A - 2) = (u + 1) * (u + 1) / u) by (rewrite H; field; exact N).
    rewrite X. destruct (Feqd ((u + 1) * (u + 1) / u) 0) as [Z|NZ].
    - (* u = -1 *)
      assert (U : u = - (1)).
      { assert (Q : (u + 1) * (u + 1) = 0) by (transitivity ((u + 1) * (u + 1) / u * u); [field; exact N|rewrite Z; ring]).
        apply (Fsqr_zero K) in Q. transitivity (u + 1 - 1); [ring|]. rewrite Q. ring. }
      cbn [step4]. unfold step4, alpha. f_equal.
      + apply (Fdiv_eq_iff K _ _ _ N0). rewrite U. ring.
      + apply (Fdiv_eq_iff K _ _ _ N1). unfold Iso4.z1, n2. rewrite U. ring.
    - assert (Nu : u + 1 <> 0) by (intro Q; apply NZ; rewrite Q; field; exact N).
      set (Y := v * (1 - u * u) / (u * u)) in *. set (x' := (u + 1) * (u + 1) / u) in *.
      assert (B : (- (2 * 2) * (A - 2) - x' * x') * (u * u) = - z0 u v).
      { unfold x', Iso4.z0, n2. rewrite H. field. exact N. }
      assert (NB : - (2 * 2) * (A - 2) - x' * x' <> 0).
      { intro Q. apply N0. transitivity (- - z0 u v); [ring|]. rewrite <- B, Q. ring. }
      unfold step4, alpha. destruct (Feqd (Y * (- (2 * 2) * (A - 2) - x' * x') / (x' * x')) 0) as [Q|NQ].
      + assert (YZ : Y = 0).
        { destruct (Fmul_integral K Y (- (2 * 2) * (A - 2) - x' * x')) as [E|E]; [|exact E|contradiction].
          transitivity (Y * (- (2 * 2) * (A - 2) - x' * x') / (x' * x') * (x' * x')); [field; exact NZ|]. rewrite Q. ring. }
        assert (U : u * u - 1 = 0).
        { assert (W : v * (1 - u * u) = 0) by (transitivity (Y * (u * u)); [unfold Y; field; exact N|rewrite YZ; ring]).
          destruct (Fmul_integral K _ _ W) as [E|E]; [contradiction|]. transitivity (- (1 - u * u)); [ring|]. rewrite E. ring. }
        assert (U1 : u = 1).
        { destruct (Fmul_integral K (u + 1) (u - 1)) as [E|E]; [rewrite <- U; ring|contradiction|]. transitivity (u - 1 + 1); [ring|]. rewrite E. ring. }
        f_equal.
        * apply (Fdiv_eq_iff K _ _ _ N0). rewrite U. ring.
        * apply (Fdiv_eq_iff K _ _ _ N1). unfold Iso4.z1, n2. rewrite U1. ring.
      + assert (NY : Y <> 0) by (intro E; apply NQ; rewrite E; field; exact NZ).
        f_equal.
        * apply (Fdiv_eq_iff K _ _ _ N0).
          transitivity (2 * 2 * Y / (- (2 * 2) * (A - 2) - x' * x') * - ((- (2 * 2) * (A - 2) - x' * x') * (u * u))).
          -- transitivity (- (2 * 2 * (Y * (u * u)))); [unfold Y; field; exact N|field; exact NB].
          -- rewrite B. field. fs.
        * apply (Fdiv_eq_iff K _ _ _ N1).
          assert (W : Y * Y / (x' * x') = v * v * ((u - 1) * (u - 1)) / (u * u * ((u + 1) * (u + 1)))).
          { unfold Y, x'. field. fs. }
          rewrite W.
          assert (ND : v * v * ((u - 1) * (u - 1)) + (A + 2) * (u * u * ((u + 1) * (u + 1))) <> 0).
          { intro E. apply N1. destruct (Fmul_integral K 2 (z1 u v)) as [Q|Q]; [|exfalso; exact (two Q)|exact Q].
            transitivity (- (2 * (v * v * ((u - 1) * (u - 1)) + (A + 2) * (u * u * ((u + 1) * (u + 1)))))); [|rewrite E; ring].
            unfold Iso4.z1, n2. rewrite H. ring. }
          assert (EZ : z1 u v = - (v * v * ((u - 1) * (u - 1)) + (A + 2) * (u * u * ((u + 1) * (u + 1))))).
          { unfold Iso4.z1, n2. rewrite H. ring. }
          rewrite EZ. transitivity (- (v * v * ((u - 1) * (u - 1)) - (A + 2) * (u * u * ((u + 1) * (u + 1))))).
          -- unfold n2. rewrite H. ring.
          -- field. fs.
  Qed.
  Theorem psi_add M N : on M -> on N -> psi (padd M N) = eadd (psi M) (psi N).
  Proof.
    intros HM HN. rewrite !psi_chain by (try apply (on_padd K A 1 0 two); assumption). apply chain_add; assumption.
  Qed.

  (** *** doubling in terms of r = (u^2 - 1)/(2 v) and g = (u + 1/u)/2 - r^2 *)
  Definition hr (u v : K) : K := (u * u - 1) / (2 * v).
  Definition hg (u v : K) : K := (u + 1 / u) / 2 - hr u v * hr u v.
  Lemma dbl_rg u v : on (Aff u v) -> u <> 0 -> padd (Aff u v) (Aff u v) = Aff (hr u v * hr u v) (hr u v * hg u v).
  Proof.
    intros H N. pose proof (v_nz u v H N) as Nv. rewrite (padd_dbl K A 1 two) by exact Nv. unfold third, dcubic. cbn in H. unfold cubic in H.
    set (l := (3 * (u * u) + 2 * A * u + 1) / (2 * v)).
    assert (X : l * l - A - u - u = hr u v * hr u v).
    { assert (Nw : v * v <> 0) by (apply Fmul_nonzero; exact Nv).
      transitivity ((3 * (u * u) + 2 * A * u + 1) * (3 * (u * u) + 2 * A * u + 1) / (2 * 2 * (v * v)) - A - u - u); [unfold l; field; fs|].
      transitivity ((u * u - 1) * (u * u - 1) / (2 * 2 * (v * v))); [|unfold hr; field; fs].
      apply (Fcancel_l K (2 * 2 * (v * v))); [apply Fmul_nonzero; [exact four|exact Nw]|].
      transitivity ((3 * (u * u) + 2 * A * u + 1) * (3 * (u * u) + 2 * A * u + 1) - 2 * 2 * (v * v) * (A + u + u)); [field; fs|].
      transitivity ((u * u - 1) * (u * u - 1)); [rewrite H; ring|field; fs]. }
    rewrite X. f_equal. unfold hg. set (r := hr u v) in *.
    assert (Er : r * (2 * v) = u * u - 1) by (unfold r, hr; field; fs).
    assert (El : l = r + (u + 1 / u) / 2 * 0 + (v / u - r) * 1 + (l - v / u)) by ring.
    (* l = v/u + r as 2 v (v/u + r) = 2 (u^2 + A u + 1) + u^2 - 1 *)
    assert (L : l = v / u + r).
    { apply (Fcancel_l K (2 * v)); [apply Fmul_nonzero; assumption|].
      transitivity (3 * (u * u) + 2 * A * u + 1); [unfold l; field; fs|].
      transitivity (2 * (v * v) / u + r * (2 * v)); [|field; exact N]. rewrite Er, H. field. exact N. }
    rewrite L. clear El X L. apply (Fcancel_l K (2 * v)); [apply Fmul_nonzero; assumption|].
    transitivity (2 * (v * v) - 2 * (v * v) / u * (r * r) + r * (2 * v) * (u - r * r) - 2 * (v * v)); [field; exact N|].
    transitivity (r * (2 * v) * ((u + 1 / u) / 2 - r * r)); [|ring].
    transitivity (r * (2 * v) * (u - r * r) - r * v / u * (r * (2 * v))); [field; exact N|].
    rewrite Er at 2. transitivity (r * (2 * v) * (u - r * r) - r * (2 * v) * ((u * u - 1) / (2 * u))); [field; fs|].
    field. fs.
  Qed.
  Lemma psi_rg u v : on (Aff u v) -> u <> 0 ->
    hr u v * hr u v + 1 <> 0 /\ hg u v <> 0
    /\ psi (Aff u v) = (2 * hr u v / (hr u v * hr u v + 1), (hr u v * hr u v - 1) / hg u v).
  Proof.
    intros H N. pose proof (v_nz u v H N) as Nv. pose proof (z0_nz K d A two d_nonsq HA u v H N) as N0. pose proof (z1_nz K A A_nonsq u v H N) as N1.
    assert (E0 : (hr u v * hr u v + 1) * (2 * 2 * (v * v)) = z0 u v).
    { unfold hr, Iso4.z0, n2. field. fs. }
    assert (E1 : hg u v * - (2 * 2 * u * (v * v)) = z1 u v).
    { unfold hg, hr, Iso4.z1, n2. field. fs. }
    assert (Q0 : hr u v * hr u v + 1 <> 0) by (intro E; apply N0; rewrite <- E0, E; ring).
    assert (Q1 : hg u v <> 0) by (intro E; apply N1; rewrite <- E1, E; ring).
    split; [exact Q0|]. split; [exact Q1|]. unfold Iso4.psi. destruct (Feqd u 0) as [?|_]; [contradiction|].
    assert (R : hr u v * (2 * v) = u * u - 1) by (unfold hr; field; fs).
    f_equal.
    - apply (Fdiv_eq_iff K _ _ _ N0). rewrite <- E0, <- R. field. exact Q0.
    - apply (Fdiv_eq_iff K _ _ _ N1). rewrite <- E1. unfold n2. rewrite <- R. field. exact Q1.
  Qed.
  Theorem phi_psi M : on M -> phi (psi M) = padd (padd M M) (padd M M).
  Proof.
    destruct M as [|u v]; intro H.
    { unfold Iso4.psi, Iso4.phi. destruct (Feqd 0 (0 : K)) as [_|N]; [reflexivity|destruct (N eq_refl)]. }
    assert (Z00 : padd (Aff 0 0) (Aff 0 0) = Inf).
    { unfold ECGroup.padd. destruct (Feqd 0 (0 : K)) as [_|N]; [|destruct (N eq_refl)]. destruct (Feqd 0 (- 0 : K)) as [_|N]; [reflexivity|]. destruct N. ring. }
    destruct (Feqd u 0) as [Z|N].
    { assert (V : v = 0) by (cbn in H; unfold cubic in H; apply (Fsqr_zero K); rewrite H, Z; ring). rewrite Z, V, Z00. cbn [ECGroup.padd].
      unfold Iso4.psi. destruct (Feqd 0 (0 : K)) as [_|N]; [|destruct (N eq_refl)]. unfold Iso4.phi. destruct (Feqd 0 (0 : K)) as [_|N]; [reflexivity|destruct (N eq_refl)]. }
    rewrite (dbl_rg u v H N). destruct (psi_rg u v H N) as (Q0 & Q1 & ->).
    pose proof (on_padd K A 1 0 two _ _ H H) as O2. rewrite (dbl_rg u v H N) in O2.
    set (r := hr u v) in *. set (g := hg u v) in *. clearbody r g.
    destruct (Feqd r 0) as [->|Nr].
    - replace (0 * 0) with (0 : K) by ring. replace (0 * g) with (0 : K) by ring. rewrite Z00.
      unfold Iso4.phi. destruct (Feqd (2 * 0 / (0 + 1)) 0) as [_|Q]; [reflexivity|]. destruct Q. replace (0 + 1) with (1 : K) by ring. field. exact (F_1_neq_0 K).
    - assert (Nrr : r * r <> 0) by (apply Fmul_nonzero; exact Nr).
      rewrite (dbl_rg _ _ O2 Nrr). unfold Iso4.phi. destruct (Feqd (2 * r / (r * r + 1)) 0) as [E|_].
      + exfalso. apply (Fmul_nonzero K 2 r two Nr). transitivity (2 * r / (r * r + 1) * (r * r + 1)); [field; exact Q0|]. rewrite E. ring.
      + set (x := 2 * r / (r * r + 1)). set (y := (r * r - 1) / g).
        assert (Nx : x <> 0).
        { intro E. apply (Fmul_nonzero K 2 r two Nr). transitivity (x * (r * r + 1)); [unfold x; field; exact Q0|]. rewrite E. ring. }
        assert (YX : y / x = hr (r * r) (r * g)).
        { unfold hr, x, y. field. fs. }
        assert (IX : 2 / (x * x) - 1 = (r * r + 1 / (r * r)) / 2).
        { unfold x. field. fs. }
        f_equal.
        * rewrite <- YX. field. exact Nx.
        * unfold hg. rewrite <- YX, <- IX. field. exact Nx.
  Qed.
  (** the kernel of psi: the identity, (0, 0) and the points with u = -1 *)
  Theorem psi_kernel M : on M -> (psi M = (0, 1) <-> M = Inf \/ exists v, M = Aff 0 v \/ M = Aff (- (1)) v).
  Proof.
    destruct M as [|u v]; intro H; [split; [left; reflexivity|reflexivity]|]. split.
    - intro E. right. exists v. destruct (Feqd u 0) as [->|N]; [left; reflexivity|right]. f_equal.
      destruct (psi_rg u v H N) as (Q0 & Q1 & R). rewrite E in R. pose proof (f_equal fst R) as E1. pose proof (f_equal snd R) as E2. cbn [fst snd] in E1, E2.
      pose proof (v_nz u v H N) as Nv.
      assert (Z : hr u v = 0).
      { symmetry in E1. apply (Fdiv_eq_iff K _ _ _ Q0) in E1. destruct (Fmul_integral K 2 (hr u v)) as [X|X]; [rewrite E1; ring|exfalso; exact (two X)|exact X]. }
      symmetry in E2. apply (Fdiv_eq_iff K _ _ _ Q1) in E2. rewrite Z in E2.
      assert (G : (u + 1 / u) = - (2)).
      { apply (Fcancel_l K (1 / 2)); [intro X; apply (F_1_neq_0 K); transitivity (1 / 2 * 2 : K); [field; exact two|rewrite X; ring]|].
        transitivity (hg u v); [unfold hg; rewrite Z; field; fs|]. transitivity (1 * hg u v); [ring|]. rewrite <- E2. field. fs. }
      assert (W : (u + 1) * (u + 1) = 0).
      { transitivity (u * (u + 1 / u) + 2 * u); [field; exact N|]. rewrite G. ring. }
      apply (Fsqr_zero K) in W. transitivity (u + 1 - 1); [ring|]. rewrite W. ring.
    - intros [E|(w & [E|E])]; [discriminate E| |]; apply (f_equal (fun t => match t with ECGroup.Inf _ => None | ECGroup.Aff _ x y => Some (x, y) end)) in E; injection E as -> ->.
      + unfold Iso4.psi. destruct (Feqd 0 (0 : K)) as [_|X]; [reflexivity|destruct (X eq_refl)].
      + assert (N : - (1) <> (0 : K)) by (intro X; apply (F_1_neq_0 K); transitivity (- - (1 : K)); [ring|rewrite X; ring]).
        destruct (psi_rg _ _ H N) as (Q0 & Q1 & ->). pose proof (v_nz _ _ H N) as Nv.
        assert (Z : hr (- (1)) w = 0) by (unfold hr; field; fs).
        assert (G : hg (- (1)) w = - (1)) by (unfold hg; rewrite Z; field; fs).
        rewrite Z, G in *. f_equal; [apply (Fdiv_eq_iff K _ _ _ Q0)|apply (Fdiv_eq_iff K _ _ _ N)]; ring.
  Qed.
End Dual.
