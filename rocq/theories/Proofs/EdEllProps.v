(** Elligator 2 on the Edwards curves: C51. *)
From Coq Require Import ZArith Znumtheory Lia String Ascii Bool List.
From Verif.Math Require Import Fld Zp Residue.
From Verif.Spec Require Import Arith Curve Instances RatMaps Maps.
From Verif.Model Require Import Out BigInt PrimeField Instances RationalMaps.
From Verif.Model Require WCurve MCurve ECurve Maps.
From Verif.Proofs Require Import FieldP FieldProps CurveP.
From Verif.Proofs Require MontProps EdwProps MapsProps InstP InstShip InstProps RatProps Rat4Props Cert_Ell.
From Verif.Math Require Prime_p25519 Prime_p448.
From Verif.Spec Require Export Morphisms.
Import EPoints(edw, epoint, esum, eon).
Import MPoints(mont, mpoint, msum, mon).
Import Morphisms(birat, bmap).
Import Morphisms(iso4, imap, dmap).
Import ListNotations.
Open Scope Z_scope.

(** *** the Elligator 2 point of b = 1 *)
Lemma bind_inv A B (m : out A) (k : A -> out B) r : bind m k = Ret r -> exists a, m = Ret a /\ k a = Ret r.
Proof. destruct m as [a|msg]; cbn [bind]; [intro H; exists a; auto|discriminate]. Qed.
Lemma new_point_one e x y P : 2 < modulus (MCurve.c_f e) -> MCurve.new_point e x y = Ret P -> val (MCurve.pz (MCurve.pc P)) = 1.
Proof.
  intros H2 H. unfold MCurve.new_point in H. apply bind_inv in H. destruct H as (o & Eo & H).
  apply bind_inv in H. destruct H as (ok & _ & H). unfold do_if_eq in H. destruct ok; [|discriminate]. injection H as <-. cbn [MCurve.pc MCurve.pz].
  unfold one, elt, mod_floor in Eo. destruct (Z.eqb_spec (modulus (MCurve.c_f e)) 0); [lia|]. cbn [bind] in Eo. injection Eo as <-. cbn [val].
  apply Z.mod_small. lia.
Qed.
Lemma ell2_map_one m u P : 2 < modulus (MCurve.c_f (Maps.el_e m)) -> Maps.ell2_map m u = Ret P -> val (MCurve.pz (MCurve.pc P)) = 1.
Proof.
  intros H2 H. unfold Maps.ell2_map in H.
  repeat (match type of H with bind _ _ = _ => apply bind_inv in H end; let a := fresh "a" in destruct H as (a & _ & H); cbv zeta in H).
  eapply new_point_one; eassumption.
Qed.
Lemma ell2_new_el e z m : Maps.ell2_new e z = Ret m -> Maps.el_e m = e.
Proof.
  unfold Maps.ell2_new. destruct (negb _); [discriminate|]. intro H.
  repeat (apply bind_inv in H; let a := fresh "a" in destruct H as (a & _ & H)). injection H as <-. reflexivity.
Qed.

Section Zero.
  Variables (p A z u : Z) (Hp : prime p) (Hp2 : 2 < p) (HA : ~ (p | A)) (Hz : ~ square_mod p z).
  Lemma nonsq_ndiv : ~ (p | z).
  Proof. intro D. apply Hz. exists 0. rewrite Z.mul_0_l, Z.sub_0_l. apply Z.divide_opp_r. exact D. Qed.
  Lemma square_mod_ext x y : (p | x - y) -> square_mod p x -> square_mod p y.
  Proof. intros D [r R]. exists r. replace (r * r - y) with ((r * r - x) + (x - y)) by ring. apply Z.divide_add_r; assumption. Qed.
  Lemma cubic_opp x1 : (p | x1 + A) -> (p | 1 * mont_cubic A x1 - - A) /\ (p | - A - 1 * mont_cubic A x1).
  Proof.
    intros [k K]. unfold mont_cubic. split.
    - exists (k * (x1 * x1 + 1)). nia.
    - exists (- (k * (x1 * x1 + 1))). nia.
  Qed.
  Lemma dvd_small x : coord p x -> (p | x) -> x = 0.
  Proof. intros [H1 H2] D. destruct (Z.eq_dec x 0) as [E|E]; [exact E|]. apply Z.divide_pos_le in D; lia. Qed.
  (** the point (0, 0) is reached exactly from the exceptional inputs, and only when -A is not a square *)
  Lemma ell2_zero : (exists y, ell2_point p A 1 z u 0 y) <->
    ((p | u) \/ (p | 1 + z * (u * u))) /\ ~ square_mod p (- A).
  Proof.
    split.
    - intros (y & x1 & w & (Cx1 & H1 & H2) & _ & Cy & Cw & _ & _ & S & N).
      assert (NS : ~ square_mod p (1 * mont_cubic A x1)).
      { intro Q. destruct (S Q) as [E _]. subst x1.
        destruct (Zdivide_dec p (1 + z * (u * u))) as [D|D].
        - apply HA. specialize (H1 D). exact H1.
        - apply HA. specialize (H2 D). exact H2. }
      destruct (N NS) as [D _]. rewrite Z.add_0_l in D. split.
      + destruct (Zdivide_dec p (1 + z * (u * u))) as [D1|D1]; [right; exact D1|left]. specialize (H2 D1).
        assert (D2 : (p | A * (z * (u * u)))).
        { replace (A * (z * (u * u))) with ((x1 + A) * (1 + z * (u * u)) - (x1 * (1 + z * (u * u)) + A)) by ring.
          apply Z.divide_sub_r; [apply Z.divide_mul_l; exact D|exact H2]. }
        destruct (prime_mult p Hp _ _ D2) as [O|D3]; [contradiction|].
        destruct (prime_mult p Hp _ _ D3) as [O|D4]; [destruct (nonsq_ndiv O)|].
        destruct (prime_mult p Hp _ _ D4); assumption.
      + intro Q. apply NS. apply (square_mod_ext (- A)); [apply (cubic_opp x1 D)|exact Q].
    - intros [D NS]. exists 0. exists ((- A) mod p), 0.
      assert (P0 : 0 < p) by lia.
      assert (DX : (p | (- A) mod p + A)).
      { replace ((- A) mod p + A) with ((- A) mod p - - A) by ring. apply Z.mod_divide; [lia|]. rewrite Zminus_mod_idemp_l. rewrite Z.sub_diag. apply Z.mod_0_l. lia. }
      split; [|split; [split; lia|split; [split; lia|split; [split; lia|]]]].
      + split; [apply Z.mod_pos_bound; exact P0|]. split; [intros _; exact DX|]. intro N1. destruct D as [D|D]; [|contradiction].
        replace ((- A) mod p * (1 + z * (u * u)) + A) with (((- A) mod p + A) + ((- A) mod p * (z * u)) * u) by ring.
        apply Z.divide_add_r; [exact DX|]. apply Z.divide_mul_r. exact D.
      + split; [exists 0; reflexivity|]. split; [exists 0; unfold mont_cubic; ring|].
        assert (NS' : ~ square_mod p (1 * mont_cubic A ((- A) mod p))).
        { intro Q. apply NS. apply (square_mod_ext _ _ (proj1 (cubic_opp _ DX)) Q). }
        split; [intro Q; contradiction|]. intros _. split; [|reflexivity]. rewrite Z.add_0_l. exact DX.
  Qed.
  Lemma ell2_zero_y y : ell2_point p A 1 z u 0 y -> y = 0.
  Proof.
    intros (x1 & w & _ & _ & Cy & _ & _ & D & _). unfold mont_cubic in D. apply (dvd_small _ Cy).
    replace (1 * (y * y) - (0 * 0 * 0 + A * (0 * 0) + 0)) with (y * y) in D by ring. destruct (prime_mult p Hp _ _ D); assumption.
  Qed.
End Zero.

Lemma coord_unique p X x x' : coord p x -> coord p x' -> (p | X - x) -> (p | X - x') -> x' = x.
Proof.
  intros C C' D D'. assert (DD : (p | x' - x)) by (replace (x' - x) with ((X - x) - (X - x')) by ring; apply Z.divide_sub_r; assumption).
  unfold coord in *. destruct (Z.eq_dec (x' - x) 0) as [E|E]; [lia|]. destruct DD as [k K]. destruct (Z.eq_dec k 0); nia.
Qed.
Lemma mont_mfield e : mont e -> sqrt_modulus (modulus (MCurve.c_f e)) -> Morphisms.mfield e.
Proof. intros (H1 & H2 & H3 & H4 & _) Hm. repeat (split; [assumption|]). exact H4. Qed.
Lemma ell2_new_nonzero e z m : Morphisms.mfield e -> valid (modulus (MCurve.c_f e)) z -> Maps.ell2_new e z = Ret m ->
  ~ (modulus (MCurve.c_f e) | val (MCurve.c_a e)).
Proof.
  intros W Vz E D. destruct (MapsProps.c42_new e z W Vz) as [_ H].
  rewrite H in E; [discriminate|]. left. destruct W as (_ & _ & _ & (_ & Ca) & _). apply (dvd_small _ _ Ca D).
Qed.
(** the map composed with the Elligator 2 map: the result of the first step *)
Lemma ell2_step e z u m : mont e -> sqrt_modulus (modulus (MCurve.c_f e)) -> valid (modulus (MCurve.c_f e)) z ->
  valid (modulus (MCurve.c_f e)) u -> ~ square_mod (modulus (MCurve.c_f e)) (val z) -> Maps.ell2_new e z = Ret m ->
  exists P x y, Maps.ell2_map m u = Ret P /\ mpoint e P (Affine x y) /\ val (MCurve.pz (MCurve.pc P)) = 1
    /\ forall x' y', ell2_image e (val z) (val u) x' y' <-> x' = x /\ y' = y.
Proof.
  intros W Hm Vz Vu Nz E. pose proof (mont_mfield e W Hm) as WF. pose proof W as (_ & H2 & _ & _ & _ & b1 & _).
  assert (B : (modulus (MCurve.c_f e) | val (MCurve.c_b e) * val (MCurve.c_b e) - 1)) by (rewrite b1; exists 0; reflexivity).
  destruct (MapsProps.c42_total e z u m WF Vz Vu B E Nz) as (P & x & y & EP & HP & HI).
  exists P, x, y. split; [exact EP|]. split; [exact HP|]. split.
  - apply (ell2_map_one m u P); [|exact EP]. rewrite (ell2_new_el _ _ _ E). exact H2.
  - intros x' y'. destruct (MapsProps.c42_map e z u m WF Vz Vu B E) as [H _]. destruct (H x y HI) as (P' & EP' & HP').
    rewrite EP in EP'. injection EP' as <-. unfold ell2_image. rewrite <- HP'. split.
    + intro HQ. assert (Z1 : val (MCurve.pz (MCurve.pc P)) = 1).
      { apply (ell2_map_one m u P); [|exact EP]. rewrite (ell2_new_el _ _ _ E). exact H2. }
      destruct HP as (_ & _ & _ & _ & (_ & X1 & Y1) & (C1 & C2 & _)), HQ as (_ & _ & _ & _ & (_ & X2 & Y2) & (C3 & C4 & _)).
      rewrite Z1, Z.mul_1_r in X1, Y1, X2, Y2. split; eapply coord_unique; eassumption.
    + intros [-> ->]. exact HP.
Qed.

(** *** C51 *)
(** Ell2::new of the Edwards curves without a rational map is not implemented, and it refuses a map of another curve *)
Lemma c51_new : forall e z, ed_ell2_new e z None = Panic "not yet implemented"
  /\ (forall r, rat_domain r <> e -> ed_ell2_new e z (Some r) = Panic "Domain of rational map is incompatible with curve")
  /\ (forall r, rat_domain r = e -> mont (rat_codomain r) -> sqrt_modulus (modulus (MCurve.c_f (rat_codomain r))) ->
      valid (modulus (MCurve.c_f (rat_codomain r))) z ->
      (val (MCurve.c_a (rat_codomain r)) <> 0 -> exists m, ed_ell2_new e z (Some r) = Ret m)
      /\ (val (MCurve.c_a (rat_codomain r)) = 0 -> ed_ell2_new e z (Some r) = Panic "wrong input parameters")).
Proof.
  intros e z. split; [reflexivity|]. split.
  - intros r N. unfold ed_ell2_new. destruct (ECurve.curve_eqb (rat_domain r) e) eqn:E; [|reflexivity].
    apply EdwProps.curve_eqb_eq in E. contradiction.
  - intros r E W Hm Vz. unfold ed_ell2_new. rewrite (proj2 (EdwProps.curve_eqb_eq _ _) E). cbn [negb].
    destruct (MapsProps.c42_new _ z (mont_mfield _ W Hm) Vz) as [H1 H2]. pose proof W as (_ & _ & _ & _ & _ & b1 & _). split; intro Ha.
    + destruct (H1 Ha) as [m ->]; [rewrite b1; discriminate|]. eexists. reflexivity.
    + rewrite H2 by (left; exact Ha). reflexivity.
Qed.
Lemma ed_new_inv e z r M : ed_ell2_new e z (Some r) = Ret M -> exists m, Maps.ell2_new (rat_codomain r) z = Ret m /\ M = mkEdEll2 r m.
Proof.
  unfold ed_ell2_new. destruct (negb _); [discriminate|]. intro H. apply bind_inv in H. destruct H as (m & E & H).
  injection H as <-. exists m. auto.
Qed.
(** over the birational map, it returns for every u the point corresponding to the Elligator 2 point of the Montgomery curve *)
Lemma c51_map_25519 : forall m z u M, let p := modulus (ECurve.c_f (ed_e0 m)) in
  birat m -> sqrt_modulus p -> valid p z -> valid p u -> ~ square_mod p (val z) ->
  ed_ell2_new (ed_e0 m) z (Some (R25519 m)) = Ret M ->
  exists P x y, ed_ell2_map M u = Ret P /\ ell2_image (ed_e1 m) (val z) (val u) x y
    /\ (exists E, epoint (ed_e0 m) P E)
    /\ forall E, epoint (ed_e0 m) P E <-> eon (ed_e0 m) E /\ bmap m E (Affine x y).
Proof.
  intros m z u M p W Hm Vz Vu Nz EM. pose proof W as (We & Wm & Ep & _). fold p in Ep.
  apply ed_new_inv in EM. destruct EM as (m0 & E0 & ->). cbn [rat_codomain] in E0.
  rewrite <- Ep in Hm, Vz, Vu, Nz.
  destruct (ell2_step (ed_e1 m) z u m0 Wm Hm Vz Vu Nz E0) as (Q & x & y & EQ & HQ & Z1 & HI).
  assert (I : ell2_image (ed_e1 m) (val z) (val u) x y) by (apply HI; auto).
  unfold ed_ell2_map. cbn [ee_map ee_ratmap]. rewrite EQ. cbn [bind rat_pull].
  assert (EX : exists P, ed25519_pull m Q = Ret P /\ forall E, epoint (ed_e0 m) P E <-> eon (ed_e0 m) E /\ bmap m E (Affine x y)).
  { destruct (Z.eq_dec x 0) as [->|Nx]; [destruct (Z.eq_dec y 0) as [->|Ny]|].
    - destruct (RatProps.c43_pull_two_normalised m Q W HQ Z1) as (P & EP & HP). exists P. split; [exact EP|]. intro E. rewrite HP. split.
      + intros ->. split; [|right; left; split; reflexivity]. fold p. destruct We as (_ & H2 & _). fold p in H2.
        unfold eon, EPoints.eon, on_edwards. fold p. cbn [fst snd]. split; [split; lia|]. split; [split; lia|]. exists (p - 2). ring.
      + intros [HE HB]. apply (RatProps.bmap_two m E W HE HB).
    - apply (RatProps.c43_pull m Q _ W HQ). congruence.
    - apply (RatProps.c43_pull m Q _ W HQ). congruence. }
  destruct EX as (P & EP & HP). exists P, x, y. split; [exact EP|]. split; [exact I|]. split; [|exact HP].
  destruct (proj2 (RatProps.c43_bijection m W) (Affine x y)) as (E & HE & HU); [apply (RatProps.mpoint_mon _ _ _ HQ)|].
  exists E. apply HP. split; [exact HE|]. apply HU; [exact HE|reflexivity].
Qed.
(** over the 4-isogeny, it returns the image of the Elligator 2 point unless this point is (0, 0) *)
Lemma c51_map_448 : forall m z u M, let p := modulus (ECurve.c_f (e4_e0 m)) in
  iso4 m -> sqrt_modulus p -> valid p z -> valid p u -> ~ square_mod p (val z) ->
  ed_ell2_new (e4_e0 m) z (Some (R448 m)) = Ret M ->
  exists P x y, ed_ell2_map M u = Ret P /\ ell2_image (e4_e1 m) (val z) (val u) x y
    /\ ((x, y) <> (0, 0) -> (exists E, epoint (e4_e0 m) P E) /\ forall E, epoint (e4_e0 m) P E <-> dmap m (Affine x y) E)
    /\ ((x, y) = (0, 0) -> val (ECurve.px (ECurve.pc P)) = 0 /\ val (ECurve.py (ECurve.pc P)) = 0
        /\ val (ECurve.ptt (ECurve.pc P)) = 0 /\ val (ECurve.pz (ECurve.pc P)) = 0 /\ (forall E, ~ epoint (e4_e0 m) P E)).
Proof.
  intros m z u M p W Hm Vz Vu Nz EM. pose proof W as (We & Wm & Ep & _). fold p in Ep.
  apply ed_new_inv in EM. destruct EM as (m0 & E0 & ->). cbn [rat_codomain] in E0.
  rewrite <- Ep in Hm, Vz, Vu, Nz.
  destruct (ell2_step (e4_e1 m) z u m0 Wm Hm Vz Vu Nz E0) as (Q & x & y & EQ & HQ & Z1 & HI).
  assert (I : ell2_image (e4_e1 m) (val z) (val u) x y) by (apply HI; auto).
  unfold ed_ell2_map. cbn [ee_map ee_ratmap]. rewrite EQ. cbn [bind rat_pull].
  destruct (Z.eq_dec x 0) as [Ex|Nx]; [destruct (Z.eq_dec y 0) as [Ey|Ny]|].
  - subst x y. destruct (Rat4Props.c44_pull_refuted m Q W HQ) as (_ & P & EP & X & Y & T & Z0 & B & _).
    exists P, 0, 0. split; [exact EP|]. split; [exact I|]. split; [congruence|]. intros _. auto.
  - destruct (Rat4Props.c44_pull m Q _ W HQ ltac:(congruence)) as (P & EP & HP).
    exists P, x, y. split; [exact EP|]. split; [exact I|]. split; [|congruence]. intros _. split; [|exact HP].
    destruct (Rat4Props.c44_dual m _ W (RatProps.mpoint_mon _ _ _ HQ)) as (E & HE & HU). exists E. apply HP, HU. reflexivity.
  - destruct (Rat4Props.c44_pull m Q _ W HQ ltac:(congruence)) as (P & EP & HP).
    exists P, x, y. split; [exact EP|]. split; [exact I|]. split; [|congruence]. intros _. split; [|exact HP].
    destruct (Rat4Props.c44_dual m _ W (RatProps.mpoint_mon _ _ _ HQ)) as (E & HE & HU). exists E. apply HP, HU. reflexivity.
Qed.
(** the shipped Montgomery curves: the opposite of A is not a square *)
Lemma nonsq_transfer p (Hp : prime p) d A sl : InstP.nonsq_check p d sl = true -> d = p - A -> ~ square_mod p (- A).
Proof.
  intros H E [s D]. destruct (InstP.nonsq_ok p Hp d sl H) as [H2 N]. apply (N (of_Z p s)).
  change (zmul (of_Z p s) (of_Z p s) = of_Z p d). rewrite <- of_Z_mul. apply of_Z_div; [lia|]. subst d.
  replace (s * s - (p - A)) with ((s * s - - A) + (- 1) * p) by ring. apply Z.divide_add_r; [exact D|apply Z.divide_factor_r].
Qed.
Lemma std_448 e : CURVE448 = Ret e -> sqrt_modulus (modulus (MCurve.c_f e)) /\ val (MCurve.c_a e) <> 0
  /\ ~ (modulus (MCurve.c_f e) | val (MCurve.c_a e)) /\ ~ square_mod (modulus (MCurve.c_f e)) (- val (MCurve.c_a e)).
Proof.
  intro X. destruct InstProps.c48_CURVE448 as (e1 & X1 & p1 & a1 & _). rewrite X in X1. injection X1 as <-. rewrite p1, a1.
  replace (m_a std_CURVE448 mod m_p std_CURVE448) with 156326 by (vm_compute; reflexivity).
  replace (m_p std_CURVE448) with 726838724295606890549323807888004534353641360687318060281490199180612328166730772686396383698676545930088884461843637361053498018365439 by (vm_compute; reflexivity).
  split; [left; vm_compute; reflexivity|]. split; [discriminate|]. split.
  - intro D. apply Z.mod_divide in D; [|vm_compute; discriminate]. revert D. vm_compute. discriminate.
  - apply (nonsq_transfer _ Prime_p448.prime_p448 726838724295606890549323807888004534353641360687318060281490199180612328166730772686396383698676545930088884461843637361053498018209113 156326 8 Cert_Ell.nonsq_A448). vm_compute. reflexivity.
Qed.
Lemma std_25519 e : CURVE25519 = Ret e -> sqrt_modulus (modulus (MCurve.c_f e)) /\ val (MCurve.c_a e) <> 0
  /\ ~ (modulus (MCurve.c_f e) | val (MCurve.c_a e)) /\ ~ square_mod (modulus (MCurve.c_f e)) (- val (MCurve.c_a e)).
Proof.
  intro X. destruct InstProps.c48_CURVE25519 as (e1 & X1 & p1 & a1 & _). rewrite X in X1. injection X1 as <-. rewrite p1, a1.
  replace (m_a std_CURVE25519 mod m_p std_CURVE25519) with 486662 by (vm_compute; reflexivity).
  replace (m_p std_CURVE25519) with 57896044618658097711785492504343953926634992332820282019728792003956564819949 by (vm_compute; reflexivity).
  split; [right; vm_compute; reflexivity|]. split; [discriminate|]. split.
  - intro D. apply Z.mod_divide in D; [|vm_compute; discriminate]. revert D. vm_compute. discriminate.
  - apply (nonsq_transfer _ Prime_p25519.prime_p25519 57896044618658097711785492504343953926634992332820282019728792003956564333287 486662 8 Cert_Ell.nonsq_A25519). vm_compute. reflexivity.
Qed.
(** on edwards448 the result is a point of the curve exactly when u <> 0 and z u^2 <> -1, and otherwise it is (0, 0, 0, 0) *)
Lemma c51_edwards448_refuted : exists m, edwards448_to_curve448 = Ret m /\
  forall z u, let p := modulus (ECurve.c_f (e4_e0 m)) in valid p z -> valid p u -> ~ square_mod p (val z) ->
  exists M P, ed_ell2_new (e4_e0 m) z (Some (R448 m)) = Ret M /\ ed_ell2_map M u = Ret P
    /\ ((exists E, epoint (e4_e0 m) P E) <-> ~ ((p | val u) \/ (p | 1 + val z * (val u * val u))))
    /\ ((p | val u) \/ (p | 1 + val z * (val u * val u)) ->
        val (ECurve.px (ECurve.pc P)) = 0 /\ val (ECurve.py (ECurve.pc P)) = 0
        /\ val (ECurve.ptt (ECurve.pc P)) = 0 /\ val (ECurve.pz (ECurve.pc P)) = 0).
Proof.
  destruct Rat4Props.c44_shipped as (m & X & X0 & X1 & W). exists m. split; [exact X|]. intros z u p Vz Vu Nz.
  destruct (std_448 _ X1) as (Hm & Na & NA & NSA). pose proof W as (We & Wm & Ep & _). fold p in Ep. pose proof We as (Hp & Hp2 & _). fold p in Hp, Hp2.
  rewrite Ep in Hm, NA, NSA.
  destruct (c51_new (e4_e0 m) z) as (_ & _ & HN). destruct (HN (R448 m) eq_refl Wm) as [HN' _]; [cbn [rat_codomain]; rewrite Ep; assumption..|].
  destruct (HN' Na) as [M EM]. destruct (c51_map_448 m z u M W Hm Vz Vu Nz EM) as (P & x & y & EP & I & H1 & H2).
  exists M, P. split; [exact EM|]. split; [exact EP|]. unfold ell2_image in I. rewrite Ep, (proj1 (proj2 (proj2 (proj2 (proj2 (proj2 Wm)))))) in I.
  assert (ZZ : (x, y) = (0, 0) <-> (p | val u) \/ (p | 1 + val z * (val u * val u))).
  { pose proof (ell2_zero p (val (MCurve.c_a (e4_e1 m))) (val z) (val u) Hp Hp2 NA Nz) as HZ. split.
    - intro E. injection E as -> ->. apply HZ. exists 0. exact I.
    - intro D. assert (x = 0).
      { destruct (proj2 HZ (conj D NSA)) as (y' & I'). destruct (ell2_step (e4_e1 m) z u) with (m := ee_map M) as (_ & x2 & y2 & _ & _ & _ & U); try rewrite Ep; try assumption.
        - destruct (ed_new_inv _ _ _ _ EM) as (m0 & E0 & ->). exact E0.
        - unfold ell2_image in U. rewrite Ep, (proj1 (proj2 (proj2 (proj2 (proj2 (proj2 Wm)))))) in U.
          apply U in I. apply U in I'. lia. }
      subst x. rewrite (ell2_zero_y p _ _ _ Hp _ I). reflexivity. }
  split.
  - rewrite <- ZZ. split.
    + intros [E HE] O. destruct (H2 O) as (_ & _ & _ & _ & N). apply (N E HE).
    + intro O. apply (H1 O).
  - intro D. apply ZZ in D. destruct (H2 D) as (A1 & A2 & A3 & A4 & _). auto.
Qed.
(** on edwards25519 the result is always a point of the curve, and it is (0, -1) exactly for these inputs *)
Lemma c51_edwards25519 : exists m, edwards25519_to_curve25519 = Ret m /\
  forall z u, let p := modulus (ECurve.c_f (ed_e0 m)) in valid p z -> valid p u -> ~ square_mod p (val z) ->
  exists M P E, ed_ell2_new (ed_e0 m) z (Some (R25519 m)) = Ret M /\ ed_ell2_map M u = Ret P
    /\ (forall E', epoint (ed_e0 m) P E' <-> E' = E)
    /\ (exists x y, ell2_image (ed_e1 m) (val z) (val u) x y /\ bmap m E (Affine x y))
    /\ (E = (0, p - 1) <-> (p | val u) \/ (p | 1 + val z * (val u * val u))).
Proof.
  destruct RatProps.c43_shipped as (m & X & X0 & X1 & W). exists m. split; [exact X|]. intros z u p Vz Vu Nz.
  destruct (std_25519 _ X1) as (Hm & Na & NA & NSA). pose proof W as (We & Wm & Ep & _). fold p in Ep. pose proof We as (Hp & Hp2 & _). fold p in Hp, Hp2.
  rewrite Ep in Hm, NA, NSA.
  destruct (c51_new (ed_e0 m) z) as (_ & _ & HN). destruct (HN (R25519 m) eq_refl Wm) as [HN' _]; [cbn [rat_codomain]; rewrite Ep; assumption..|].
  destruct (HN' Na) as [M EM]. destruct (c51_map_25519 m z u M W Hm Vz Vu Nz EM) as (P & x & y & EP & I & (E & HE) & H1).
  exists M, P, E. split; [exact EM|]. split; [exact EP|]. destruct (proj1 (H1 E) HE) as [OE BE].
  assert (MM : mon (ed_e1 m) (Affine x y)) by (destruct (proj1 (RatProps.c43_bijection m W) E OE) as (M0 & HM0 & U0); apply U0 in BE; rewrite BE; exact HM0).
  destruct (proj2 (RatProps.c43_bijection m W) _ MM) as (E1 & OE1 & U1). split; [|split; [exists x, y; split; assumption|]].
  - intro E'. rewrite H1. split.
    + intros [O' B']. apply U1 in B'; [|exact O']. apply U1 in BE; [|exact OE]. congruence.
    + intros ->. auto.
  - unfold ell2_image in I. rewrite Ep, (proj1 (proj2 (proj2 (proj2 (proj2 (proj2 Wm)))))) in I.
    pose proof (ell2_zero p (val (MCurve.c_a (ed_e1 m))) (val z) (val u) Hp Hp2 NA Nz) as HZ.
    assert (ZZ : (x, y) = (0, 0) <-> (p | val u) \/ (p | 1 + val z * (val u * val u))).
    { split.
      - intro Q. injection Q as -> ->. apply HZ. exists 0. exact I.
      - intro D. assert (x = 0).
        { destruct (proj2 HZ (conj D NSA)) as (y' & I'). destruct (ell2_step (ed_e1 m) z u) with (m := ee_map M) as (_ & x2 & y2 & _ & _ & _ & U); try rewrite Ep; try assumption.
          - destruct (ed_new_inv _ _ _ _ EM) as (m0 & E0 & ->). exact E0.
          - unfold ell2_image in U. rewrite Ep, (proj1 (proj2 (proj2 (proj2 (proj2 (proj2 Wm)))))) in U.
            apply U in I. apply U in I'. lia. }
        subst x. rewrite (ell2_zero_y p _ _ _ Hp _ I). reflexivity. }
    rewrite <- ZZ. split.
    + intros ->. destruct BE as [[Q _]|[[_ Q]|(u0 & v0 & _ & _ & _ & N0 & _)]].
      * injection Q. fold p. lia.
      * congruence.
      * destruct N0. exists 0. reflexivity.
    + intro Q. injection Q as -> ->. apply (RatProps.bmap_two m E W OE BE).
Qed.

(** with the parameters of RFC 9380: z = -1 on edwards448, where 0, 1 and -1 have no image but 2 has one, and z = 2 on edwards25519 *)
Lemma nonsq_at p (Hp : prime p) z sl : InstP.nonsq_check p z sl = true -> ~ square_mod p z.
Proof. intros H [s D]. destruct (InstP.nonsq_ok p Hp z sl H) as [H2 N]. apply (N (of_Z p s)). change (zmul (of_Z p s) (of_Z p s) = of_Z p z). rewrite <- of_Z_mul. apply of_Z_div; [lia|exact D]. Qed.
Example c51_ex : (exists m M, let e := e4_e0 m in let p := modulus (ECurve.c_f e) in edwards448_to_curve448 = Ret m
    /\ ed_ell2_new e (mkFpElt (p - 1) (mkFp p)) (Some (R448 m)) = Ret M
    /\ (forall u, u = 0 \/ u = 1 \/ u = p - 1 -> exists P, ed_ell2_map M (mkFpElt u (mkFp p)) = Ret P /\ val (ECurve.pz (ECurve.pc P)) = 0)
    /\ (exists P E, ed_ell2_map M (mkFpElt 2 (mkFp p)) = Ret P /\ epoint e P E))
  /\ (exists m M P E, let e := ed_e0 m in let p := modulus (ECurve.c_f e) in edwards25519_to_curve25519 = Ret m
    /\ ed_ell2_new e (mkFpElt 2 (mkFp p)) (Some (R25519 m)) = Ret M
    /\ ed_ell2_map M (mkFpElt 1 (mkFp p)) = Ret P /\ epoint e P E /\ E <> (0, p - 1)).
Proof.
  split.
  - destruct c51_edwards448_refuted as (m & X & H). destruct Rat4Props.c44_shipped as (m' & X' & X0 & X1 & W). rewrite X in X'. injection X' as <-.
    destruct InstProps.c48_EDWARDS448 as (e0 & Y & p0 & _). rewrite X0 in Y. injection Y as <-.
    set (p := modulus (ECurve.c_f (e4_e0 m))) in *. assert (H2 : 3 < p) by (rewrite p0; vm_compute; reflexivity).
    assert (V : forall x, 0 <= x < p -> valid p (mkFpElt x (mkFp p))) by (intros x Hx; split; [reflexivity|exact Hx]).
    assert (NZ : ~ square_mod p (p - 1)).
    { rewrite p0. apply (nonsq_at _ Prime_p448.prime_p448 _ 8). exact Cert_Ell.nonsq_Z448. }
    cbv zeta in H. destruct (H (mkFpElt (p - 1) (mkFp p)) (mkFpElt 2 (mkFp p)) (V (p - 1) ltac:(lia)) (V 2 ltac:(lia)) NZ) as (M & P & EM & EP & HP & _).
    exists m, M. cbv zeta. fold p. split; [exact X|]. split; [exact EM|]. split.
    + intros u Hu. destruct (H (mkFpElt (p - 1) (mkFp p)) (mkFpElt u (mkFp p)) (V (p - 1) ltac:(lia)) (V u ltac:(lia)) NZ) as (M' & P' & EM' & EP' & _ & Z').
      rewrite EM in EM'. injection EM' as <-. exists P'. split; [exact EP'|]. apply Z'. cbn [val].
      destruct Hu as [->|[->| ->]]; [left; exists 0; reflexivity|right; exists 1; ring|right; exists (p * p - 3 * p + 3); ring].
    + assert (EX : exists E, epoint (e4_e0 m) P E).
      { apply HP. cbn [val]. intros [D|D].
        - apply Z.divide_pos_le in D; lia.
        - assert (D' : (p | 3)) by (replace 3 with (4 * p - (1 + (p - 1) * (2 * 2))) by ring; apply Z.divide_sub_r; [apply Z.divide_factor_r|exact D]).
          apply Z.divide_pos_le in D'; lia. }
      destruct EX as [E HE]. exists P, E. auto.
  - destruct c51_edwards25519 as (m & X & H). destruct RatProps.c43_shipped as (m' & X' & X0 & X1 & W). rewrite X in X'. injection X' as <-.
    destruct InstProps.c48_EDWARDS25519 as (e0 & Y & p0 & _). rewrite X0 in Y. injection Y as <-.
    set (p := modulus (ECurve.c_f (ed_e0 m))) in *. assert (H2 : 3 < p) by (rewrite p0; vm_compute; reflexivity).
    assert (V : forall x, 0 <= x < p -> valid p (mkFpElt x (mkFp p))) by (intros x Hx; split; [reflexivity|exact Hx]).
    assert (NZ : ~ square_mod p 2).
    { rewrite p0. apply (nonsq_at _ Prime_p25519.prime_p25519 _ 8). exact Cert_Ell.nonsq_Z25519. }
    cbv zeta in H. destruct (H (mkFpElt 2 (mkFp p)) (mkFpElt 1 (mkFp p)) (V 2 ltac:(lia)) (V 1 ltac:(lia)) NZ) as (M & P & E & EM & EP & HE & _ & ZE).
    exists m, M, P, E. cbv zeta. fold p. split; [exact X|]. split; [exact EM|]. split; [exact EP|]. split; [apply HE; reflexivity|].
    rewrite ZE. cbn [val]. intros [D|D]; apply Z.divide_pos_le in D; lia.
Qed.
(** pushing the Edwards point back through the same rational map gives the Montgomery point it came from
    (edwards25519), or its quadruple (edwards448), whenever that point is not (0, 0) *)
Lemma c51_push_back : forall (m : EdEll2) u Q M, Maps.ell2_map (ee_map m) u = Ret Q ->
  mpoint (rat_codomain (ee_ratmap m)) Q M -> M <> Affine 0 0 ->
  (forall r, ee_ratmap m = R25519 r -> birat r ->
    exists P Q', ed_ell2_map m u = Ret P /\ rat_push (ee_ratmap m) P = Ret Q'
    /\ forall C, mpoint (rat_codomain (ee_ratmap m)) Q' C <-> C = M)
  /\ (forall r, ee_ratmap m = R448 r -> iso4 r ->
    exists P Q', ed_ell2_map m u = Ret P /\ rat_push (ee_ratmap m) P = Ret Q'
    /\ forall C, mpoint (rat_codomain (ee_ratmap m)) Q' C <-> multiple (msum (rat_codomain (ee_ratmap m))) Infinity M 4 C).
Proof.
  intros m u Q M E HM N. unfold ed_ell2_map. rewrite E. cbn [bind].
  split; intros r Er W; rewrite Er in HM |- *; cbn [rat_codomain rat_push rat_pull] in *.
  - exact (RatProps.c43_push_pull r Q M W HM N).
  - exact (Rat4Props.c44_push_pull r Q M W HM N).
Qed.
