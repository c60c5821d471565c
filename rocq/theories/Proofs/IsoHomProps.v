(** The isogenies onto secp256k1 and BLS12-381 G1 respect the group law: C45, C46. *)
From Coq Require Import ZArith Znumtheory Lia String Ascii Bool List.
From Verif.Math Require Import Fld Zp Residue.
From Verif.Math Require IsogHom.
From Verif.Spec Require Import Arith Curve Isogeny.
From Verif.Spec Require Instances.
From Verif.Model Require Import Out BigInt PrimeField Scalar Instances RationalMaps.
From Verif.Model Require WCurve.
From Verif.Proofs Require Import FieldP FieldProps ScalarProps CurveP PolyL IsogP IsoHomP IsogProps.
From Verif.Proofs Require WeierP WeierProps InstShip InstProps Cert_Isog Cert_Line.
From Verif.Math Require Import ECGroup.
From Verif.Spec Require Export Morphisms.
Import WPoints(weier, wpoint, wsum, won, same).
Import ListNotations.
Open Scope Z_scope.

(** *** both curves over the same field *)
Lemma open2 m i : isog m i -> exists p (Hp : prime p) (Hp2 : 2 < p) (a b b' : ZpF p Hp),
  modulus (WCurve.c_f (iso_e0 m)) = p /\ val (WCurve.c_a (iso_e0 m)) = zv a /\ val (WCurve.c_b (iso_e0 m)) = zv b
  /\ isogeny_params p i (zv a) (zv b) (zv b')
  /\ (forall x, cubic (ZpF p Hp) F0 a b x <> F0) /\ (forall x, cubic (ZpF p Hp) F0 F0 b' x <> F0)
  /\ (forall A, won (iso_e0 m) A <-> exists A', A = ap p Hp A' /\ on (ZpF p Hp) F0 a b A')
  /\ (forall A, on (ZpF p Hp) F0 F0 b' A -> won (iso_e1 m) (ap p Hp A))
  /\ (forall A B C, on (ZpF p Hp) F0 a b A -> on (ZpF p Hp) F0 a b B ->
        (wsum (iso_e0 m) (ap p Hp A) (ap p Hp B) C <-> C = ap p Hp (padd (ZpF p Hp) F0 a A B)))
  /\ (forall A B C, on (ZpF p Hp) F0 F0 b' A -> on (ZpF p Hp) F0 F0 b' B ->
        (wsum (iso_e1 m) (ap p Hp A) (ap p Hp B) C <-> C = ap p Hp (padd (ZpF p Hp) F0 F0 A B)))
  /\ (forall A n C, on (ZpF p Hp) F0 a b A ->
        (multiple (wsum (iso_e0 m)) Infinity (ap p Hp A) n C <-> C = ap p Hp (nmul p Hp F0 a n A)))
  /\ (forall A n C, on (ZpF p Hp) F0 F0 b' A ->
        (multiple (wsum (iso_e1 m)) Infinity (ap p Hp A) n C <-> C = ap p Hp (nmul p Hp F0 F0 n A))).
Proof.
  intros (W0 & W1 & E1 & A1 & _ & _ & _ & _ & HP). cbn zeta in *.
  destruct W0 as (Hp & Hp2 & Va & Vb & NR). destruct W1 as (_ & _ & Va' & Vb' & NR'). rewrite E1 in Va', Vb', NR'.
  set (p := modulus (WCurve.c_f (iso_e0 m))) in *.
  destruct (valid_ex _ _ Va) as [a ea], (valid_ex _ _ Vb) as [b eb], (valid_ex _ _ Vb') as [b' eb'].
  exists p, Hp, Hp2, a, b, b'. unfold wsum, won. rewrite E1, A1. fold p. rewrite ea, eb, eb' in *. cbn [val fe] in *. rewrite A1 in NR'.
  assert (Z0 : 0 = zv (F0 : ZpF p Hp)) by (symmetry; apply Zmod_0_l).
  do 3 (split; [reflexivity|]). split; [exact HP|]. split; [|split].
  - intros x E. apply (NR (zv x)). apply of_Z_zero; [lia|]. rewrite !of_Z_add, !of_Z_mul, !of_Z_zv. rewrite (cub0 (ZpF p Hp)) in E. exact E.
  - intros x E. apply (NR' (zv x)). apply of_Z_zero; [lia|]. rewrite !of_Z_add, !of_Z_mul, !of_Z_zv. rewrite (cub0 (ZpF p Hp)) in E. exact E.
  - split; [|split; [|split; [|split; [|split]]]].
    + intro A. split.
      * intro O. rewrite Z0 in O. exact (on_cubic_unap p Hp Hp2 F0 a b A O).
      * intros (A' & -> & O). rewrite Z0. apply (on_ap p Hp Hp2 F0 a b). exact O.
    + intros A O. pose proof (proj1 (on_ap p Hp Hp2 F0 F0 b' A) O) as H. rewrite <- Z0 in H. exact H.
    + intros A B C OA OB. pose proof (ct_padd p Hp Hp2 F0 a b A B OA OB C) as H. rewrite <- Z0 in H. exact H.
    + intros A B C OA OB. pose proof (ct_padd p Hp Hp2 F0 F0 b' A B OA OB C) as H. rewrite <- Z0 in H. exact H.
    + intros A n C OA. pose proof (multiple_ap p Hp Hp2 F0 a b n A OA C) as H. rewrite <- Z0 in H. exact H.
    + intros A n C OA. pose proof (multiple_ap p Hp Hp2 F0 F0 b' n A OA C) as H. rewrite <- Z0 in H. exact H.
Qed.

(** *** additivity, stated for the specification *)
Definition respects (m : Iso) (i : isogeny) : Prop :=
  (forall A, won (iso_e0 m) A -> exists A', maps m i A A' /\ won (iso_e1 m) A' /\ forall A'', maps m i A A'' -> A'' = A')
  /\ (forall A B C A' B' C', won (iso_e0 m) A -> won (iso_e0 m) B -> wsum (iso_e0 m) A B C ->
       maps m i A A' -> maps m i B B' -> maps m i C C' -> wsum (iso_e1 m) A' B' C')
  /\ (forall A C n A' C', won (iso_e0 m) A -> multiple (wsum (iso_e0 m)) Infinity A n C ->
       maps m i A A' -> maps m i C C' -> multiple (wsum (iso_e1 m)) Infinity A' n C')
  /\ (forall A B D A' B', won (iso_e0 m) A -> won (iso_e0 m) B -> wsum (iso_e0 m) A (negative (modulus (WCurve.c_f (iso_e0 m))) B) D ->
       maps m i A A' -> maps m i B B' -> (A' = B' <-> maps m i D Infinity)).

Lemma dens p (Hp : prime p) i h : pident p 14 (PC (i_xd i)) (PM (PC h) (PC h)) && pident p 14 (PC (i_yd i)) (PM (PC h) (PM (PC h) (PC h))) = true ->
  forall x, (p | peval (i_xd i) x - peval h x * peval h x) /\ (p | peval (i_yd i) x - peval h x * (peval h x * peval h x)).
Proof. rewrite andb_true_iff. intros [H1 H2] x. split; [exact (pident_ok p Hp 14 _ _ H1 x)|exact (pident_ok p Hp 14 _ _ H2 x)]. Qed.

Lemma respects_of m i h sl LA LB :
  isog m i ->
  (let p := modulus (WCurve.c_f (iso_e0 m)) in
   pident p 14 (PC (i_xd i)) (PM (PC h) (PC h)) && pident p 14 (PC (i_yd i)) (PM (PC h) (PM (PC h) (PC h))) = true
   /\ PolyB.line_check p sl (val (WCurve.c_a (iso_e0 m))) (val (WCurve.c_b (iso_e0 m))) (i_xn i) h (i_yn i) LA LB = true) ->
  (forall p (Hp : prime p) (Hp2 : 2 < p) (a b b' : ZpF p Hp), modulus (WCurve.c_f (iso_e0 m)) = p ->
     (forall x, cubic (ZpF p Hp) F0 a b x <> F0) -> (forall x, cubic (ZpF p Hp) F0 F0 b' x <> F0) ->
     (forall x, (p | peval (i_xd i) x - peval h x * peval h x) /\ (p | peval (i_yd i) x - peval h x * (peval h x * peval h x))) ->
     isogeny_params p i (zv a) (zv b) (zv b') ->
     PolyB.line_check p sl (zv a) (zv b) (i_xn i) h (i_yn i) LA LB = true ->
     (forall A, won (iso_e0 m) A <-> exists A', A = ap p Hp A' /\ on (ZpF p Hp) F0 a b A') ->
     (forall A B C, on (ZpF p Hp) F0 a b A -> on (ZpF p Hp) F0 a b B ->
        (wsum (iso_e0 m) (ap p Hp A) (ap p Hp B) C <-> C = ap p Hp (padd (ZpF p Hp) F0 a A B))) ->
     (forall A n C, on (ZpF p Hp) F0 a b A ->
        (multiple (wsum (iso_e0 m)) Infinity (ap p Hp A) n C <-> C = ap p Hp (nmul p Hp F0 a n A))) ->
     additive p Hp i h a b) ->
  respects m i.
Proof.
  intros IS H AD. cbn zeta in H. unfold respects, maps.
  destruct (open2 m i IS) as (p & Hp & Hp2 & a & b & b' & Ep & Ea & Eb & HP & NR & NR' & WO & WO1 & WS & WS1 & WM & WM1).
  rewrite Ep, Ea, Eb in *. destruct H as [HD HL]. pose proof (dens p Hp i h HD) as HD'.
  specialize (AD p Hp Hp2 a b b' eq_refl NR NR' HD' HP HL WO WS WM).
  pose proof (map_phi p Hp Hp2 i h HD') as MP. pose proof (on_phi p Hp Hp2 i h a b b' HD' HP) as OP.
  pose proof (two_K p Hp Hp2) as two.
  split; [|split; [|split]].
  - intros A OA. apply WO in OA. destruct OA as (A' & -> & OA). eexists. split; [apply MP; reflexivity|]. split; [apply WO1, OP, OA|]. intros A'' M. apply MP. exact M.
  - intros A B C A1 B1 C1 OA OB S MA MB MC. apply WO in OA, OB. destruct OA as (A' & -> & OA), OB as (B' & -> & OB).
    apply WS in S; [|assumption..]. subst C. apply MP in MA, MB, MC. subst A1 B1 C1. apply WS1; [apply OP, OA|apply OP, OB|]. f_equal. apply AD; assumption.
  - intros A C n A1 C1 OA S MA MC. apply WO in OA. destruct OA as (A' & -> & OA). apply WM in S; [|exact OA]. subst C. apply MP in MA, MC. subst A1 C1.
    apply WM1; [apply OP, OA|]. f_equal. apply (phi_mul p Hp Hp2 i h a b); assumption.
  - intros A B D A1 B1 OA OB S MA MB. apply WO in OA, OB. destruct OA as (A' & -> & OA), OB as (B' & -> & OB).
    rewrite <- (neg_ap p Hp) in S. apply WS in S; [|exact OA|apply on_popp, OB]. subst D. apply MP in MA, MB. subst A1 B1. rewrite MP.
    pose proof (phi_fibre p Hp Hp2 i h a b b' HD' HP NR' A' B' AD OA OB) as F. unfold IsogHom.ker in F. split.
    + intro E. apply ap_inj in E. apply F in E. rewrite E. reflexivity.
    + intro E. f_equal. apply F. apply (ap_inj p Hp). symmetry. exact E.
Qed.

(** *** C45 *)
Lemma secp_respects m : get_isogeny_secp256k1 = Ret m -> respects m iso3_secp256k1.
Proof.
  intro Em. pose proof (secp_no_zero m) as NZ. destruct secp_full as (m' & Em' & _ & _ & IS & Ep & Ea & Eb & _). rewrite Em in Em'. injection Em' as <-.
  apply (respects_of m _ Cert_Line.h_secp 29 Cert_Line.A_secp Cert_Line.B_secp IS).
  - cbn zeta. rewrite Ep, Ea, Eb. split; [exact Cert_Line.den_secp|exact Cert_Line.line_secp].
  - intros p Hp Hp2 a b b' E NR NR' HD HP HL WO _ _. apply (additive_trivial p Hp Hp2 _ _ a b b' HD HP NR NR' 29 Cert_Line.A_secp Cert_Line.B_secp HL).
    intros x y O Z. apply (NZ (zv x) (zv y) Em).
    + apply WO. exists (Aff _ x y). split; [reflexivity|exact O].
    + rewrite E. apply (xd_div p Hp Hp2 _ _ HD). exact Z.
Qed.

(** *** C46 *)
Lemma bls_respects m : get_isogeny_bls12381g1 = Ret m -> respects m iso11_bls12381g1.
Proof.
  intro Em. pose proof (bls_zero m) as BZ. destruct bls_full as (m' & Em' & E0 & _ & IS & Ep & Ea & Eb & _). rewrite Em in Em'. injection Em' as <-.
  destruct InstProps.c48_BLS12381G1_11ISO as (e & Ee & _ & _ & _ & _ & _ & _ & _ & _ & G & _ & (_ & _ & _ & _ & _ & OG) & HQ). rewrite E0 in Ee. injection Ee as <-.
  fold (won (iso_e0 m) (Affine (Instances.w_gx Instances.std_BLS12381G1_11ISO) (Instances.w_gy Instances.std_BLS12381G1_11ISO))) in OG.
  apply (respects_of m _ Cert_Line.h_bls 29 Cert_Line.A_bls Cert_Line.B_bls IS).
  { cbn zeta. rewrite Ep, Ea, Eb. split; [exact Cert_Line.den_bls|exact Cert_Line.line_bls]. }
  intros p Hp Hp2 a b b' E NR NR' HD HP HL WO WS WM. rewrite E in Ep, BZ.
  pose proof (map_phi p Hp Hp2 iso11_bls12381g1 Cert_Line.h_bls HD) as MP.
  assert (KO : forall q, In q (combine kernel11 kernel11_y) -> won (iso_e0 m) (Affine (fst q) (snd q))).
  { intros q I. unfold won, on_cubic. rewrite E, Ep, Ea, Eb. exact (proj1 (Forall_forall _ _) kernel_on q I). }
  set (SL := Inf (ZpF p Hp) :: flat_map (fun q => [Aff (ZpF p Hp) (of_Z p (fst q)) (of_Z p (snd q)); popp (ZpF p Hp) (Aff (ZpF p Hp) (of_Z p (fst q)) (of_Z p (snd q)))]) (combine kernel11 kernel11_y)).
  assert (KL : forall A, on (ZpF p Hp) F0 a b A -> IsogHom.ker (ZpF p Hp) (pk p Hp (i_xn iso11_bls12381g1)) (pk p Hp Cert_Line.h_bls) (pk p Hp (i_yn iso11_bls12381g1)) A -> In A SL).
  { intros [|x y] O KA; [left; reflexivity|right]. apply (IsogHom.ker_aff (ZpF p Hp)) in KA. apply (xd_div p Hp Hp2 _ _ HD) in KA.
    apply BZ in KA; [|exact Em|apply zv_range; lia].
    assert (C : In (zv x) (map fst (combine kernel11 kernel11_y))) by exact KA. apply in_map_iff in C. destruct C as ([x' y'] & Ex & C). cbn [fst] in Ex. subst x'.
    apply in_flat_map. exists (zv x, y'). split; [exact C|]. cbn [fst snd]. rewrite of_Z_zv.
    apply KO, WO in C. cbn [fst snd] in C. destruct C as ([|x2 y2] & EA & O2); [discriminate EA|]. injection EA as Ex Ey. apply Zp_eq in Ex. subst x2 y'. rewrite of_Z_zv.
    destruct (same_x (ZpF p Hp) F0 a b _ _ _ O O2) as [Q|Q]; rewrite Q; [left; reflexivity|right; left; reflexivity]. }
  apply WO in OG. destruct OG as (G0 & EG & OG).
  assert (PG : Affine (Instances.w_gx Instances.std_BLS12381G1) (Instances.w_gy Instances.std_BLS12381G1)
    = ap p Hp (IsogHom.phi (ZpF p Hp) (pk p Hp (i_xn iso11_bls12381g1)) (pk p Hp Cert_Line.h_bls) (pk p Hp (i_yn iso11_bls12381g1)) G0)).
  { apply MP. rewrite <- EG, Ep. apply (image_ok Cert_Isog.p_bls 14 _ _ _ _ _ _ _ ltac:(rewrite <- Ep; exact Hp) Cert_Isog.gen_bls). }
  apply (additive_finite p Hp Hp2 _ _ a b b' HD HP NR NR' 29 Cert_Line.A_bls Cert_Line.B_bls HL SL G0 (Instances.w_r Instances.std_BLS12381G1_11ISO) KL OG).
  - unfold IsogHom.ker. intro Q. rewrite Q in PG. discriminate PG.
  - intros T OT KT. apply KL in KT; [|exact OT]. destruct KT as [<-|KT]; [left; rewrite padd_inf_r; reflexivity|].
    apply in_flat_map in KT. destruct KT as ([xk yk] & IK & KT).
    assert (TR : IsogHom.phi (ZpF p Hp) (pk p Hp (i_xn iso11_bls12381g1)) (pk p Hp Cert_Line.h_bls) (pk p Hp (i_yn iso11_bls12381g1)) (padd (ZpF p Hp) F0 a G0 (Aff (ZpF p Hp) (of_Z p xk) (of_Z p yk)))
      = IsogHom.phi (ZpF p Hp) (pk p Hp (i_xn iso11_bls12381g1)) (pk p Hp Cert_Line.h_bls) (pk p Hp (i_yn iso11_bls12381g1)) G0).
    { pose proof (KO _ IK) as OK. cbn [fst snd] in OK. apply WO in OK. destruct OK as ([|x2 y2] & EA & O2); [discriminate EA|]. injection EA as -> ->. rewrite !of_Z_zv.
      rewrite <- Cert_Line.trans_points in IK. apply in_map_iff in IK. destruct IK as ([[[[[[x1 y1] l] X] Y] u] v] & EK & IK). cbn beta iota in EK. injection EK as -> ->.
      pose proof (proj1 (forallb_forall _ _) Cert_Line.trans_images _ IK) as TI. pose proof (proj1 (forallb_forall _ _) Cert_Line.trans_chords _ IK) as TC.
      cbn beta iota zeta in TI, TC. rewrite !andb_true_iff, !Z.leb_le, !Z.ltb_lt, negb_true_iff, !Z.eqb_eq, Z.eqb_neq in TC.
      destruct TC as (((((((B1 & B2) & B3) & B4) & NX) & C1) & C2) & C3).
      assert (S : wsum (iso_e0 m) (ap p Hp G0) (ap p Hp (Aff _ x2 y2)) (Affine X Y)).
      { rewrite <- EG. cbn [ap]. unfold wsum. rewrite E. rewrite <- Ep in B2, B4, C1, C2, C3. assert (p0 : p <> 0) by lia.
        apply ct_chord with l; [exact NX|apply Z.mod_divide; [exact p0|exact C1]|].
        split; [split; assumption|]. split; [split; assumption|]. split; (apply Z.mod_divide; [exact p0|assumption]). }
      apply WS in S; [|assumption..]. apply (ap_inj p Hp). rewrite <- PG. symmetry. apply MP. rewrite <- S, Ep.
      apply (image_ok Cert_Isog.p_bls 14 _ _ _ _ _ _ _ ltac:(rewrite <- Ep; exact Hp) TI). }
    cbn [In fst snd] in KT. destruct KT as [<-|[<-|[]]]; [left; exact TR|right; rewrite popp_invol; exact TR].
  - intros k Hk. apply HQ. rewrite EG. apply WM; [exact OG|]. rewrite Hk. reflexivity.
  - vm_compute. reflexivity.
Qed.

(** *** the statements *)
(** the isogeny onto secp256k1 is a map of curves: one image for every point, on secp256k1 *)
Lemma c45_map : forall m A, get_isogeny_secp256k1 = Ret m -> won (iso_e0 m) A ->
  exists A', maps m iso3_secp256k1 A A' /\ won (iso_e1 m) A' /\ (forall A'', maps m iso3_secp256k1 A A'' -> A'' = A') /\ (A' = Infinity <-> A = Infinity).
Proof.
  intros m A Em OA. destruct (secp_respects m Em) as (H & _). destruct (H A OA) as (A' & M & O & U). exists A'. do 3 (split; [assumption|]).
  destruct A as [|x y].
  - split; [reflexivity|]. intros _. symmetry. apply U. exact I.
  - split; [|discriminate]. intros ->. destruct (secp_no_zero m x y Em OA). exact M.
Qed.
(** it is a homomorphism *)
Lemma c45_homomorphism : forall m A B C A' B' C', get_isogeny_secp256k1 = Ret m ->
  won (iso_e0 m) A -> won (iso_e0 m) B -> wsum (iso_e0 m) A B C ->
  maps m iso3_secp256k1 A A' -> maps m iso3_secp256k1 B B' -> maps m iso3_secp256k1 C C' -> wsum (iso_e1 m) A' B' C'.
Proof. intros m A B C A' B' C' Em. destruct (secp_respects m Em) as (_ & H & _). apply H. Qed.
Lemma c45_multiples : forall m A C n A' C', get_isogeny_secp256k1 = Ret m ->
  won (iso_e0 m) A -> multiple (wsum (iso_e0 m)) Infinity A n C ->
  maps m iso3_secp256k1 A A' -> maps m iso3_secp256k1 C C' -> multiple (wsum (iso_e1 m)) Infinity A' n C'.
Proof. intros m A C n A' C' Em. destruct (secp_respects m Em) as (_ & _ & H & _). apply H. Qed.
(** sums with the opposite are defined *)
Lemma sum_exists m i A B : isog m i -> won (iso_e0 m) A -> won (iso_e0 m) B ->
  exists D, wsum (iso_e0 m) A (negative (modulus (WCurve.c_f (iso_e0 m))) B) D /\ won (iso_e0 m) D /\ (D = Infinity -> A = B).
Proof.
  intros IS OA OB. destruct (open2 m i IS) as (p & Hp & Hp2 & a & b & b' & Ep & Ea & Eb & HP & NR & NR' & WO & WO1 & WS & WS1 & WM & WM1).
  rewrite Ep. apply WO in OA, OB. destruct OA as (A' & -> & OA), OB as (B' & -> & OB). rewrite <- (neg_ap p Hp).
  exists (ap p Hp (padd _ F0 a A' (popp _ B'))). split; [apply WS; [exact OA|apply on_popp, OB|reflexivity]|]. split.
  - apply WO. eexists. split; [reflexivity|]. apply on_padd; [apply two_K, Hp2|exact OA|apply on_popp, OB].
  - intro E. f_equal. assert (E' : padd _ F0 a A' (popp _ B') = Inf _) by (apply (ap_inj p Hp); exact E).
    apply (padd_inf_opp _ F0 a b (two_K p Hp Hp2)) in E'; [|intros x Q; destruct (NR x Q)|exact OA|apply on_popp, OB].
    rewrite <- (popp_invol _ A'), <- E'. apply popp_invol.
Qed.
(** and injective: no two points have the same image *)
Lemma c45_injective : forall m A B A', get_isogeny_secp256k1 = Ret m -> won (iso_e0 m) A -> won (iso_e0 m) B ->
  maps m iso3_secp256k1 A A' -> maps m iso3_secp256k1 B A' -> A = B.
Proof.
  intros m A B A' Em OA OB MA MB. destruct (secp_respects m Em) as (_ & _ & _ & H). destruct c45_shipped as (m' & Em' & _ & _ & IS). rewrite Em in Em'. injection Em' as <-.
  destruct (sum_exists m _ A B IS OA OB) as (D & S & OD & DI). apply DI.
  pose proof (proj1 (H A B D A' A' OA OB S MA MB) eq_refl) as Z. destruct D as [|x y]; [reflexivity|]. destruct (secp_no_zero m x y Em OD). exact Z.
Qed.

(** the isogeny onto BLS12-381 G1: one image for every point, the identity exactly for the eleven points of the kernel *)
Lemma c46_map : forall m A, get_isogeny_bls12381g1 = Ret m -> won (iso_e0 m) A ->
  exists A', maps m iso11_bls12381g1 A A' /\ won (iso_e1 m) A' /\ (forall A'', maps m iso11_bls12381g1 A A'' -> A'' = A')
    /\ (A' = Infinity <-> A = Infinity \/ exists x y, A = Affine x y /\ In x kernel11).
Proof.
  intros m A Em OA. destruct (bls_respects m Em) as (H & _). destruct (H A OA) as (A' & M & O & U). exists A'. do 3 (split; [assumption|]).
  destruct A as [|x y].
  - split; [auto|]. intros _. symmetry. apply U. exact I.
  - pose proof (bls_zero m x Em (proj1 OA)) as BZ. split.
    + intros ->. right. exists x, y. split; [reflexivity|]. apply BZ. exact M.
    + intros [Q|(x' & y' & Q & I)]; [discriminate Q|]. injection Q as <- <-. symmetry. apply U. apply BZ. exact I.
Qed.
(** it is a homomorphism *)
Lemma c46_homomorphism : forall m A B C A' B' C', get_isogeny_bls12381g1 = Ret m ->
  won (iso_e0 m) A -> won (iso_e0 m) B -> wsum (iso_e0 m) A B C ->
  maps m iso11_bls12381g1 A A' -> maps m iso11_bls12381g1 B B' -> maps m iso11_bls12381g1 C C' -> wsum (iso_e1 m) A' B' C'.
Proof. intros m A B C A' B' C' Em. destruct (bls_respects m Em) as (_ & H & _). apply H. Qed.
Lemma c46_multiples : forall m A C n A' C', get_isogeny_bls12381g1 = Ret m ->
  won (iso_e0 m) A -> multiple (wsum (iso_e0 m)) Infinity A n C ->
  maps m iso11_bls12381g1 A A' -> maps m iso11_bls12381g1 C C' -> multiple (wsum (iso_e1 m)) Infinity A' n C'.
Proof. intros m A C n A' C' Em. destruct (bls_respects m Em) as (_ & _ & H & _). apply H. Qed.
(** two points have the same image exactly when they differ by a point of the kernel *)
Lemma c46_fibres : forall m A B A' B', get_isogeny_bls12381g1 = Ret m -> won (iso_e0 m) A -> won (iso_e0 m) B ->
  maps m iso11_bls12381g1 A A' -> maps m iso11_bls12381g1 B B' ->
  (A' = B' <-> exists D, wsum (iso_e0 m) A (negative (modulus (WCurve.c_f (iso_e0 m))) B) D
                 /\ (D = Infinity \/ exists x y, D = Affine x y /\ In x kernel11)).
Proof.
  intros m A B A' B' Em OA OB MA MB. destruct (bls_respects m Em) as (_ & _ & _ & H). destruct c46_shipped as (m' & Em' & _ & _ & IS). rewrite Em in Em'. injection Em' as <-.
  destruct (sum_exists m _ A B IS OA OB) as (D & S & OD & DI).
  assert (K : forall D, wsum (iso_e0 m) A (negative (modulus (WCurve.c_f (iso_e0 m))) B) D -> won (iso_e0 m) D ->
    (A' = B' <-> D = Infinity \/ exists x y, D = Affine x y /\ In x kernel11)).
  { clear D S OD DI. intros D S OD. rewrite (H A B D A' B' OA OB S MA MB). destruct (c46_map m D Em OD) as (D' & MD & _ & U & Z). rewrite <- Z. split.
    - intro M. symmetry. apply U, M.
    - intros ->. exact MD. }
  split; [intro E; exists D; split; [exact S|]; apply (K D S OD), E|]. intros (D2 & S2 & HD2). apply (K D2 S2); [|exact HD2].
  assert (E : D2 = D); [|rewrite E; exact OD].
  destruct (open2 m _ IS) as (p & Hp & Hp2 & a & b & b' & Ep & _ & _ & _ & NR & _ & WO & _ & WS & _).
  rewrite Ep in S, S2. apply WO in OA, OB. destruct OA as (A1 & -> & OA), OB as (B1 & -> & OB). rewrite <- (neg_ap p Hp) in S, S2.
  apply WS in S, S2; try apply on_popp; try assumption. congruence.
Qed.

(** *** push *)
Lemma z1_affine e P A : wpoint e P A -> val (WCurve.pz (WCurve.pc P)) = 1 -> exists x y, A = Affine x y.
Proof. intros (_ & _ & _ & _ & R & _) Z1. destruct A as [|x y]; [|eauto]. destruct R as (_ & _ & R). rewrite Z1 in R. discriminate R. Qed.
Lemma wpoint_on e P A : wpoint e P A -> won e A.
Proof. intros (_ & _ & _ & _ & _ & O). exact O. Qed.
Lemma push_cases m i P A : isog m i -> wpoint (iso_e0 m) P A -> val (WCurve.pz (WCurve.pc P)) = 1 ->
  (exists P' A', iso_push m P = Ret P' /\ wpoint (iso_e1 m) P' A' /\ maps m i A A')
  \/ ((exists t, iso_push m P = Panic t) /\ maps m i A Infinity).
Proof.
  intros IS HP Z1. destruct (z1_affine _ _ _ HP Z1) as (x & y & ->). destruct (wpoint_z1 _ _ _ _ HP Z1) as (Ex & Ey & O).
  destruct (push_exact m i P IS (wpoint_tuple m P _ HP)) as [H1 H2]. cbn zeta in H1, H2. rewrite Ex, Ey in H1, H2.
  destruct (Zdivide_dec (modulus (WCurve.c_f (iso_e0 m))) (peval (i_xd i) x)) as [D|N].
  - right. split; [|exact D]. rewrite (H2 (or_intror D)). eauto.
  - left. destruct (H1 O N) as (Q & X & Y & E & HQ & _ & HI). exists Q, (Affine X Y). split; [exact E|]. split; [exact HQ|]. apply HI. split; reflexivity.
Qed.
Lemma push_sum_any m i P Q P' Q' T A B : isog m i -> respects m i -> wpoint (iso_e0 m) P A -> wpoint (iso_e0 m) Q B ->
  val (WCurve.pz (WCurve.pc P)) = 1 -> val (WCurve.pz (WCurve.pc Q)) = 1 -> iso_push m P = Ret P' -> iso_push m Q = Ret Q' -> WCurve.pt_add P Q = Ret T ->
  exists S, WCurve.pt_add P' Q' = Ret S
    /\ (forall R C, wpoint (iso_e0 m) R C -> val (WCurve.pz (WCurve.pc R)) = 1 -> WCurve.pt_eqb T R = Ret true ->
         (forall R', iso_push m R = Ret R' -> WCurve.pt_eqb S R' = Ret true) /\ (forall t, iso_push m R = Panic t -> WCurve.pt_is_zero S = true))
    /\ (WCurve.pt_is_zero T = true -> WCurve.pt_is_zero S = true).
Proof.
  intros IS (RM & RS & _) HP HQ ZP ZQ EP EQ ET. pose proof IS as (W0 & W1 & _).
  destruct (push_cases m i P A IS HP ZP) as [(P1 & A' & EP1 & HP' & MA)|[[t Et] _]]; [|congruence]. rewrite EP in EP1. injection EP1 as <-.
  destruct (push_cases m i Q B IS HQ ZQ) as [(Q1 & B' & EQ1 & HQ' & MB)|[[t Et] _]]; [|congruence]. rewrite EQ in EQ1. injection EQ1 as <-.
  destruct (WeierProps.c24_addition (iso_e0 m) P Q A B W0 HP HQ) as (T1 & ET1 & HT). rewrite ET in ET1. injection ET1 as <-.
  destruct (WeierProps.c24_addition (iso_e1 m) P' Q' A' B' W1 HP' HQ') as (S & ES & HS). exists S. split; [exact ES|].
  pose proof (wpoint_on _ _ _ HP) as OA. pose proof (wpoint_on _ _ _ HQ) as OB.
  assert (EX : exists D, wsum (iso_e0 m) A B D).
  { destruct (open2 m i IS) as (p & Hp & Hp2 & a & b & b' & Ep & _ & _ & _ & _ & _ & WO & _ & WS & _). apply WO in OA, OB.
    destruct OA as (A1 & -> & OA), OB as (B1 & -> & OB). eexists. apply WS; [assumption..|reflexivity]. }
  destruct EX as (D & SD). pose proof (proj2 (HT D) SD) as HTD. destruct (RM D (wpoint_on _ _ _ HTD)) as (D' & MD & _ & UD).
  pose proof (RS A B D A' B' D' OA OB SD MA MB MD) as SD'. apply HS in SD'. split.
  - intros R C HR ZR ER. destruct (WeierProps.c32_equality (iso_e0 m) T R D C W0 HTD HR) as (t & Et & Ht). rewrite ER in Et. injection Et as <-.
    assert (E : D = C) by (apply Ht; reflexivity). subst C.
    destruct (push_cases m i R D IS HR ZR) as [(R1 & D1 & ER1 & HR1 & MD1)|[[t Et] MD1]].
    + rewrite ER1. split; [|discriminate]. intros R' Q1. injection Q1 as <-. apply UD in MD1. subst D1.
      destruct (WeierProps.c32_equality (iso_e1 m) S R1 D' D' W1 SD' HR1) as (u & -> & Hu). f_equal. apply Hu. reflexivity.
    + rewrite Et. split; [discriminate|]. intros t' _. apply UD in MD1. subst D'.
      destruct (WeierProps.c27_is_zero (iso_e1 m) S _ W1 SD') as (_ & _ & _ & H & _). apply H. reflexivity.
  - intro ZT. destruct (WeierProps.c27_is_zero (iso_e0 m) T _ W0 HTD) as (_ & _ & _ & H & _). apply H in ZT. subst D.
    rewrite <- (UD Infinity I) in SD'. destruct (WeierProps.c27_is_zero (iso_e1 m) S _ W1 SD') as (_ & _ & _ & H1 & _). apply H1. reflexivity.
Qed.
Lemma push_mul_any m i oc P P' T A k : isog m i -> respects m i -> wpoint (iso_e0 m) P A -> val (WCurve.pz (WCurve.pc P)) = 1 ->
  WCurve.c_r (iso_e0 m) = WCurve.c_r (iso_e1 m) -> Z.log2 (WCurve.c_r (iso_e1 m)) < 2 ^ 63 -> valid_scalar (WCurve.c_r (iso_e1 m)) k -> (oc = true -> sk k <> 0) ->
  iso_push m P = Ret P' -> WCurve.pt_mul oc P k = Ret T ->
  exists S, WCurve.pt_mul oc P' k = Ret S
    /\ (forall R C, wpoint (iso_e0 m) R C -> val (WCurve.pz (WCurve.pc R)) = 1 -> WCurve.pt_eqb T R = Ret true ->
         (forall R', iso_push m R = Ret R' -> WCurve.pt_eqb S R' = Ret true) /\ (forall t, iso_push m R = Panic t -> WCurve.pt_is_zero S = true))
    /\ (WCurve.pt_is_zero T = true -> WCurve.pt_is_zero S = true).
Proof.
  intros IS (RM & _ & RS & _) HP ZP Er Hr Vk Hk EP ET. pose proof IS as (W0 & W1 & _).
  destruct (push_cases m i P A IS HP ZP) as [(P1 & A' & EP1 & HP' & MA)|[[t Et] _]]; [|congruence]. rewrite EP in EP1. injection EP1 as <-.
  destruct (WeierProps.c26_scalar_multiplication oc (iso_e1 m) P' A' k W1 HP' Vk Hr Hk) as (S & ES & HS). exists S. split; [exact ES|].
  rewrite <- Er in Vk, Hr.
  destruct (WeierProps.c26_scalar_multiplication oc (iso_e0 m) P A k W0 HP Vk Hr Hk) as (T1 & ET1 & HT). rewrite ET in ET1. injection ET1 as <-.
  pose proof (wpoint_on _ _ _ HP) as OA.
  assert (EX : exists D, multiple (wsum (iso_e0 m)) Infinity A (Z.to_nat (sk k)) D).
  { destruct (open2 m i IS) as (p & Hp & Hp2 & a & b & b' & Ep & _ & _ & _ & _ & _ & WO & _ & _ & _ & WM & _). apply WO in OA.
    destruct OA as (A1 & -> & OA). eexists. apply WM; [assumption..|reflexivity]. }
  destruct EX as (D & SD). pose proof (proj2 (HT D) SD) as HTD. destruct (RM D (wpoint_on _ _ _ HTD)) as (D' & MD & _ & UD).
  pose proof (RS A D _ A' D' OA SD MA MD) as SD'. apply HS in SD'. split.
  - intros R C HR ZR ER. destruct (WeierProps.c32_equality (iso_e0 m) T R D C W0 HTD HR) as (t & Et & Ht). rewrite ER in Et. injection Et as <-.
    assert (E : D = C) by (apply Ht; reflexivity). subst C.
    destruct (push_cases m i R D IS HR ZR) as [(R1 & D1 & ER1 & HR1 & MD1)|[[t Et] MD1]].
    + rewrite ER1. split; [|discriminate]. intros R' Q1. injection Q1 as <-. apply UD in MD1. subst D1.
      destruct (WeierProps.c32_equality (iso_e1 m) S R1 D' D' W1 SD' HR1) as (u & -> & Hu). f_equal. apply Hu. reflexivity.
    + rewrite Et. split; [discriminate|]. intros t' _. apply UD in MD1. subst D'.
      destruct (WeierProps.c27_is_zero (iso_e1 m) S _ W1 SD') as (_ & _ & _ & H & _). apply H. reflexivity.
  - intro ZT. destruct (WeierProps.c27_is_zero (iso_e0 m) T _ W0 HTD) as (_ & _ & _ & H & _). apply H in ZT. subst D.
    rewrite <- (UD Infinity I) in SD'. destruct (WeierProps.c27_is_zero (iso_e1 m) S _ W1 SD') as (_ & _ & _ & H1 & _). apply H1. reflexivity.
Qed.

(** on points of the model with z = 1: push adds up, as far as the code can tell *)
Lemma c45_push_sum : forall m P Q R T A B C, get_isogeny_secp256k1 = Ret m ->
  wpoint (iso_e0 m) P A -> wpoint (iso_e0 m) Q B -> wpoint (iso_e0 m) R C ->
  val (WCurve.pz (WCurve.pc P)) = 1 -> val (WCurve.pz (WCurve.pc Q)) = 1 -> val (WCurve.pz (WCurve.pc R)) = 1 ->
  WCurve.pt_add P Q = Ret T -> WCurve.pt_eqb T R = Ret true ->
  exists P' Q' R', iso_push m P = Ret P' /\ iso_push m Q = Ret Q' /\ iso_push m R = Ret R' /\ same (WCurve.pt_add P' Q') (Ret R').
Proof.
  intros m P Q R T A B C Em HP HQ HR ZP ZQ ZR ET ER. destruct c45_shipped as (m' & Em' & _ & _ & IS). rewrite Em in Em'. injection Em' as <-.
  destruct (z1_affine _ _ _ HP ZP) as (x1 & y1 & ->), (z1_affine _ _ _ HQ ZQ) as (x2 & y2 & ->), (z1_affine _ _ _ HR ZR) as (x3 & y3 & ->).
  destruct (c45_normalised m P _ _ Em HP ZP) as (P' & _ & _ & EP & _), (c45_normalised m Q _ _ Em HQ ZQ) as (Q' & _ & _ & EQ & _), (c45_normalised m R _ _ Em HR ZR) as (R' & _ & _ & ER' & _).
  exists P', Q', R'. do 3 (split; [assumption|]).
  destruct (push_sum_any m _ P Q P' Q' T _ _ IS (secp_respects m Em) HP HQ ZP ZQ EP EQ ET) as (S & ES & H & _).
  exists S, R'. split; [exact ES|]. split; [reflexivity|]. apply (H R _ HR ZR ER). exact ER'.
Qed.
Lemma c45_push_opposite : forall m P Q T A B, get_isogeny_secp256k1 = Ret m ->
  wpoint (iso_e0 m) P A -> wpoint (iso_e0 m) Q B -> val (WCurve.pz (WCurve.pc P)) = 1 -> val (WCurve.pz (WCurve.pc Q)) = 1 ->
  WCurve.pt_add P Q = Ret T -> WCurve.pt_is_zero T = true ->
  exists P' Q' S, iso_push m P = Ret P' /\ iso_push m Q = Ret Q' /\ WCurve.pt_add P' Q' = Ret S /\ WCurve.pt_is_zero S = true.
Proof.
  intros m P Q T A B Em HP HQ ZP ZQ ET ZT. destruct c45_shipped as (m' & Em' & _ & _ & IS). rewrite Em in Em'. injection Em' as <-.
  destruct (z1_affine _ _ _ HP ZP) as (x1 & y1 & ->), (z1_affine _ _ _ HQ ZQ) as (x2 & y2 & ->).
  destruct (c45_normalised m P _ _ Em HP ZP) as (P' & _ & _ & EP & _), (c45_normalised m Q _ _ Em HQ ZQ) as (Q' & _ & _ & EQ & _).
  destruct (push_sum_any m _ P Q P' Q' T _ _ IS (secp_respects m Em) HP HQ ZP ZQ EP EQ ET) as (S & ES & _ & H).
  exists P', Q', S. do 3 (split; [assumption|]). apply H, ZT.
Qed.
(** and commutes with scalar multiplication *)
Lemma c45_push_mul : forall oc m P R T A C k, get_isogeny_secp256k1 = Ret m ->
  wpoint (iso_e0 m) P A -> wpoint (iso_e0 m) R C -> val (WCurve.pz (WCurve.pc P)) = 1 -> val (WCurve.pz (WCurve.pc R)) = 1 ->
  valid_scalar (WCurve.c_r (iso_e1 m)) k -> (oc = true -> sk k <> 0) ->
  WCurve.pt_mul oc P k = Ret T -> WCurve.pt_eqb T R = Ret true ->
  exists P' R', iso_push m P = Ret P' /\ iso_push m R = Ret R' /\ same (WCurve.pt_mul oc P' k) (Ret R').
Proof.
  intros oc m P R T A C k Em HP HR ZP ZR Vk Hk ET ER. destruct c45_shipped as (m' & Em' & E0 & E1 & IS). rewrite Em in Em'. injection Em' as <-.
  destruct InstProps.c48_SECP256K1_3ISO as (e0 & X0 & _ & _ & _ & R0 & _). rewrite E0 in X0. injection X0 as <-.
  destruct InstProps.c48_SECP256K1 as (e1 & X1 & _ & _ & _ & R1 & _ & _ & _ & (_ & _ & _ & HL & _) & _). rewrite E1 in X1. injection X1 as <-.
  destruct (z1_affine _ _ _ HP ZP) as (x1 & y1 & ->), (z1_affine _ _ _ HR ZR) as (x3 & y3 & ->).
  destruct (c45_normalised m P _ _ Em HP ZP) as (P' & _ & _ & EP & _), (c45_normalised m R _ _ Em HR ZR) as (R' & _ & _ & ER' & _).
  exists P', R'. do 2 (split; [assumption|]). assert (Er : WCurve.c_r (iso_e0 m) = WCurve.c_r (iso_e1 m)) by (rewrite R0, R1; vm_compute; reflexivity).
  destruct (push_mul_any m _ oc P P' T _ k IS (secp_respects m Em) HP ZP Er HL Vk Hk EP ET) as (S & ES & H & _).
  exists S, R'. split; [exact ES|]. split; [reflexivity|]. apply (H R _ HR ZR ER). exact ER'.
Qed.
(** the same onto BLS12-381 G1, where a sum in the kernel makes push panic and the sum of the images the identity *)
Lemma c46_push_sum : forall m P Q P' Q' T A B, get_isogeny_bls12381g1 = Ret m -> wpoint (iso_e0 m) P A -> wpoint (iso_e0 m) Q B ->
  val (WCurve.pz (WCurve.pc P)) = 1 -> val (WCurve.pz (WCurve.pc Q)) = 1 -> iso_push m P = Ret P' -> iso_push m Q = Ret Q' -> WCurve.pt_add P Q = Ret T ->
  exists S, WCurve.pt_add P' Q' = Ret S
    /\ (forall R C, wpoint (iso_e0 m) R C -> val (WCurve.pz (WCurve.pc R)) = 1 -> WCurve.pt_eqb T R = Ret true ->
         (forall R', iso_push m R = Ret R' -> WCurve.pt_eqb S R' = Ret true) /\ (forall t, iso_push m R = Panic t -> WCurve.pt_is_zero S = true))
    /\ (WCurve.pt_is_zero T = true -> WCurve.pt_is_zero S = true).
Proof.
  intros m P Q P' Q' T A B Em. destruct c46_shipped as (m' & Em' & _ & _ & IS). rewrite Em in Em'. injection Em' as <-.
  apply (push_sum_any m _ P Q P' Q' T A B IS (bls_respects m Em)).
Qed.
Lemma c46_push_mul : forall oc m P P' T A k, get_isogeny_bls12381g1 = Ret m -> wpoint (iso_e0 m) P A -> val (WCurve.pz (WCurve.pc P)) = 1 ->
  valid_scalar (WCurve.c_r (iso_e1 m)) k -> (oc = true -> sk k <> 0) -> iso_push m P = Ret P' -> WCurve.pt_mul oc P k = Ret T ->
  exists S, WCurve.pt_mul oc P' k = Ret S
    /\ (forall R C, wpoint (iso_e0 m) R C -> val (WCurve.pz (WCurve.pc R)) = 1 -> WCurve.pt_eqb T R = Ret true ->
         (forall R', iso_push m R = Ret R' -> WCurve.pt_eqb S R' = Ret true) /\ (forall t, iso_push m R = Panic t -> WCurve.pt_is_zero S = true))
    /\ (WCurve.pt_is_zero T = true -> WCurve.pt_is_zero S = true).
Proof.
  intros oc m P P' T A k Em HP ZP Vk Hk. destruct c46_shipped as (m' & Em' & E0 & E1 & IS). rewrite Em in Em'. injection Em' as <-.
  destruct InstProps.c48_BLS12381G1_11ISO as (e0 & X0 & _ & _ & _ & R0 & _). rewrite E0 in X0. injection X0 as <-.
  destruct InstProps.c48_BLS12381G1 as (e1 & X1 & _ & _ & _ & R1 & _ & _ & _ & (_ & _ & _ & HL & _) & _). rewrite E1 in X1. injection X1 as <-.
  assert (Er : WCurve.c_r (iso_e0 m) = WCurve.c_r (iso_e1 m)) by (rewrite R0, R1; vm_compute; reflexivity).
  apply (push_mul_any m _ oc P P' T A k IS (bls_respects m Em) HP ZP Er HL Vk Hk).
Qed.

(** the base point G of the domain, 2G and their images *)
Example c45_homomorphism_ex : exists m, get_isogeny_secp256k1 = Ret m /\
  let G := Affine (Instances.w_gx Instances.std_SECP256K1_3ISO) (Instances.w_gy Instances.std_SECP256K1_3ISO) in
  let G' := Affine (Instances.w_gx Instances.std_SECP256K1) (Instances.w_gy Instances.std_SECP256K1) in
  let D := Affine 115524197775026640362506171578509991097273557594497848896767778779498117157007 4452455935741279395784198790153216998931520571243984448607586324497950974238 in
  let D' := Affine 89565891926547004231252920425935692360644145829622209833684329913297188986597 12158399299693830322967808612713398636155367887041628176798871954788371653930 in
  won (iso_e0 m) G /\ wsum (iso_e0 m) G G D /\ maps m iso3_secp256k1 G G' /\ maps m iso3_secp256k1 D D' /\ wsum (iso_e1 m) G' G' D'.
Proof.
  destruct secp_full as (m & Em & EI & EC & W & Ep & Ea & Eb & Hp & _). exists m. split; [exact Em|]. cbn zeta.
  destruct InstProps.c48_SECP256K1_3ISO as (e0 & X0 & _ & _ & _ & _ & _ & _ & _ & _ & G & EG & HG & _). rewrite EI in X0. injection X0 as <-.
  match goal with |- ?a /\ ?b /\ ?c /\ ?d /\ ?e => assert (OG : a) by exact (wpoint_on _ _ _ HG); assert (SG : b); [|assert (MG : c); [|assert (MD : d)]] end.
  - unfold wsum. rewrite Ep, Ea. apply ct_tangent with 49638234902894945924304050313248818970949679863009812649352249495909623530475.
    + intro D. apply Z.mod_divide in D; [|vm_compute; discriminate]. vm_compute in D. discriminate D.
    + num.
    + split; [num|]. split; [num|]. split; num.
  - unfold maps. rewrite Ep. exact (image_ok _ _ _ _ _ _ _ _ _ Hp Cert_Isog.gen_secp).
  - unfold maps. rewrite Ep. apply (image_ok _ 14 _ _ _ _ _ 61568088965540537254147131695902429274456513917380098722242453463089670014708 20738297150367357052243185376394179656482402665812559540190015066141489419100 Hp). vm_cast_no_check (eq_refl true).
  - do 4 (split; [assumption|]). exact (c45_homomorphism m _ _ _ _ _ _ Em OG OG SG MG MG MD).
Qed.
(** the base point of the domain and its sum with a point of the kernel have the same image *)
Example c46_fibres_ex : exists m A B, get_isogeny_bls12381g1 = Ret m /\ won (iso_e0 m) A /\ won (iso_e0 m) B /\ A <> B
  /\ let G' := Affine (Instances.w_gx Instances.std_BLS12381G1) (Instances.w_gy Instances.std_BLS12381G1) in
     maps m iso11_bls12381g1 A G' /\ maps m iso11_bls12381g1 B G'.
Proof.
  destruct bls_full as (m & Em & EI & EC & W & Ep & Ea & Eb & Hp & _).
  destruct InstProps.c48_BLS12381G1_11ISO as (e0 & X0 & _ & _ & _ & _ & _ & _ & _ & _ & G & EG & HG & _). rewrite EI in X0. injection X0 as <-.
  destruct (hd (0, 0, 0, 0, 0, 0, 0) Cert_Line.trans_rows) as [[[[[[x1 y1] l] X] Y] u] v] eqn:ER.
  assert (IK : In (x1, y1, l, X, Y, u, v) Cert_Line.trans_rows) by (rewrite <- ER; left; reflexivity).
  exists m, (Affine (Instances.w_gx Instances.std_BLS12381G1_11ISO) (Instances.w_gy Instances.std_BLS12381G1_11ISO)), (Affine X Y).
  pose proof (proj1 (forallb_forall _ _) Cert_Line.trans_images _ IK) as TI. cbn beta iota zeta in TI. apply (image_ok Cert_Isog.p_bls 14 _ _ _ _ _ _ _ Hp) in TI.
  split; [exact Em|]. split; [exact (wpoint_on _ _ _ HG)|]. unfold maps, won, on_cubic. rewrite Ep, Ea, Eb. unfold Cert_Line.trans_rows in ER. cbn [hd] in ER. injection ER as <- <- <- <- <- <- <-.
  split; [split; [num|]; split; num|]. split; [intro Q; apply (f_equal (fun P => match P with Affine x _ => x =? Instances.w_gx Instances.std_BLS12381G1_11ISO | _ => true end)) in Q; vm_compute in Q; discriminate Q|].
  split; [exact (image_ok _ _ _ _ _ _ _ _ _ Hp Cert_Isog.gen_bls)|exact TI].
Qed.
