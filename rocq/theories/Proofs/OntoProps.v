(** Properties C45, C46: every point of secp256k1 is the image of exactly one point under the 3-isogeny; the 11-isogeny is a bijection
    between the subgroups of the two base points, and every image has exactly eleven preimages; it is not onto. *)
From Coq Require Import ZArith Znumtheory Lia String Ascii Bool List.
From Verif.Math Require Import Fld Zp Residue.
From Verif.Spec Require Import Arith Curve Isogeny Order.
From Verif.Spec Require Instances.
From Verif.Model Require Import Out BigInt PrimeField Scalar Instances RationalMaps.
From Verif.Model Require WCurve.
From Verif.Proofs Require Import FieldP FieldProps ScalarProps CurveP PolyL IsogP IsoHomP IsogProps IsoHomProps.
From Verif.Proofs Require WeierP WeierProps InstShip InstProps Cert_Isog OrderProps LawProps.
From Verif.Math Require Import ECGroup.
From Verif.Spec Require Export Morphisms IsogBases.
Import WPoints(weier, wpoint, wsum, won, same).
Import ListNotations.
Open Scope Z_scope.

Lemma mult_one e A C : weier e -> won e A -> multiple (wsum e) Infinity A 1 C -> C = A.
Proof.
  intros W OA M. WeierProps.open_curve W. unfold won in OA. rewrite ef, ea, eb in OA. destruct (on_cubic_unap p Hp Hp2 F0 _ _ _ OA) as (A' & -> & HA).
  apply WM in M; [|exact HA]. rewrite M. cbn [nmul]. rewrite padd_inf_l. reflexivity.
Qed.
Lemma mult_fun e A n C D : weier e -> won e A -> multiple (wsum e) Infinity A n C -> multiple (wsum e) Infinity A n D -> C = D.
Proof. intros W OA M N. destruct (LawProps.c26_multiples_exist e A n W OA) as (X & _ & U). apply U in M, N. congruence. Qed.

Lemma mult_same e G r k n A B : weier e -> won e G -> (forall n, multiple (wsum e) Infinity G n Infinity <-> (r | Z.of_nat n)) ->
  multiple (wsum e) Infinity G k A -> multiple (wsum e) Infinity G n B -> (A = B <-> (r | Z.of_nat k - Z.of_nat n)).
Proof.
  intros W OG H MA MB.
  assert (K : forall d n A B, multiple (wsum e) Infinity G (n + d) A -> multiple (wsum e) Infinity G n B -> (A = B <-> (r | Z.of_nat d))).
  { clear k n A B MA MB. intros d n A B MA MB. rewrite <- H. WeierProps.open_curve W. unfold won in OG. rewrite ef, ea, eb in OG.
    destruct (on_cubic_unap p Hp Hp2 F0 _ _ _ OG) as (G' & EG & HG). rewrite EG in *. apply WM in MA, MB; try exact HG. rewrite WM by exact HG.
    rewrite <- (nmul_add p Hp Hp2 F0 a b (RCB.nonsing _ a b NR)) in MA by exact HG. subst A B. split.
    - intro E. apply ap_inj in E. change Infinity with (ap p Hp (Inf (ZpF p Hp))). f_equal.
      apply (padd_cancel_r _ F0 a b (two_K p Hp Hp2) (RCB.nonsing _ a b NR) _ _ (nmul p Hp F0 a n G')); [exact I|apply on_nmul; assumption|apply on_nmul; assumption|].
      rewrite padd_inf_l, (padd_comm _ F0 a b (nmul p Hp F0 a d G')) by (apply on_nmul; assumption). symmetry. exact E.
    - intro E. change Infinity with (ap p Hp (Inf (ZpF p Hp))) in E. apply ap_inj in E. rewrite <- E, padd_inf_r. reflexivity. }
  destruct (Nat.le_ge_cases n k) as [L|L].
  - rewrite (K (k - n)%nat n A B); [rewrite Nat2Z.inj_sub by exact L; reflexivity| |exact MB]. replace (n + (k - n))%nat with k by lia. exact MA.
  - assert (Q : B = A <-> (r | Z.of_nat (n - k))). { apply (K (n - k)%nat k B A); [|exact MA]. replace (k + (n - k))%nat with n by lia. exact MB. }
    rewrite Nat2Z.inj_sub in Q by exact L. rewrite <- (Z.divide_opp_r r (Z.of_nat k - Z.of_nat n)).
    replace (- (Z.of_nat k - Z.of_nat n)) with (Z.of_nat n - Z.of_nat k) by lia. rewrite <- Q. split; congruence.
Qed.


(** the isogeny onto secp256k1 is a bijection *)
Lemma c45_onto : forall m A', get_isogeny_secp256k1 = Ret m -> won (iso_e1 m) A' ->
  exists A, won (iso_e0 m) A /\ forall B, won (iso_e0 m) B -> (maps m iso3_secp256k1 B A' <-> B = A).
Proof.
  intros m A' Em OA'. destruct c45_shipped as (m' & Em' & X0 & X1 & _). rewrite Em in Em'. injection Em' as <-.
  destruct secp_full as (m' & Em' & _ & _ & W & Ep & Ea & Eb & Hp & _). rewrite Em in Em'. injection Em' as <-.
  destruct InstProps.c48_SECP256K1_3ISO as (e0 & Y0 & _ & _ & _ & _ & _ & _ & _ & (W0 & _) & P0 & _ & HG & _). rewrite X0 in Y0. injection Y0 as <-.
  destruct InstProps.c48_SECP256K1 as (e1 & Y1 & _ & _ & _ & _ & _ & _ & _ & (W1 & _) & P1 & _ & HG' & _). rewrite X1 in Y1. injection Y1 as <-.
  pose proof (proj2 (proj2 (proj2 (proj2 (proj2 HG))))) as OG. pose proof (proj2 (proj2 (proj2 (proj2 (proj2 HG'))))) as OG'. fold (won (iso_e0 m)) in OG. fold (won (iso_e1 m)) in OG'.
  destruct (proj1 OrderProps.c55_SECP256K1) as (e & Y & _ & CL & _). rewrite X1 in Y. injection Y as <-.
  destruct (CL A' OA') as (C & M1 & j & Hj & MJ). change (Z.to_nat (Instances.w_h Instances.std_SECP256K1)) with 1%nat in M1. apply (mult_one _ _ _ W1 OA') in M1. subst C.
  destruct (LawProps.c26_multiples_exist (iso_e0 m) gen3 (Z.to_nat j) W0 OG) as (A & OA & UA). pose proof (proj2 (UA A) eq_refl) as MA.
  destruct (c45_map m A Em OA) as (A2 & MP & _ & U & _).
  assert (MG : maps m iso3_secp256k1 gen3 gen3'). { unfold maps. rewrite Ep. exact (image_ok _ _ _ _ _ _ _ _ _ Hp Cert_Isog.gen_secp). }
  pose proof (c45_multiples m gen3 A (Z.to_nat j) gen3' A2 Em OG MA MG MP) as M2.
  pose proof (mult_fun _ _ _ _ _ W1 OG' M2 MJ) as ->.
  exists A. split; [exact OA|]. intros B OB. split; [|intros ->; exact MP]. intro MB. exact (c45_injective m B A A' Em OB OA MB MP).
Qed.
(** the isogeny onto BLS12-381 G1 is a bijection between the multiples of the base points *)
Lemma c46_onto_subgroup : forall m n A', get_isogeny_bls12381g1 = Ret m -> multiple (wsum (iso_e1 m)) Infinity gen11' n A' ->
  exists A, (exists k, multiple (wsum (iso_e0 m)) Infinity gen11 k A) /\ maps m iso11_bls12381g1 A A'
    /\ forall k B, multiple (wsum (iso_e0 m)) Infinity gen11 k B -> maps m iso11_bls12381g1 B A' -> B = A.
Proof.
  intros m n A' Em MJ. destruct bls_full as (m' & Em' & X0 & X1 & IS & Ep & Ea & Eb & Hp & _). rewrite Em in Em'. injection Em' as <-.
  destruct InstProps.c48_BLS12381G1_11ISO as (e0 & Y0 & _ & _ & _ & _ & _ & _ & _ & (W0 & _) & P0 & _ & HG & HM). rewrite X0 in Y0. injection Y0 as <-.
  destruct InstProps.c48_BLS12381G1 as (e1 & Y1 & _ & _ & _ & _ & _ & _ & _ & (W1 & _) & P1 & _ & HG' & HM'). rewrite X1 in Y1. injection Y1 as <-.
  pose proof (proj2 (proj2 (proj2 (proj2 (proj2 HG))))) as OG. pose proof (proj2 (proj2 (proj2 (proj2 (proj2 HG'))))) as OG'. fold (won (iso_e0 m)) in OG. fold (won (iso_e1 m)) in OG'.
  fold gen11 in OG, HM. fold gen11' in OG', HM'.
  destruct (LawProps.c26_multiples_exist (iso_e0 m) gen11 n W0 OG) as (A & OA & UA). pose proof (proj2 (UA A) eq_refl) as MA.
  destruct (c46_map m A Em OA) as (A2 & MP & _ & U & _).
  assert (MG : maps m iso11_bls12381g1 gen11 gen11'). { unfold maps. rewrite Ep. exact (image_ok _ _ _ _ _ _ _ _ _ Hp Cert_Isog.gen_bls). }
  pose proof (c46_multiples m gen11 A n gen11' A2 Em OG MA MG MP) as M2.
  pose proof (mult_fun _ _ _ _ _ W1 OG' M2 MJ) as ->.
  exists A. split; [exists n; exact MA|]. split; [exact MP|]. intros k B MB MPB.
  pose proof (c46_multiples m gen11 B k gen11' A' Em OG MB MG MPB) as M3.
  apply (mult_same _ _ _ k n B A W0 OG HM MB MA). apply (mult_same _ _ _ k n A' A' W1 OG' HM' M3 MJ). reflexivity.
Qed.

Lemma nodup_map {X Y} (f : X -> Y) l : (forall x y, In x l -> In y l -> f x = f y -> x = y) -> NoDup l -> NoDup (map f l).
Proof.
  induction l as [|x l IH]; intros H N; [constructor|]. inversion N; subst. cbn [map]. constructor.
  - intro I. apply in_map_iff in I. destruct I as (y & E & I). apply H2. rewrite (H x y); [exact I|left; reflexivity|right; exact I|symmetry; exact E].
  - apply IH; [|assumption]. intros a b Ia Ib. apply H; right; assumption.
Qed.
(** the points of the kernel *)
Definition kernel_points : list apoint :=
  Infinity :: flat_map (fun xy => [Affine (fst xy) (snd xy); Affine (fst xy) (Instances.w_p Instances.std_BLS12381G1 - snd xy)]) (combine kernel11 kernel11_y).
(** there are eleven, all on the curve, and every point of the domain goes to the same image as exactly ten others: those that differ from it by a point of the kernel *)
Lemma c46_eleven_preimages : forall m A A', get_isogeny_bls12381g1 = Ret m -> won (iso_e0 m) A -> maps m iso11_bls12381g1 A A' ->
  exists l, NoDup l /\ List.length l = 11%nat /\ forall B, In B l <-> won (iso_e0 m) B /\ maps m iso11_bls12381g1 B A'.
Proof.
  intros m A A' Em OA MA. destruct bls_full as (m' & Em' & X0 & X1 & IS & Ep & Ea & Eb & Hp' & _). rewrite Em in Em'. injection Em' as <-.
  assert (ND : NoDup kernel_points). { repeat (constructor; [cbn; intuition discriminate|]). constructor. }
  destruct (open2 m _ IS) as (p & Hp & Hp2 & a & b & b' & Ep2 & Ea2 & Eb2 & _ & NR & _ & WO & _ & WS & _).
  assert (EP : Instances.w_p Instances.std_BLS12381G1 = Cert_Isog.p_bls) by (vm_compute; reflexivity).
  assert (KO : Forall (won (iso_e0 m)) kernel_points).
  { apply Forall_forall. intros K [<-|I]; [exact Logic.I|]. apply in_flat_map in I. destruct I as ([x y] & I & J). cbn [fst snd] in J. rewrite EP in J.
    pose proof (proj1 (Forall_forall _ _) kernel_on (x, y) I) as O. cbn [fst snd] in O.
    assert (O1 : won (iso_e0 m) (Affine x y)) by (unfold won, on_cubic; rewrite Ep, Ea, Eb; exact O).
    destruct J as [<-|[<-|[]]]; [exact O1|]. apply WO in O1. destruct O1 as (K & EK & OK). apply WO. exists (popp _ K). split; [|apply on_popp, OK].
    rewrite neg_ap, <- EK. cbn [negative]. f_equal. rewrite <- Ep2, Ep.
    assert (Y0 : 0 < y < Cert_Isog.p_bls).
    { destruct O as (_ & (? & ?) & _). split; [|assumption]. destruct (Z.eq_dec y 0) as [->|]; [|lia]. exfalso. revert I. clear. cbn. intuition discriminate. }
    apply Z.mod_unique with (-1); lia. }
  assert (L : forall L, Forall (won (iso_e0 m)) L -> exists L', L = map (ap p Hp) L' /\ Forall (on (ZpF p Hp) F0 a b) L').
  { induction L as [|x L IH]; intro F; [exists []; split; [reflexivity|constructor]|]. inversion F; subst. destruct (IH H2) as (L' & -> & FL). apply WO in H1. destruct H1 as (x' & -> & Ox).
    exists (x' :: L'). split; [reflexivity|constructor; assumption]. }
  destruct (L _ KO) as (L' & EL & FL). clear L. pose proof OA as OA0. apply WO in OA. destruct OA as (A1 & -> & OA).
  pose proof (two_K p Hp Hp2) as T2. assert (NS : forall x, cubic (ZpF p Hp) F0 a b x = F0 -> dcubic (ZpF p Hp) F0 a x <> F0) by (intros x Q; destruct (NR x Q)).
  assert (INV : forall K, on (ZpF p Hp) F0 a b K -> padd _ F0 a A1 (popp _ (padd _ F0 a A1 (popp _ K))) = K).
  { intros K OK. rewrite (popp_padd _ F0 a b T2) by (try apply on_popp; assumption). rewrite popp_invol.
    rewrite <- (popp_invol _ A1) at 1. apply (padd_opp_cancel _ F0 a b T2 NS); [exact OK|apply on_popp, OA]. }
  assert (KER : forall D, on (ZpF p Hp) F0 a b D -> (In D L' <-> (ap p Hp D = Infinity \/ exists x y, ap p Hp D = Affine x y /\ In x kernel11))).
  { intros D OD. assert (Q : In D L' <-> In (ap p Hp D) kernel_points).
    { rewrite EL. rewrite in_map_iff. split; [intro I; exists D; auto|]. intros (D' & E & I). apply ap_inj in E. subst. exact I. }
    rewrite Q. clear Q. split.
    - intros [E|I]; [left; symmetry; exact E|]. right. apply in_flat_map in I. destruct I as ([x y] & I & J). cbn [fst snd] in J. apply in_combine_l in I.
      destruct J as [J|[J|[]]]; rewrite <- J; eauto.
    - intros [E|(x & y & E & I)]; [left; symmetry; exact E|]. right. apply in_flat_map.
      assert (C : In x (map fst (combine kernel11 kernel11_y))) by exact I. apply in_map_iff in C. destruct C as ([x' y'] & <- & C). cbn [fst] in *. exists (x', y'). split; [exact C|]. cbn [fst snd].
      assert (I1 : In (Affine x' y') kernel_points) by (right; apply in_flat_map; exists (x', y'); split; [exact C|left; reflexivity]).
      pose proof (proj1 (Forall_forall _ _) KO _ I1) as O1. apply WO in O1. destruct O1 as (K & EK & OK).
      assert (S : D = K \/ D = popp _ K).
      { destruct D as [|dx dy]; [discriminate E|]. destruct K as [|kx ky]; [discriminate EK|]. cbn in E, EK. injection E as Ex Ey. injection EK as Kx Ky.
        assert (dx = kx) by (apply Zp_eq; congruence). subst kx. cbn in OD, OK. cbn [popp].
        assert (SQ : Fmul (dy : ZpF p Hp) dy = Fmul (ky : ZpF p Hp) ky) by exact (eq_trans OD (eq_sym OK)). destruct (Fsqr_eq (ZpF p Hp) dy ky SQ) as [->| ->]; auto. }
      destruct S as [->| ->].
      + left. exact EK.
      + right. left. rewrite neg_ap, <- EK. cbn [negative]. rewrite EP. f_equal. rewrite <- Ep2, Ep.
        assert (Y0 : 0 < y' < Cert_Isog.p_bls).
        { pose proof (proj1 (Forall_forall _ _) kernel_on (x', y') C) as (_ & (? & ?) & _). cbn [snd] in *. split; [|assumption]. destruct (Z.eq_dec y' 0) as [->|]; [|lia]. exfalso. revert C. clear. cbn. intuition discriminate. }
        apply Z.mod_unique with (-1); lia. }
  exists (map (ap p Hp) (map (fun K => padd _ F0 a A1 (popp _ K)) L')). split; [|split].
  - rewrite map_map. apply nodup_map.
    + intros x y Ix Iy E. apply ap_inj in E. rewrite <- (INV x), <- (INV y), E; [reflexivity| |]; apply (proj1 (Forall_forall _ _) FL); assumption.
    + apply (NoDup_map_inv (ap p Hp)). rewrite <- EL. exact ND.
  - rewrite !map_length. rewrite <- (map_length (ap p Hp) L'), <- EL. reflexivity.
  - intro B. rewrite in_map_iff. split.
    + intros (B1 & <- & I). apply in_map_iff in I. destruct I as (K & <- & I). pose proof (proj1 (Forall_forall _ _) FL K I) as OK.
      assert (OB : on (ZpF p Hp) F0 a b (padd _ F0 a A1 (popp _ K))) by (apply on_padd; [exact T2|exact OA|apply on_popp, OK]).
      assert (OB' : won (iso_e0 m) (ap p Hp (padd _ F0 a A1 (popp _ K)))) by (apply WO; eexists; split; [reflexivity|exact OB]).
      split; [exact OB'|]. destruct (c46_map m _ Em OB') as (B' & MB & _ & _). replace A' with B'; [exact MB|]. symmetry.
      apply (c46_fibres m _ _ A' B' Em OA0 OB' MA MB). exists (ap p Hp K). split; [|apply KER; assumption].
      rewrite Ep2, <- neg_ap. apply WS; [exact OA|apply on_popp, OB|]. rewrite INV by exact OK. reflexivity.
    + intros (OB' & MB). destruct (proj1 (c46_fibres m _ _ A' A' Em OA0 OB' MA MB) eq_refl) as (D & S & HD).
      apply WO in OB'. destruct OB' as (B1 & -> & OB). rewrite Ep2, <- neg_ap in S. apply WS in S; [|exact OA|apply on_popp, OB]. subst D.
      assert (OD : on (ZpF p Hp) F0 a b (padd _ F0 a A1 (popp _ B1))) by (apply on_padd; [exact T2|exact OA|apply on_popp, OB]).
      exists B1. split; [reflexivity|]. apply in_map_iff. exists (padd _ F0 a A1 (popp _ B1)). split; [apply INV, OB|]. apply KER; assumption.
Qed.

Lemma forall2_length {X Y} (R : X -> Y -> Prop) l l' : Forall2 R l l' -> List.length l = List.length l'.
Proof. induction 1; cbn; congruence. Qed.
Lemma apoint_dec (A B : apoint) : {A = B} + {A <> B}.
Proof. decide equality; apply Z.eq_dec. Qed.
(** it is not onto: the curves have equally many points, so some point of BLS12-381 G1 is the image of none *)
Lemma c46_onto_refuted : forall m, get_isogeny_bls12381g1 = Ret m ->
  exists A', won (iso_e1 m) A' /\ forall A, won (iso_e0 m) A -> ~ maps m iso11_bls12381g1 A A'.
Proof.
  intros m Em. destruct bls_full as (m' & Em' & X0 & X1 & _). rewrite Em in Em'. injection Em' as <-.
  destruct OrderProps.c55_BLS12381G1_11ISO as (e0 & Y0 & (L0 & N0 & I0 & C0) & _). rewrite X0 in Y0. injection Y0 as <-.
  destruct (proj1 OrderProps.c55_BLS12381G1) as (e1 & Y1 & (L1 & N1 & I1 & C1) & _). rewrite X1 in Y1. injection Y1 as <-.
  assert (EN : Instances.w_r Instances.std_BLS12381G1 = Instances.w_r Instances.std_BLS12381G1_11ISO) by reflexivity. rewrite EN, <- C0 in C1. apply Nat2Z.inj in C1. clear C0 EN.
  assert (IM : forall L, (forall A, In A L -> won (iso_e0 m) A) -> exists I, Forall2 (maps m iso11_bls12381g1) L I).
  { induction L as [|A L IH]; intro H; [exists []; constructor|]. destruct (IH (fun B J => H B (or_intror J))) as (I & F).
    destruct (c46_map m A Em (H A (or_introl eq_refl))) as (A' & MA & _). exists (A' :: I). constructor; assumption. }
  destruct (IM L0 (fun A => proj1 (I0 A))) as (I & F). clear IM.
  destruct (Forall_Exists_dec (fun A' => In A' I) (fun A' => in_dec apoint_dec A' I) L1) as [ALL|EX].
  - exfalso. assert (NI : NoDup I).
    { apply (NoDup_incl_NoDup (l := L1)); [exact N1|rewrite <- (forall2_length _ _ _ F); lia|]. intros A' J. exact (proj1 (Forall_forall _ _) ALL A' J). }
    assert (INJ : forall L I A B A', Forall2 (maps m iso11_bls12381g1) L I -> NoDup I -> (forall A, In A L -> won (iso_e0 m) A) ->
      In A L -> In B L -> maps m iso11_bls12381g1 A A' -> maps m iso11_bls12381g1 B A' -> A = B).
    { clear - Em. induction L as [|X L IH]; intros I A B A' F N H IA IB MA MB; [destruct IA|]. inversion F; subst. inversion N; subst.
      assert (U : forall Y Y1 Y2, won (iso_e0 m) Y -> maps m iso11_bls12381g1 Y Y1 -> maps m iso11_bls12381g1 Y Y2 -> Y1 = Y2).
      { intros Y Y1 Y2 OY M1 M2. destruct (c46_map m Y Em OY) as (Y' & _ & _ & U & _). rewrite (U Y1 M1), (U Y2 M2). reflexivity. }
      assert (P : forall Y, In Y L -> maps m iso11_bls12381g1 Y A' -> In A' l').
      { clear - H4 U H. revert H. induction H4 as [|Y Y' L l' MY F IH]; intros H Z J MZ; [destruct J|]. destruct J as [->|J].
        - left. apply (U Z); [apply H; right; left; reflexivity|exact MY|exact MZ].
        - right. apply (IH (fun A K => H A (match K with or_introl e => or_introl e | or_intror k => or_intror (or_intror k) end)) Z J MZ). }
      destruct IA as [->|IA], IB as [->|IB]; [reflexivity| | |].
      - exfalso. apply H3. rewrite (U A y A'); [exact (P B IB MB)|apply H; left; reflexivity|assumption|exact MA].
      - exfalso. apply H3. rewrite (U B y A'); [exact (P A IA MA)|apply H; left; reflexivity|assumption|exact MB].
      - apply (IH l' A B A'); try assumption. intros Y J. apply H. right. exact J. }
    destruct c46_fibres_ex as (m' & A & B & Em' & OA & OB & NE & MA & MB). rewrite Em in Em'. injection Em' as <-.
    apply NE. apply (INJ L0 I A B gen11' F NI (fun A => proj1 (I0 A))); [apply I0, OA|apply I0, OB|exact MA|exact MB].
  - apply Exists_exists in EX. destruct EX as (A' & J & NJ). exists A'. split; [apply I1, J|]. intros A OA MA. apply NJ. apply I0 in OA.
    assert (ON : forall X, In X L0 -> won (iso_e0 m) X) by (intro; apply I0). clear - F OA MA Em ON.
    induction F as [|X X' L I MX F IH]; [destruct OA|]. destruct OA as [->|OA]; [left|right; apply IH; [exact OA|intros; apply ON; right; assumption]].
    destruct (c46_map m A Em (ON A (or_introl eq_refl))) as (Y' & _ & _ & U & _). rewrite (U X' MX), (U A' MA). reflexivity.
Qed.
(** the base points correspond; the eleven points of the kernel *)
Example c46_onto_ex : (exists m, get_isogeny_secp256k1 = Ret m /\ maps m iso3_secp256k1 gen3 gen3')
  /\ (exists m, get_isogeny_bls12381g1 = Ret m /\ maps m iso11_bls12381g1 gen11 gen11') /\ List.length kernel_points = 11%nat.
Proof.
  destruct secp_full as (m & Em & _ & _ & _ & Ep & _ & _ & Hp & _), bls_full as (m' & Em' & _ & _ & _ & Ep' & _ & _ & Hp' & _).
  split; [exists m; split; [exact Em|]|split; [exists m'; split; [exact Em'|]|reflexivity]].
  - unfold maps. rewrite Ep. exact (image_ok _ _ _ _ _ _ _ _ _ Hp Cert_Isog.gen_secp).
  - unfold maps. rewrite Ep'. exact (image_ok _ _ _ _ _ _ _ _ _ Hp' Cert_Isog.gen_bls).
Qed.
