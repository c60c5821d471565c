(** C63 for curve448 and edwards448: how many elements Elligator 2 followed by the 4-isogeny sends to one point. *)
From Coq Require Import ZArith Znumtheory Lia String Bool List.
From Verif.Spec Require Import Arith Curve Elements Morphisms Counting.
From Verif.Spec Require Instances.
From Verif.Spec Require EPoints MPoints.
From Verif.Model Require Import Out PrimeField RationalMaps Maps.
From Verif.Model Require Instances.
From Verif.Model Require MCurve ECurve.
From Verif.Proofs Require MontProps EdwProps EdwP RatP MapsProps InstProps HashProps EdEllProps Iso4P Rat4Props SmallP.
From Verif.Math Require MontAdd.
From Verif.Math Require Import Fld Zp Fibre Iso4 Iso4Dual.
From Verif.Proofs Require Import CurveP.
From Verif.Math Require Import Edwards ECGroup.
From Verif.Proofs Require Import FibreProps FibreInstProps.
Import EPoints(edw, epoint, esum, eon).
Import MPoints(mont, mpoint, msum, mon).
Import ListNotations.
Import Spec.Instances Model.Instances.
Open Scope Z_scope.

(** *** the fibres of the second map have at most four points *)
Section PsiFibre.
  Variable K : Fld.
  Add Field KFp4 : (Fth K).
  Open Scope fld_scope.
  Variables d A : K.
  Hypothesis two : (2 : K) <> 0.
  Hypothesis d_nonsq : forall s : K, s * s <> d.
  Hypothesis HA : A = 2 - 2 * 2 * d.
  Hypothesis A_nonsq : forall s : K, s * s <> A * A - 2 * 2.
  Hypothesis nonsing : forall x, cubic K A 1 0 x = 0 -> dcubic K A 1 x <> 0.
  Local Notation on := (ECGroup.on K A 1 0).
  Local Notation padd := (ECGroup.padd K A 1).
  Local Notation psi := (Iso4.psi K).

  Lemma square_two (c : K) : at_most 2 (fun v : K => v * v = c).
  Proof.
    intros [|v0 [|v1 [|v2 l]]] N H; cbn [List.length]; try lia. exfalso.
    assert (P : forall a b : K, a * a = c -> b * b = c -> a <> b -> a = - b).
    { intros a b Ha Hb D. destruct (Fmul_integral K (a - b) (a + b)) as [Q|Q].
      - transitivity (a * a - b * b); [ring|]. rewrite Ha, Hb. ring.
      - destruct D. transitivity (a - b + b); [ring|]. rewrite Q. ring.
      - transitivity (a + b - b); [ring|]. rewrite Q. ring. }
    inversion N as [|? ? N0 N']; subst. inversion N' as [|? ? N1 _]; subst.
    pose proof (H v0 (or_introl eq_refl)) as H0. pose proof (H v1 (or_intror (or_introl eq_refl))) as H1. pose proof (H v2 (or_intror (or_intror (or_introl eq_refl)))) as H2.
    apply N1. left. rewrite (P v2 v0 H2 H0), (P v1 v0 H1 H0); [reflexivity| |].
    - intros ->. apply N0. left. reflexivity.
    - intros ->. apply N0. right. left. reflexivity.
  Qed.
  Lemma kernel_four : at_most 4 (fun M => on M /\ psi M = (0, 1)).
  Proof.
    apply (at_most_weak (1 + (1 + 2)) 4 _ (fun M => M = ECGroup.Inf K \/ M = ECGroup.Aff K 0 0 \/ (on M /\ exists v, M = ECGroup.Aff K (- (1)) v)) (le_n 4)).
    - intros M [O H]. apply (psi_kernel K d A two d_nonsq HA A_nonsq M O) in H. destruct H as [->|(v & [->| ->])]; [auto| |].
      + right. left. rewrite (Iso4P.u_zero K A v O). reflexivity.
      + right. right. split; [exact O|]. exists v. reflexivity.
    - apply at_most_or; [apply at_most_one|]. apply at_most_or; [apply at_most_one|].
      apply (at_most_inj (fun M => match M with ECGroup.Inf _ => (0 : K) | ECGroup.Aff _ _ v => v end) 2 _ (fun v : K => v * v = A - 2)); [| |apply square_two].
      + intros M N (_ & v & ->) (_ & w & ->) Q. rewrite Q. reflexivity.
      + intros M (O & v & ->). cbn in O. unfold cubic in O. rewrite O. ring.
  Qed.
  Lemma fibre_four (E : K * K) : at_most 4 (fun M => on M /\ psi M = E).
  Proof.
    intros [|M0 l] N H; [cbn; lia|]. destruct (H M0 (or_introl eq_refl)) as [O0 E0].
    pose proof (on_popp K A 1 0 M0 O0) as ON.
    assert (G : at_most 4 (fun M => on M /\ psi M = E)); [|exact (G _ N H)].
    apply (at_most_inj (fun M => padd M (popp K M0)) 4 _ (fun M => on M /\ psi M = (0, 1))); [| |exact kernel_four].
    - intros M M' [OM _] [OM' _] Q. exact (padd_cancel_r K A 1 0 two nonsing M M' _ OM OM' ON Q).
    - intros M [OM EM]. split; [apply (on_padd K A 1 0 two); assumption|].
      rewrite (psi_add K d A two d_nonsq HA A_nonsq) by assumption. rewrite EM, <- E0.
      rewrite <- (psi_add K d A two d_nonsq HA A_nonsq) by assumption. rewrite padd_opp_r. reflexivity.
  Qed.
End PsiFibre.

(** no point of the Edwards curve is the image of more than four points of the Montgomery curve *)
Lemma c63_dual_fibre : forall m E, iso4 m -> at_most 4 (fun M => mon (e4_e1 m) M /\ dmap m M E).
Proof.
  intros m E W. Rat4Props.open_iso4 W. destruct (MontProps.mont_open_at (e4_e1 m) p Hp Ep Wm) as (_ & A' & _ & s' & _ & ea' & _ & _ & _ & NS' & NR' & _).
  intros l N H.
  assert (T : exists l', l = List.map (ap p Hp) l' /\ forall M, In M l' -> on (ZpF p Hp) A F1 F0 M /\ EdwP.zz p Hp (psi (ZpF p Hp) M) = E).
  { clear N. induction l as [|M l IH]; [exists []; split; [reflexivity|intros ? []]|].
    destruct IH as (l' & -> & H'); [intros M' I; apply H; right; exact I|].
    destruct (H M (or_introl eq_refl)) as [O D]. destruct (MU M O) as (M' & -> & O'). exists (M' :: l'). split; [reflexivity|].
    intros M'' [<-|I]; [|apply H', I]. split; [exact O'|]. symmetry. unfold dmap in D. fold p in D.
    apply (Iso4P.isogeny4_psi p Hp Hp2 d A DN HA A_NS M' E O'). exact D. }
  destruct T as (l' & -> & H'). rewrite map_length. apply NoDup_map_inv in N.
  destruct l' as [|M0 l']; [cbn; lia|].
  apply (fibre_four _ d A (two_K p Hp Hp2) DN HA A_NS (MontAdd.mont_nonsing _ A s NS NR) (psi (ZpF p Hp) M0) _ N).
  intros M I. destruct (H' M I) as [O Q]. split; [exact O|]. destruct (H' M0 (or_introl eq_refl)) as [_ Q0].
  rewrite <- Q0 in Q. apply EdwP.zz_inj in Q. exact Q.
Qed.

Lemma zz_dec (x y : Z * Z) : {x = y} + {x <> y}.
Proof. decide equality; apply Z.eq_dec. Qed.

(** what the composed map sends where *)
Lemma ed448_sent m z M : iso4 m -> sqrt_modulus (modulus (ECurve.c_f (e4_e0 m))) -> valid (modulus (ECurve.c_f (e4_e0 m))) z ->
  ~ square_mod (modulus (ECurve.c_f (e4_e0 m))) (val z) -> ed_ell2_new (e4_e0 m) z (Some (R448 m)) = Ret M ->
  exists m0, ell2_new (e4_e1 m) z = Ret m0 /\ forall u E,
  (sent (modulus (ECurve.c_f (e4_e0 m))) (ed_ell2_map M) (epoint (e4_e0 m)) E u <->
   exists x y, sent (modulus (ECurve.c_f (e4_e0 m))) (ell2_map m0) (mpoint (e4_e1 m)) (Affine x y) u
     /\ dmap m (Affine x y) E /\ (x, y) <> (0, 0)).
Proof.
  intros W Hm Vz Nz EM. pose proof W as (We & Wm & Ep & _). destruct (EdEllProps.ed_new_inv _ _ _ _ EM) as (m0 & E0 & EQM). cbn [rat_codomain] in E0.
  exists m0. split; [exact E0|]. intros u E. set (p := modulus (ECurve.c_f (e4_e0 m))) in *.
  assert (S : valid p u -> exists Q x y, ell2_map m0 u = Ret Q /\ mpoint (e4_e1 m) Q (Affine x y)
    /\ forall x' y', ell2_image (e4_e1 m) (val z) (val u) x' y' <-> x' = x /\ y' = y).
  { intro Vu. destruct (EdEllProps.ell2_step (e4_e1 m) z u m0 Wm) as (Q & x & y & EQ & HQ & _ & U); try (rewrite Ep; assumption); [exact E0|].
    exists Q, x, y. auto. }
  split.
  - intros (Vu & P & EP & HP). destruct (S Vu) as (Q & x & y & EQ & HQ & U).
    destruct (EdEllProps.c51_map_448 m z u M W Hm Vz Vu Nz EM) as (P' & x' & y' & EP' & I & H1 & H2). rewrite EP in EP'. injection EP' as <-.
    apply U in I. destruct I as [-> ->]. exists x, y. split; [split; [exact Vu|exists Q; auto]|].
    assert (NZ : (x, y) <> (0, 0)) by (intro Z0; destruct (H2 Z0) as (_ & _ & _ & _ & B); exact (B E HP)).
    split; [|exact NZ]. destruct (H1 NZ) as [_ HH]. apply HH. exact HP.
  - intros (x & y & (Vu & Q & EQ & HQ) & D & NZ). destruct (S Vu) as (Q' & x1 & y1 & EQ' & HQ' & U). rewrite EQ in EQ'. injection EQ' as <-.
    pose proof (proj1 (MontProps.c32_mont_representation (e4_e1 m) Wm) Q _ _ HQ HQ') as X. injection X as <- <-.
    destruct (EdEllProps.c51_map_448 m z u M W Hm Vz Vu Nz EM) as (P & x' & y' & EP & I & H1 & _). apply U in I. destruct I as [-> ->].
    split; [exact Vu|]. exists P. split; [exact EP|]. destruct (H1 NZ) as [_ HH]. apply HH. exact D.
Qed.

(** Elligator 2 followed by the 4-isogeny: at most eight elements other than 0 go to one point, and so at least
    (p + 3)/8 points are reached *)
Lemma c63_iso4 : forall m z M, let p := modulus (ECurve.c_f (e4_e0 m)) in
  iso4 m -> sqrt_modulus p -> valid p z -> ~ square_mod p (val z) -> ed_ell2_new (e4_e0 m) z (Some (R448 m)) = Ret M ->
  (forall E, at_most 8 (fun u => sent p (ed_ell2_map M) (epoint (e4_e0 m)) E u /\ val u <> 0))
  /\ (forall E, at_most 9 (sent p (ed_ell2_map M) (epoint (e4_e0 m)) E))
  /\ at_least (Z.to_nat ((p + 3) / 8)) (fun E => exists u, sent p (ed_ell2_map M) (epoint (e4_e0 m)) E u).
Proof.
  intros m z M p W Hm Vz Nz EM. destruct (ed448_sent m z M W Hm Vz Nz EM) as (m0 & E0 & S). fold p in S.
  pose proof W as (We & Wm & Ep & _). fold p in Ep. pose proof We as (Hp & Hp2 & _). fold p in Hp, Hp2.
  assert (F : mfield (e4_e1 m)) by (apply EdEllProps.mont_mfield; [exact Wm|rewrite Ep; exact Hm]).
  assert (b1 : val (MCurve.c_b (e4_e1 m)) = 1) by (destruct Wm as (_ & _ & _ & _ & _ & b1 & _); exact b1).
  assert (B : (modulus (MCurve.c_f (e4_e1 m)) | val (MCurve.c_b (e4_e1 m)) * val (MCurve.c_b (e4_e1 m)) - 1)) by (rewrite b1; exists 0; reflexivity).
  assert (Vz' := Vz). assert (Nz' := Nz). rewrite <- Ep in Vz', Nz'.
  assert (O : forall x y u, sent p (ell2_map m0) (mpoint (e4_e1 m)) (Affine x y) u -> mon (e4_e1 m) (Affine x y)).
  { intros x y u (_ & P & _ & HP). exact (Rat4Props.mpoint_mon _ _ _ HP). }
  assert (C2 := fun x y => c63_ell2 (e4_e1 m) z m0 x y F Vz' B Nz' E0). rewrite Ep in C2.
  assert (NI : forall n (R : FpElt -> Prop), at_most n (fun u => exists x y, Infinity = Affine x y /\ R u)).
  { intros n R. apply (at_most_weak 0 n _ _ (Nat.le_0_l n) (fun v H => H)), at_most_none. intros u (x & y & D & _). discriminate D. }
  assert (EIGHT : forall E, at_most 8 (fun u => sent p (ed_ell2_map M) (epoint (e4_e0 m)) E u /\ val u <> 0)).
  { intro E. apply (at_most_through 4 2 _ (fun u B => exists x y, B = Affine x y /\ (sent p (ell2_map m0) (mpoint (e4_e1 m)) B u /\ val u <> 0)) _) with (2 := c63_dual_fibre m E W).
    + intros u (H & N0). apply S in H. destruct H as (x & y & H & D & _). exists (Affine x y). split; [exists x, y; auto|]. split; [exact (O x y u H)|exact D].
    + intros [|x y]; [apply NI|].
      apply (at_most_weak 2 2 _ _ (le_n 2)) with (2 := proj1 (C2 x y)). intros u (x' & y' & _ & H). exact H. }
  split; [exact EIGHT|split].
  - intro E. apply (at_most_weak (8 + 1) 9 _ (fun u => (sent p (ed_ell2_map M) (epoint (e4_e0 m)) E u /\ val u <> 0) \/ u = mkFpElt 0 (mkFp p)) (le_n 9)).
    + intros u H. destruct (Z.eq_dec (val u) 0) as [Z0|NZ]; [right|left; auto]. destruct H as ((Q & _) & _). destruct u as [w f]. cbn in *. subst. reflexivity.
    + apply at_most_or; [exact (EIGHT E)|apply at_most_one].
  - pose proof (c63_ell2_size (e4_e1 m) z m0 F Vz' B Nz' E0) as SZ. rewrite Ep in SZ. destruct SZ as (l & N & H & L).
    assert (AFF : forall A, In A l -> exists x y u, A = Affine x y /\ sent p (ell2_map m0) (mpoint (e4_e1 m)) (Affine x y) u).
    { intros A I. destruct (H A I) as (u & Hu). destruct A as [|x y]; [|exists x, y, u; auto]. exfalso.
      destruct Hu as (Vu & Q & EQ & HQ). rewrite <- Ep in Vu.
      destruct (MapsProps.c42_total (e4_e1 m) z u m0 F Vz' Vu B E0 Nz') as (Q' & x & y & EQ' & HQ' & _). rewrite EQ in EQ'. injection EQ' as <-.
      pose proof (proj1 (MontProps.c32_mont_representation (e4_e1 m) Wm) Q _ _ HQ HQ') as X. discriminate X. }
    destruct (split_list (fun A => A = Affine 0 0) (fun A => A <> Affine 0 0) l N) as (l1 & l2 & N1 & N2 & A1 & A2 & EL & _ & I2).
    { intros A _. destruct (apoint_dec A (Affine 0 0)); [left|right]; assumption. }
    pose proof (at_most_one (Affine 0 0) l1 N1 A1) as L1.
    destruct (image_rel zz_dec (fun A E => mon (e4_e1 m) A /\ dmap m A E) 4 l2 N2) as (im & Nim & Him & L2).
    + intros A I. destruct (AFF A (I2 A I)) as (x & y & u & -> & Hu). destruct (Rat4Props.c44_dual m _ W (O x y u Hu)) as (E & _ & U).
      exists E. split; [exact (O x y u Hu)|]. apply U. reflexivity.
    + intro E. apply (at_most_weak 4 4 _ _ (le_n 4)) with (2 := c63_dual_fibre m E W). intros A (_ & X). exact X.
    + exists im. split; [exact Nim|]. split.
      * intros E I. destruct (Him E I) as (A & IA & _ & D). destruct (AFF A (I2 A IA)) as (x & y & u & -> & Hu).
        exists u. apply S. exists x, y. split; [exact Hu|]. split; [exact D|]. intro Q. apply (A2 _ IA). injection Q as -> ->. reflexivity.
      * pose proof (Z.div_mod (p + 3) 8 ltac:(lia)). pose proof (Z.mod_pos_bound (p + 3) 8 ltac:(lia)).
        assert (OD : p mod 2 = 1) by (destruct Hm as [Q|Q]; [rewrite (Z.div_mod p 4), Q by lia; replace (4 * (p / 4) + 3) with (1 + (2 * (p / 4) + 1) * 2) by ring|rewrite (Z.div_mod p 8), Q by lia; replace (8 * (p / 8) + 5) with (1 + (4 * (p / 8) + 2) * 2) by ring]; rewrite Z.mod_add by lia; reflexivity).
        pose proof (Z.div_mod (p - 1) 2 ltac:(lia)). pose proof (Z.mod_pos_bound (p - 1) 2 ltac:(lia)). pose proof (Z.div_mod p 2 ltac:(lia)). lia.
Qed.

(** the shipped curves; on curve448 two elements share an image exactly when their squares agree or both are degenerate *)
Lemma c63_curve448 : exists e, CURVE448 = Ret e /\
  forall z, let p := modulus (MCurve.c_f e) in valid p z -> ~ square_mod p (val z) ->
  exists m, ell2_new e z = Ret m /\
  forall u v, valid p u -> valid p v ->
  ((exists A, sent p (ell2_map m) (mpoint e) A u /\ sent p (ell2_map m) (mpoint e) A v)
   <-> (p | val u * val u - val v * val v) \/ (degenerate p (val z) (val u) /\ degenerate p (val z) (val v))).
Proof.
  destruct InstProps.c48_CURVE448 as (e & HX & p0 & a0 & b0 & _ & _ & _ & _ & _ & W & _). exists e. split; [exact HX|]. intros z p Vz Nz.
  pose proof (HashProps.mfield_of e W) as F.
  destruct (proj1 (MapsProps.c42_new e z F Vz)) as (m & Em); [rewrite a0; vm_compute; discriminate|rewrite b0; discriminate|].
  exists m. split; [exact Em|]. intros u v Vu Vv.
  assert (B : (modulus (MCurve.c_f e) | val (MCurve.c_b e) * val (MCurve.c_b e) - 1)) by (rewrite b0; exists 0; reflexivity).
  destruct (MapsProps.c42_total e z u m F Vz Vu B Em Nz) as (P & x & y & EP & HP & I).
  assert (S : sent p (ell2_map m) (mpoint e) (Affine x y) u) by (split; [exact Vu|exists P; split; assumption]).
  split.
  - intros (A & SA & SB). destruct A as [|x' y'].
    + destruct SA as (_ & P' & EP' & _ & _ & _ & _ & (_ & _ & Z0) & _). rewrite EP in EP'. injection EP' as <-.
      destruct HP as (_ & _ & _ & _ & (Z1 & _) & _). contradiction.
    + exact (proj1 (c63_ell2_same e z m u v x' y' F Vz B Nz Em SA Vv) SB).
  - intro H. exists (Affine x y). split; [exact S|]. exact (proj2 (c63_ell2_same e z m u v x y F Vz B Nz Em S Vv) H).
Qed.
(** on edwards448 no point has more than eight preimages *)
Lemma c63_edwards448 : exists m, edwards448_to_curve448 = Ret m /\ EDWARDS448 = Ret (e4_e0 m) /\
  forall z, let p := modulus (ECurve.c_f (e4_e0 m)) in valid p z -> ~ square_mod p (val z) ->
  exists M, ed_ell2_new (e4_e0 m) z (Some (R448 m)) = Ret M
  /\ (forall E, at_most 8 (sent p (ed_ell2_map M) (epoint (e4_e0 m)) E))
  /\ at_least (Z.to_nat ((p + 3) / 8)) (fun E => exists u, sent p (ed_ell2_map M) (epoint (e4_e0 m)) E u).
Proof.
  destruct EdEllProps.c51_edwards448_refuted as (m & X & H). destruct Rat4Props.c44_shipped as (m' & X' & X0 & X1 & W). rewrite X in X'. injection X' as <-.
  exists m. split; [exact X|]. split; [exact X0|]. intros z p Vz Nz. pose proof W as (_ & _ & Ep & _). fold p in Ep.
  destruct (EdEllProps.std_448 _ X1) as (Hm & _). rewrite Ep in Hm.
  destruct (H z z Vz Vz Nz) as (M & _ & EM & _). exists M. split; [exact EM|].
  destruct (c63_iso4 m z M W Hm Vz Nz EM) as (C8 & _ & CS). fold p in C8, CS. split; [|exact CS].
  intro E. apply (at_most_weak 8 8 _ _ (le_n 8)) with (2 := C8 E). intros u S. split; [exact S|]. intro Z0.
  destruct S as (Vu & P & EP & HP). destruct (H z u Vz Vu Nz) as (M' & P' & EM' & EP' & HH & _). rewrite EM in EM'. injection EM' as <-.
  rewrite EP in EP'. injection EP' as <-. apply (proj1 HH); [exists E; exact HP|]. left. rewrite Z0. apply Z.divide_0_r.
Qed.

(** curves modulo 43 of the same kind, where eight elements do go to one point *)
Definition n43 (v : Z) : FpElt := mkFpElt v (mkFp 43).
Definition I43 : Ed4isoMt448 := mkEd4isoMt448
  (ECurve.mkCurve (mkFp 43) (n43 1) (n43 7) 11 (n43 41) (n43 29) 4)
  (MCurve.mkCurve (mkFp 43) (n43 17) (n43 1) (n43 2) 11 (n43 0) (n43 0) 4).
Lemma iso43 : iso4 I43.
Proof.
  assert (SQ : forall c, forallb (fun r => negb (((r * r - c) mod 43) =? 0)) (List.map Z.of_nat (List.seq 0 43)) = true -> forall x, ~ (43 | x * x - c)).
  { intros c H x D. apply Z.mod_divide in D; [|lia]. rewrite Zminus_mod, Z.mul_mod in D by lia. rewrite <- Zminus_mod_idemp_l in D.
    pose proof (Z.mod_pos_bound x 43 ltac:(lia)) as Bx. rewrite forallb_forall in H. specialize (H (x mod 43)).
    assert (In (x mod 43) (List.map Z.of_nat (List.seq 0 43))) as I.
    { apply in_map_iff. exists (Z.to_nat (x mod 43)). split; [apply Z2Nat.id; lia|]. apply in_seq. lia. }
    apply H in I. apply negb_true_iff, Z.eqb_neq in I. apply I. rewrite Zminus_mod. rewrite Zminus_mod in D. rewrite !Z.mod_mod in D by lia. exact D. }
  assert (Pr : prime 43) by (apply SmallP.prime_small; reflexivity).
  split; [|split; [|split; [reflexivity|]]].
  - split; [exact Pr|]. cbn. split; [lia|]. do 2 (split; [split; [reflexivity|cbn; lia]|]). split; [intros [k E]; lia|]. split; [exists 1; exists 0; reflexivity|].
    apply SQ. reflexivity.
  - split; [exact Pr|]. cbn. split; [lia|]. do 3 (split; [split; [reflexivity|cbn; lia]|]). split; [reflexivity|]. split; [intros [k E]; lia|].
    apply (SmallP.no_root_small 43 (fun x => x * x * x + 17 * (x * x) + x - 2 * 2)); [lia| |reflexivity].
    intro x. pose proof (Z.div_mod x 43 ltac:(lia)) as D. set (q := x / 43) in *. set (r := x mod 43) in *.
    exists (q * (43 * 43 * q * q + 3 * 43 * q * r + 3 * r * r) + 17 * q * (43 * q + 2 * r) + q). rewrite D. ring.
  - split; [reflexivity|]. split; [exists 1; reflexivity|]. intro s. rewrite (Z.pow_2_r s). apply SQ. reflexivity.
Qed.
Example c63_iso4_ex : iso4 I43 /\ sqrt_modulus 43 /\ exists M, ed_ell2_new (e4_e0 I43) (n43 2) (Some (R448 I43)) = Ret M
  /\ forall u, In u [4; 7; 11; 20; 23; 32; 36; 39] -> sent 43 (ed_ell2_map M) (epoint (e4_e0 I43)) (41, 29) (n43 u).
Proof.
  split; [exact iso43|]. split; [left; reflexivity|]. eexists. split; [vm_compute; reflexivity|].
  intros u H. repeat (destruct H as [<-|H]; [split; [split; [reflexivity|cbn; lia]|]; eexists; split; [vm_compute; reflexivity|];
    repeat split; try reflexivity; cbn; try lia; try discriminate; (apply Zmod_divide; [lia|reflexivity])|]). destruct H.
Qed.
