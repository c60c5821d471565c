(** C63 for the shipped curves: over 2^255 - 19 Elligator 2 sends two elements to one point exactly when they are
    equal or opposite; simplified SWU followed by the isogenies onto secp256k1 and BLS12-381 G1. *)
From Coq Require Import ZArith Znumtheory Lia String Bool List.
From Verif.Spec Require Import Arith Curve Elements Morphisms Counting.
From Verif.Spec Require Instances Shipped.
From Verif.Spec Require EPoints MPoints.
From Verif.Model Require Import Out PrimeField RationalMaps Maps.
From Verif.Model Require Instances.
From Verif.Model Require MCurve ECurve.
From Verif.Spec Require Import Isogeny.
From Verif.Spec Require WPoints.
From Verif.Model Require WCurve.
From Verif.Proofs Require WeierProps MontProps MapsProps InstProps HashProps RatProps EdEllProps IsogProps Cert_Isog Cert_Ell.
From Verif.Math Require Prime_p25519.
From Verif.Proofs Require Import IsoHomProps.
From Verif.Math Require Import Fld Zp Fibre.
From Verif.Proofs Require Import CurveP.
From Verif.Math Require Import ECGroup.
From Verif.Proofs Require Import FibreProps.
Import ListNotations.
Import Spec.Instances Model.Instances.
Open Scope Z_scope.

Lemma ell2_pairs e z m : mfield e -> val (MCurve.c_b e) = 1 -> modulus (MCurve.c_f e) mod 4 = 1 ->
  valid (modulus (MCurve.c_f e)) z -> ~ square_mod (modulus (MCurve.c_f e)) (val z) -> ell2_new e z = Ret m ->
  forall u v, valid (modulus (MCurve.c_f e)) u -> valid (modulus (MCurve.c_f e)) v ->
  ((exists A, sent (modulus (MCurve.c_f e)) (ell2_map m) (MPoints.mpoint e) A u /\ sent (modulus (MCurve.c_f e)) (ell2_map m) (MPoints.mpoint e) A v)
   <-> v = u \/ neg u = Ret v).
Proof.
  intros F b1 M Vz Nz E u v Vu Vv.
  assert (B : (modulus (MCurve.c_f e) | val (MCurve.c_b e) * val (MCurve.c_b e) - 1)) by (rewrite b1; exists 0; reflexivity).
  destruct (MapsProps.c42_total e z u m F Vz Vu B E Nz) as (P & x & y & EP & HP & I).
  assert (S : sent (modulus (MCurve.c_f e)) (ell2_map m) (MPoints.mpoint e) (Affine x y) u) by (split; [exact Vu|exists P; split; assumption]).
  split.
  - intros (A & SA & SB). destruct A as [|x' y'].
    + destruct SA as (_ & P' & EP' & _ & _ & _ & _ & (_ & _ & Z0) & _). rewrite EP in EP'. injection EP' as <-.
      destruct HP as (_ & _ & _ & _ & (Z1 & _) & _). contradiction.
    + exact (proj1 (c63_ell2_two_to_one e z m u v x' y' F Vz B Nz E M SA Vv) SB).
  - intro H. exists (Affine x y). split; [exact S|]. exact (proj2 (c63_ell2_two_to_one e z m u v x y F Vz B Nz E M S Vv) H).
Qed.

Lemma c63_curve25519 : exists e, CURVE25519 = Ret e /\
  forall z, let p := modulus (MCurve.c_f e) in valid p z -> ~ square_mod p (val z) ->
  exists m, ell2_new e z = Ret m /\
  forall u v, valid p u -> valid p v ->
  ((exists A, sent p (ell2_map m) (MPoints.mpoint e) A u /\ sent p (ell2_map m) (MPoints.mpoint e) A v) <-> v = u \/ neg u = Ret v).
Proof.
  destruct InstProps.c48_CURVE25519 as (e & HX & p0 & a0 & b0 & _ & _ & _ & _ & _ & W & _). exists e. split; [exact HX|]. intros z p Vz Nz.
  pose proof (HashProps.mfield_of e W) as F.
  destruct (proj1 (MapsProps.c42_new e z F Vz)) as (m & Em); [rewrite a0; vm_compute; discriminate|rewrite b0; discriminate|].
  exists m. split; [exact Em|]. apply (ell2_pairs e z m F b0); [rewrite p0; vm_compute; reflexivity|assumption..].
Qed.

(** the same on edwards25519, through the birational map *)
Lemma c63_edwards25519 : exists m, edwards25519_to_curve25519 = Ret m /\ EDWARDS25519 = Ret (ed_e0 m) /\
  forall z, let p := modulus (ECurve.c_f (ed_e0 m)) in valid p z -> ~ square_mod p (val z) ->
  exists M, ed_ell2_new (ed_e0 m) z (Some (R25519 m)) = Ret M /\
  forall u v, valid p u -> valid p v ->
  ((exists A, sent p (ed_ell2_map M) (EPoints.epoint (ed_e0 m)) A u /\ sent p (ed_ell2_map M) (EPoints.epoint (ed_e0 m)) A v)
   <-> v = u \/ neg u = Ret v).
Proof.
  destruct EdEllProps.c51_edwards25519 as (m & X & H). destruct RatProps.c43_shipped as (m' & X' & X0 & X1 & W). rewrite X in X'. injection X' as <-.
  exists m. split; [exact X|]. split; [exact X0|]. intros z p Vz Nz.
  destruct c63_curve25519 as (e & Xe & He). rewrite X1 in Xe. injection Xe as <-.
  assert (Ep : modulus (MCurve.c_f (ed_e1 m)) = p) by (destruct W as (_ & _ & Ep & _); exact Ep).
  rewrite Ep in He. destruct (He z Vz Nz) as (m1 & Em1 & Hm1).

  assert (b1 : val (MCurve.c_b (ed_e1 m)) = 1) by (destruct W as (_ & (_ & _ & _ & _ & _ & b1 & _) & _); exact b1).
  assert (B : (modulus (MCurve.c_f (ed_e1 m)) | val (MCurve.c_b (ed_e1 m)) * val (MCurve.c_b (ed_e1 m)) - 1)) by (rewrite b1; exists 0; reflexivity).
  assert (F : mfield (ed_e1 m)) by (destruct InstProps.c48_CURVE25519 as (e' & X' & _ & _ & _ & _ & _ & _ & _ & _ & W' & _); rewrite X1 in X'; injection X' as <-; exact (HashProps.mfield_of _ W')).
  assert (K : forall u x y, valid p u -> ell2_image (ed_e1 m) (val z) (val u) x y ->
            sent p (ell2_map m1) (MPoints.mpoint (ed_e1 m)) (Affine x y) u
            /\ forall A, sent p (ell2_map m1) (MPoints.mpoint (ed_e1 m)) A u -> A = Affine x y).
  { intros u x y Vu I. rewrite <- Ep in Vu, Vz. destruct (proj1 (MapsProps.c42_map (ed_e1 m) z u m1 F Vz Vu B Em1) x y I) as (P & EP & HP).
    rewrite Ep in Vu. split; [split; [exact Vu|exists P; split; [exact EP|apply HP, I]]|].
    intros A (_ & P' & EP' & HP'). rewrite EP in EP'. injection EP' as <-. apply (proj1 (MontProps.c32_mont_representation (ed_e1 m) (proj1 (proj2 W))) P); [exact HP'|apply HP, I]. }
  destruct (H z z Vz Vz Nz) as (M & _ & _ & EM & _). exists M. split; [exact EM|]. intros u v Vu Vv. rewrite <- (Hm1 u v Vu Vv).
  destruct (H z u Vz Vu Nz) as (M1 & P & E & EM1 & EP & HE & (x & y & I & BE) & _). rewrite EM in EM1. injection EM1 as <-.
  destruct (H z v Vz Vv Nz) as (M2 & P' & E' & EM2 & EP' & HE' & (x' & y' & I' & BE') & _). rewrite EM in EM2. injection EM2 as <-.
  destruct (K u x y Vu I) as [S U], (K v x' y' Vv I') as [S' U'].
  assert (OE : EPoints.eon (ed_e0 m) E) by (destruct (proj2 (HE E) eq_refl) as (_ & _ & _ & _ & _ & _ & O); exact O).
  assert (OE' : EPoints.eon (ed_e0 m) E') by (destruct (proj2 (HE' E') eq_refl) as (_ & _ & _ & _ & _ & _ & O); exact O).
  split.
  - intros (A & (_ & Q & EQ & HQ) & (_ & Q' & EQ' & HQ')). rewrite EP in EQ. rewrite EP' in EQ'. injection EQ as <-. injection EQ' as <-.
    apply HE in HQ. apply HE' in HQ'. subst A. subst E'. destruct (proj1 (RatProps.c43_bijection m W) E OE) as (M0 & _ & U0).
    apply U0 in BE, BE'. exists M0. rewrite <- BE at 1. rewrite <- BE'. split; assumption.
  - intros (A & SA & SA'). apply U in SA. apply U' in SA'. subst A. rewrite <- SA' in BE'.
    destruct (proj2 (RatProps.c43_bijection m W) (Affine x y)) as (E0 & _ & U0); [destruct S as (_ & Q & _ & _ & _ & _ & _ & _ & O); exact O|].
    apply U0 in BE, BE'; try assumption. exists E0. rewrite <- BE at 1. rewrite <- BE'. split; (split; [assumption|]); eexists; (split; [eassumption|]).
    + apply HE. reflexivity.
    + apply HE'. reflexivity.
Qed.

(** *** simplified SWU followed by an isogeny *)
Lemma ab0_sent m i z s : isog m i -> respects m i -> sqrt_modulus (modulus (WCurve.c_f (iso_e0 m))) -> valid (modulus (WCurve.c_f (iso_e0 m))) z ->
  sswuab0_new (iso_e1 m) z m = Ret s ->
  exists m0, sswu_new (iso_e0 m) z = Ret m0 /\ forall u A,
  (sent (modulus (WCurve.c_f (iso_e0 m))) (sswuab0_map s) (WPoints.wpoint (iso_e1 m)) A u <->
   exists x y, sent (modulus (WCurve.c_f (iso_e0 m))) (sswu_map m0) (WPoints.wpoint (iso_e0 m)) (Affine x y) u /\ maps m i (Affine x y) A /\ A <> Infinity).
Proof.
  intros IS RS SQ Vz E. pose proof (IsogProps.isog_wfield m i IS SQ) as F. pose proof IS as (W0 & W1 & _).
  assert (X : exists m0, sswu_new (iso_e0 m) z = Ret m0).
  { unfold sswuab0_new in E. destruct (negb _); [discriminate|]. destruct (sswu_new (iso_e0 m) z) as [m0|]; [eauto|discriminate]. }
  destruct X as (m0 & E0). exists m0. split; [exact E0|]. intros u A.
  assert (C : valid (modulus (WCurve.c_f (iso_e0 m))) u \/ ~ valid (modulus (WCurve.c_f (iso_e0 m))) u).
  { unfold valid. destruct u as [v [q]]. cbn. destruct (Z.eq_dec q (modulus (WCurve.c_f (iso_e0 m)))); [|right; intros [Q _]; congruence].
    destruct (Z_le_dec 0 v); [|right; intros [_ Q]; lia]. destruct (Z_lt_dec v (modulus (WCurve.c_f (iso_e0 m)))); [left|right; intros [_ Q]; lia].
    subst q. split; [reflexivity|lia]. }
  destruct C as [Vu|NV]; [|split; [intros [Q _]; contradiction|intros (? & ? & [Q _] & _); contradiction]].
  destruct (IsogProps.c47_map m i (iso_e1 m) z s u IS SQ Vz Vu E) as (x & y & HS & O & H1 & H2).
  destruct (MapsProps.c40_map (iso_e0 m) z u m0 F Vz Vu E0) as (P & EP & HP).
  assert (S : sent (modulus (WCurve.c_f (iso_e0 m))) (sswu_map m0) (WPoints.wpoint (iso_e0 m)) (Affine x y) u) by (split; [exact Vu|exists P; split; [exact EP|apply HP, HS]]).
  destruct RS as (RT & _). destruct (RT _ O) as (A' & _ & _ & U). split.
  - intros (_ & Q & EQ & HQ). destruct (Zdivide_dec (modulus (WCurve.c_f (iso_e0 m))) (peval (i_xd i) x)) as [D|N]; [rewrite (H2 D) in EQ; discriminate|].
    destruct (H1 N) as (Q' & X & Y & EQ' & HQ' & I). rewrite EQ in EQ'. injection EQ' as <-.
    pose proof (proj1 (WeierProps.c32_representation _ W1) Q _ _ HQ HQ') as ->. exists x, y. split; [exact S|]. split; [exact I|discriminate].
  - intros (x' & y' & (_ & P' & EP' & HP') & M & NA). rewrite EP in EP'. injection EP' as <-.
    pose proof (proj1 (WeierProps.c32_representation _ W0) P _ _ HP' (proj2 (HP x y) HS)) as Q. injection Q as -> ->.
    destruct (Zdivide_dec (modulus (WCurve.c_f (iso_e0 m))) (peval (i_xd i) x)) as [D|N].
    + destruct NA. rewrite (U A M). symmetry. apply U. exact D.
    + destruct (H1 N) as (Q & X & Y & EQ & HQ & I). split; [exact Vu|]. exists Q. split; [exact EQ|]. replace A with (Affine X Y); [exact HQ|].
      rewrite (U A M). apply U. exact I.
Qed.

(** elements counted through an intermediate point *)
Lemma at_most_through {T : Type} (k n : nat) (P : T -> Prop) (R : T -> apoint -> Prop) (Q : apoint -> Prop) :
  (forall u, P u -> exists B, R u B /\ Q B) -> at_most k Q -> (forall B, at_most n (fun u => R u B)) -> at_most (n * k) P.
Proof.
  intros H HQ HR l N A.
  destruct (image_rel apoint_dec (fun u B => R u B /\ Q B) n l N) as (im & Nim & Him & L).
  - intros u I. apply H, A, I.
  - intro B. apply (at_most_weak n n _ (fun u => R u B) (le_n n)); [intros u (_ & Hu & _); exact Hu|apply HR].
  - assert (K : (List.length im <= k)%nat) by (apply HQ; [exact Nim|intros B HB; destruct (Him B HB) as (u & _ & _ & Q'); exact Q']).
    apply (Nat.le_trans _ _ _ L), Nat.mul_le_mono_l, K.
Qed.
Lemma at_least_through (k n : nat) (P Q R : apoint -> Prop) (f : apoint -> apoint -> Prop) :
  at_least n P -> at_most 10 Q -> (forall A, P A -> Q A \/ exists B, f A B /\ R B) -> (forall B, at_most k (fun A => P A /\ f A B)) ->
  exists l, NoDup l /\ (forall B, In B l -> R B) /\ (n <= k * List.length l + 10)%nat.
Proof.
  intros (l & N & HP & L) HQ H F. destruct (split_list Q (fun A => exists B, f A B /\ R B) l N (fun A I => H A (HP A I))) as (l1 & l2 & N1 & N2 & A1 & A2 & E & _ & I2).
  pose proof (HQ l1 N1 A1) as L1.
  destruct (image_rel apoint_dec (fun A B => f A B /\ R B) k l2 N2) as (im & Nim & Him & L2).
  - exact A2.
  - intro B. apply (at_most_weak k k _ _ (le_n k) (fun A X => conj (HP A (I2 A (proj1 X))) (proj1 (proj2 X))) (F B)).
  - exists im. split; [exact Nim|]. split; [intros B HB; destruct (Him B HB) as (A & _ & _ & HR); exact HR|]. lia.
Qed.

Lemma sswu_affine e z m u : WPoints.weier e -> wfield e -> valid (modulus (WCurve.c_f e)) z -> sswu_new e z = Ret m ->
  ~ sent (modulus (WCurve.c_f e)) (sswu_map m) (WPoints.wpoint e) Infinity u.
Proof.
  intros W F Vz E (Vu & P & EP & HP). destruct (MapsProps.c40_on_curve e z u m F Vz Vu E) as (P' & x & y & EP' & HP' & _).
  rewrite EP in EP'. injection EP' as <-. pose proof (proj1 (WeierProps.c32_representation _ W) P _ _ HP HP') as Q. discriminate Q.
Qed.
(** the 3-isogeny onto secp256k1 is injective, and the counts are those of simplified SWU *)
Lemma c63_secp256k1 : forall m z s, get_isogeny_secp256k1 = Ret m -> valid (modulus (WCurve.c_f (iso_e0 m))) z -> sswuab0_new (iso_e1 m) z m = Ret s ->
  let p := modulus (WCurve.c_f (iso_e0 m)) in
  SECP256K1 = Ret (iso_e1 m)
  /\ (forall A, at_most 7 (sent p (sswuab0_map s) (WPoints.wpoint (iso_e1 m)) A))
  /\ (forall A, at_most 4 (fun u => sent p (sswuab0_map s) (WPoints.wpoint (iso_e1 m)) A u /\ ~ degenerate p (val z) (val u)))
  /\ at_least (Z.to_nat (p / 4)) (fun A => exists u, sent p (sswuab0_map s) (WPoints.wpoint (iso_e1 m)) A u).
Proof.
  intros m z s Em Vz E p. destruct IsogProps.c45_shipped as (m' & Em' & _ & E1 & IS). rewrite Em in Em'. injection Em' as <-. split; [exact E1|].
  pose proof (IsogProps.secp_sqrt m Em) as SQ. pose proof (secp_respects m Em) as RS. pose proof (IsogProps.isog_wfield m _ IS SQ) as F.
  destruct (ab0_sent m _ z s IS RS SQ Vz E) as (m0 & E0 & S). fold p in S.
  assert (O : forall x y u, sent p (sswu_map m0) (WPoints.wpoint (iso_e0 m)) (Affine x y) u -> WPoints.won (iso_e0 m) (Affine x y)).
  { intros x y u (_ & P & _ & _ & _ & _ & _ & _ & OO). exact OO. }
  assert (ONE : forall A, at_most 1 (fun B => maps m iso3_secp256k1 B A /\ WPoints.won (iso_e0 m) B)).
  { intros A [|B [|B' l]] N H; cbn; [lia..|]. exfalso. inversion N as [|? ? NI _]; subst. apply NI. left. symmetry.
    destruct (H B (or_introl eq_refl)) as [M1 O1], (H B' (or_intror (or_introl eq_refl))) as [M2 O2]. exact (c45_injective m B B' A Em O1 O2 M1 M2). }
  split; [|split].
  - intro A. apply (at_most_through 1 7 _ (fun u B => exists x y, B = Affine x y /\ sent p (sswu_map m0) (WPoints.wpoint (iso_e0 m)) B u) _) with (2 := ONE A).
    + intros u H. apply S in H. destruct H as (x & y & H & M & _). exists (Affine x y). split; [exists x, y; auto|]. split; [exact M|exact (O x y u H)].
    + intros [|x y]; [apply (at_most_weak 0 7 _ _ (Nat.le_0_l 7) (fun v H => H)), at_most_none; intros u (x & y & D & _); discriminate D|].
      apply (at_most_weak 7 7 _ _ (le_n 7)) with (2 := proj1 (c63_sswu_all (iso_e0 m) z m0 x y F Vz E0)). intros u (x' & y' & _ & H). exact H.
  - intro A. apply (at_most_through 1 4 _ (fun u B => exists x y, B = Affine x y /\ sent p (sswu_map m0) (WPoints.wpoint (iso_e0 m)) B u /\ ~ degenerate p (val z) (val u)) _) with (2 := ONE A).
    + intros u (H & N). apply S in H. destruct H as (x & y & H & M & _). exists (Affine x y). split; [exists x, y; auto|]. split; [exact M|exact (O x y u H)].
    + intros [|x y]; [apply (at_most_weak 0 4 _ _ (Nat.le_0_l 4) (fun v H => H)), at_most_none; intros u (x & y & D & _); discriminate D|].
      apply (at_most_weak 4 4 _ _ (le_n 4)) with (2 := c63_sswu (iso_e0 m) z m0 x y F Vz E0). intros u (x' & y' & _ & H). exact H.
  - destruct (c63_sswu_image (iso_e0 m) z m0 F Vz E0) as (l & N & H & L). fold p in H, L.
    assert (H' : forall B, In B l -> exists A, maps m iso3_secp256k1 B A /\ exists u, sent p (sswuab0_map s) (WPoints.wpoint (iso_e1 m)) A u).
    { intros B I. destruct (H B I) as (u & Hu).
      destruct B as [|x y].
      - destruct (sswu_affine (iso_e0 m) z m0 u (proj1 IS) F Vz E0 Hu).
      - destruct (c45_map m (Affine x y) Em (O x y u Hu)) as (A & M & _ & _ & Z). exists A. split; [exact M|]. exists u. apply S. exists x, y.
        split; [exact Hu|]. split; [exact M|]. intro Q. apply Z in Q. discriminate Q. }
    assert (OB : forall B, In B l -> WPoints.won (iso_e0 m) B) by (intros B I; destruct (H B I) as (u & _ & P & _ & _ & _ & _ & _ & _ & OO); exact OO).
    destruct (image_rel apoint_dec (fun B A => maps m iso3_secp256k1 B A /\ exists u, sent p (sswuab0_map s) (WPoints.wpoint (iso_e1 m)) A u) 1 l N H') as (im & Nim & Him & Lim).
    + intro A. apply (at_most_weak 1 1 _ _ (le_n 1) (fun B X => conj (proj1 (proj2 X)) (OB B (proj1 X))) (ONE A)).
    + exists im. split; [exact Nim|]. split; [intros A HA; destruct (Him A HA) as (B & _ & _ & HH); exact HH|]. lia.
Qed.

(** the 11-isogeny onto BLS12-381 G1 sends at most eleven points to one *)
Lemma bls_kernel_size m : get_isogeny_bls12381g1 = Ret m ->
  at_most 10 (fun D => WPoints.won (iso_e0 m) D /\ exists x y, D = Affine x y /\ In x kernel11).
Proof.
  intro Em. destruct IsogProps.c46_shipped as (m' & Em' & _ & _ & IS). rewrite Em in Em'. injection Em' as <-.
  pose proof IS as ((Hp & Hp2 & _) & _). set (p := modulus (WCurve.c_f (iso_e0 m))) in *.
  intros l N H.
  destruct (image_rel Z.eq_dec (fun D x => In x kernel11 /\ exists y, D = Affine x y /\ WPoints.won (iso_e0 m) D) 2 l N) as (im & Nim & Him & L).
  - intros D I. destruct (H D I) as (O & x & y & E & K). exists x. split; [exact K|]. exists y. auto.
  - intro x. apply (at_most_weak 2 2 _ (fun D => exists y, D = Affine x y /\ WPoints.won (iso_e0 m) (Affine x y)) (le_n 2)).
    { intros D (_ & _ & y & E & O). exists y. subst D. split; [reflexivity|exact O]. }
    intros [|D0 l0] N0 H0; [cbn; lia|]. destruct (H0 D0 (or_introl eq_refl)) as (y0 & -> & (_ & C0 & O0)). fold p in C0, O0.
    refine (at_most_weak 2 2 (fun D => exists y, D = Affine x y /\ WPoints.won (iso_e0 m) (Affine x y)) _ (le_n 2) _ (at_most_or 1 1 _ _ (at_most_one (Affine x y0)) (at_most_one (Affine x (p - y0)))) _ N0 H0).
    intros D (y & -> & (_ & C & O)). fold p in C, O. pose proof (Z.divide_sub_r _ _ _ O O0) as D2.
    match type of D2 with (_ | ?t) => replace t with ((y - y0) * (y + y0)) in D2 by ring end.
    unfold coord in C, C0. destruct (prime_mult p Hp _ _ D2) as [[q Eq]|[q Eq]].
    + left. f_equal. assert (q = 0) by nia. lia.
    + assert (q = 0 \/ q = 1) as [-> | ->] by nia; [left|right]; f_equal; lia.
  - assert (L5 : (List.length im <= 5)%nat); [|lia].
    change 5%nat with (List.length kernel11). apply NoDup_incl_length; [exact Nim|]. intros x I. destruct (Him x I) as (D & _ & K & _). exact K.
Qed.
Lemma bls_fibre m A : get_isogeny_bls12381g1 = Ret m ->
  at_most 11 (fun B => maps m iso11_bls12381g1 B A /\ WPoints.won (iso_e0 m) B).
Proof.
  intros Em l N H. destruct l as [|B0 l0]; [cbn; lia|]. destruct (H B0 (or_introl eq_refl)) as [M0 O0].
  destruct IsogProps.c46_shipped as (m' & Em' & _ & _ & IS). rewrite Em in Em'. injection Em' as <-.
  set (ker := fun D => D = Infinity \/ (WPoints.won (iso_e0 m) D /\ exists x y, D = Affine x y /\ In x kernel11)).
  assert (K : at_most 11 ker) by (refine (at_most_or 1 10 _ _ (at_most_one Infinity) (bls_kernel_size m Em))).
  change 11%nat with (1 * 11)%nat.
  refine (at_most_through 11 1 (fun B => maps m iso11_bls12381g1 B A /\ WPoints.won (iso_e0 m) B)
    (fun B D => WPoints.won (iso_e0 m) B /\ WPoints.wsum (iso_e0 m) B (negative (modulus (WCurve.c_f (iso_e0 m))) B0) D) ker _ K _ _ N H).
  - intros B (M & O). destruct (proj1 (c46_fibres m B B0 A A Em O O0 M M0) eq_refl) as (D & S & HD).
    destruct (sum_exists m _ B B0 IS O O0) as (D' & S' & OD' & _).
    assert (E : D = D').
    { destruct (open2 m _ IS) as (p & Hp & Hp2 & a & b & b' & Ep & _ & _ & _ & NR & _ & WO & _ & WS & _). clear K N H ker.
      rewrite Ep in S, S'. apply WO in O, O0. destruct O as (B1 & -> & O), O0 as (B2 & -> & O0). rewrite <- (neg_ap p Hp) in S, S'.
      apply WS in S, S'; try apply on_popp; try assumption. congruence. }
    subst D'. exists D. split; [split; [exact O|exact S]|]. destruct HD as [HD|HD]; [left; exact HD|right; split; [exact OD'|exact HD]].
  - intros D [|B [|B' l]] N1 H1; cbn; [lia..|]. exfalso. inversion N1 as [|? ? NI _]; subst. apply NI. left.
    destruct (H1 B (or_introl eq_refl)) as [O1 S1], (H1 B' (or_intror (or_introl eq_refl))) as [O2 S2]. clear K N H ker NI N1 H1 M0.
    destruct (open2 m _ IS) as (p & Hp & Hp2 & a & b & b' & Ep & _ & _ & _ & NR & _ & WO & _ & WS & _).
    rewrite Ep in S1, S2. apply WO in O1, O2, O0. destruct O1 as (B1 & -> & O1), O2 as (B2 & -> & O2), O0 as (B3 & -> & O0). rewrite <- (neg_ap p Hp) in S1, S2.
    apply WS in S1; [|exact O1|apply on_popp, O0]. apply WS in S2; [|exact O2|apply on_popp, O0]. rewrite S1 in S2. apply ap_inj in S2. f_equal. symmetry.
    refine (padd_cancel_r _ F0 a b _ _ _ _ (popp _ B3) _ _ _ _); [exact (two_K p Hp Hp2)|intros x Q; destruct (NR x Q)|exact O1|exact O2|apply on_popp, O0|exact S2].
Qed.

(** the counts of simplified SWU, times the eleven points of a fibre of the isogeny *)
Lemma c63_bls12381g1 : forall m z s, get_isogeny_bls12381g1 = Ret m -> valid (modulus (WCurve.c_f (iso_e0 m))) z -> sswuab0_new (iso_e1 m) z m = Ret s ->
  let p := modulus (WCurve.c_f (iso_e0 m)) in
  BLS12381G1 = Ret (iso_e1 m)
  /\ (forall A, at_most 77 (sent p (sswuab0_map s) (WPoints.wpoint (iso_e1 m)) A))
  /\ (forall A, at_most 44 (fun u => sent p (sswuab0_map s) (WPoints.wpoint (iso_e1 m)) A u /\ ~ degenerate p (val z) (val u)))
  /\ at_least (Z.to_nat ((p / 4 - 10) / 11)) (fun A => exists u, sent p (sswuab0_map s) (WPoints.wpoint (iso_e1 m)) A u).
Proof.
  intros m z s Em Vz E p. destruct IsogProps.c46_shipped as (m' & Em' & _ & E1 & IS). rewrite Em in Em'. injection Em' as <-. split; [exact E1|].
  pose proof (IsogProps.bls_sqrt m Em) as SQ. pose proof (bls_respects m Em) as RS. pose proof (IsogProps.isog_wfield m _ IS SQ) as F.
  destruct (ab0_sent m _ z s IS RS SQ Vz E) as (m0 & E0 & S). fold p in S.
  assert (O : forall x y u, sent p (sswu_map m0) (WPoints.wpoint (iso_e0 m)) (Affine x y) u -> WPoints.won (iso_e0 m) (Affine x y)).
  { intros x y u (_ & P & _ & _ & _ & _ & _ & _ & OO). exact OO. }
  pose proof (fun A => bls_fibre m A Em) as ELEVEN.
  split; [|split].
  - intro A. apply (at_most_through 11 7 _ (fun u B => exists x y, B = Affine x y /\ sent p (sswu_map m0) (WPoints.wpoint (iso_e0 m)) B u) _) with (2 := ELEVEN A).
    + intros u H. apply S in H. destruct H as (x & y & H & M & _). exists (Affine x y). split; [exists x, y; auto|]. split; [exact M|exact (O x y u H)].
    + intros [|x y]; [apply (at_most_weak 0 7 _ _ (Nat.le_0_l 7) (fun v H => H)), at_most_none; intros u (x & y & D & _); discriminate D|].
      apply (at_most_weak 7 7 _ _ (le_n 7)) with (2 := proj1 (c63_sswu_all (iso_e0 m) z m0 x y F Vz E0)). intros u (x' & y' & _ & H). exact H.
  - intro A. apply (at_most_through 11 4 _ (fun u B => exists x y, B = Affine x y /\ sent p (sswu_map m0) (WPoints.wpoint (iso_e0 m)) B u /\ ~ degenerate p (val z) (val u)) _) with (2 := ELEVEN A).
    + intros u (H & N). apply S in H. destruct H as (x & y & H & M & _). exists (Affine x y). split; [exists x, y; auto|]. split; [exact M|exact (O x y u H)].
    + intros [|x y]; [apply (at_most_weak 0 4 _ _ (Nat.le_0_l 4) (fun v H => H)), at_most_none; intros u (x & y & D & _); discriminate D|].
      apply (at_most_weak 4 4 _ _ (le_n 4)) with (2 := c63_sswu (iso_e0 m) z m0 x y F Vz E0). intros u (x' & y' & _ & H). exact H.
  - destruct (at_least_through 11 _ _ (fun D => WPoints.won (iso_e0 m) D /\ exists x y, D = Affine x y /\ In x kernel11)
      (fun A => exists u, sent p (sswuab0_map s) (WPoints.wpoint (iso_e1 m)) A u) (maps m iso11_bls12381g1) (c63_sswu_image (iso_e0 m) z m0 F Vz E0) (bls_kernel_size m Em)) as (l & N & H & L).
    + intros B (u & Hu). fold p in Hu. destruct B as [|x y]; [destruct (sswu_affine (iso_e0 m) z m0 u (proj1 IS) F Vz E0 Hu)|].
      destruct (c46_map m (Affine x y) Em (O x y u Hu)) as (A & M & _ & _ & Z).
      destruct (in_dec Z.eq_dec x kernel11) as [K|K]; [left; split; [exact (O x y u Hu)|exists x, y; auto]|right].
      exists A. split; [exact M|]. exists u. apply S. exists x, y. split; [exact Hu|]. split; [exact M|].
      intro Q. apply Z in Q. destruct Q as [Q|(x' & y' & Q & K')]; [discriminate Q|]. injection Q as <- <-. contradiction.
    + intro A. apply (at_most_weak 11 11 _ _ (le_n 11)) with (2 := ELEVEN A). intros B ((u & (_ & P & _ & _ & _ & _ & _ & _ & OO)) & M). split; [exact M|exact OO].
    + exists l. split; [exact N|]. split; [exact H|]. fold p in L.
      assert (P4 : 0 <= p / 4) by (apply Z.div_pos; [pose proof IS as ((_ & Hp2 & _) & _); fold p in Hp2; lia|lia]).
      pose proof (Z.div_mod (p / 4 - 10) 11 ltac:(lia)). pose proof (Z.mod_pos_bound (p / 4 - 10) 11 ltac:(lia)). lia.
Qed.

(** z = 2 on the two curves over 2^255 - 19, and the parameters of RFC 9380 for the isogenies, meet the hypotheses *)
Example c63_shipped_ex : (exists e z m, CURVE25519 = Ret e /\ valid (modulus (MCurve.c_f e)) z /\ ~ square_mod (modulus (MCurve.c_f e)) (val z) /\ ell2_new e z = Ret m)
  /\ (exists m s, get_isogeny_secp256k1 = Ret m /\ sswuab0_new (iso_e1 m) (mkFpElt (Cert_Isog.p_secp - 11) (WCurve.c_f (iso_e0 m))) m = Ret s)
  /\ (exists m s, get_isogeny_bls12381g1 = Ret m /\ sswuab0_new (iso_e1 m) (mkFpElt 11 (WCurve.c_f (iso_e0 m))) m = Ret s).
Proof.
  destruct HashProps.c58_ex as (_ & _ & (m & s & Em & Es & _) & BLS).
  split; [|split; [exists m, s; split; [exact Em|exact Es]|exact BLS]].
  destruct InstProps.c48_CURVE25519 as (e & HX & p0 & a0 & b0 & _ & _ & _ & Hp & _ & W & _).
  exists e, (mkFpElt 2 (MCurve.c_f e)). pose proof (HashProps.mfield_of e W) as F.
  assert (V : valid (modulus (MCurve.c_f e)) (mkFpElt 2 (MCurve.c_f e))).
  { split; [destruct (MCurve.c_f e); reflexivity|]. cbn [val]. destruct F as (_ & F & _). lia. }
  destruct (proj1 (MapsProps.c42_new e _ F V)) as (m' & Em'); [rewrite a0; vm_compute; discriminate|rewrite b0; discriminate|].
  exists m'. split; [exact HX|]. split; [exact V|]. split; [|exact Em'].
  rewrite p0. apply (EdEllProps.nonsq_at _ Prime_p25519.prime_p25519 _ 8). exact Cert_Ell.nonsq_Z25519.
Qed.
