(** C73: hashing from two field elements: both are mapped to the curve, the images added, the sum multiplied by the cofactor. *)
From Coq Require Import ZArith Znumtheory Lia String Ascii Bool List.
From Verif.Math Require Import Fld Zp Residue.
From Verif.Spec Require Import Arith Curve Isogeny Elements.
From Verif.Spec Require Instances Maps Morphisms.
From Verif.Model Require Import Out BigInt PrimeField Scalar RationalMaps CurveExtras.
From Verif.Model Require Instances Maps.
From Verif.Model Require WCurve MCurve ECurve.
From Verif.Proofs Require Import FieldP FieldProps CurveP.
From Verif.Proofs Require WeierProps MontProps EdwProps MapsProps InstProps IsogProps RatProps Rat4Props EdEllProps OrderRun OrderProps ScLawProps LawProps HashProps.
From Verif.Spec Require Export Shipped TwoMaps.
Import Spec.Instances Model.Instances Model.Maps.
Import ListNotations.
Open Scope Z_scope.

Lemma w_two X s e M N : w_shipped X s -> w_cleared X s -> 0 < w_h s < w_r s -> X = Ret e -> w_lands e M -> w_lands e N -> w_both_land e M N.
Proof.
  intros (e' & HX & _ & _ & _ & Er & Eh & _ & _ & (W & _ & _ & L & _) & _) HC Hh HX' (P & _ & _ & -> & (A & HP) & _) (Q & _ & _ & -> & (B & HQ) & _).
  rewrite HX in HX'. injection HX' as <-. unfold w_both_land. cbn [bind].
  destruct (WeierProps.c24_addition e' P Q A B W HP HQ) as (S & ES & HS).
  destruct (LawProps.c24_law_is_total e' A B W) as (C & _ & HC'); [apply HP|apply HQ|]. specialize (HC' C). apply proj2 in HC'. specialize (HC' eq_refl).
  split; [rewrite ES; exact (HashProps.w_land X s e' S C HC HX (proj2 (HS C) HC'))|].
  split; [exact (WeierProps.c25_commutative e' P Q A B W HP HQ)|]. intro oc.
  assert (Ek : WCurve.new_scalar e' (w_get_cofactor e') = Ret (mkScalar (w_h s) (w_r s))).
  { unfold WCurve.new_scalar, w_get_cofactor. rewrite Eh, Er. apply OrderRun.small_scalar, Hh. }
  rewrite Ek. cbn [bind].
  apply (ScLawProps.c56_distributes e' oc oc P Q A B (mkScalar (w_h s) (w_r s)) W L HP HQ); [split; [symmetry; exact Er|cbn [sk]; lia]|cbn [sk]; lia].
Qed.
Lemma m_two X s e M N : m_shipped X s -> m_cleared X s -> 0 < m_h s < m_r s -> X = Ret e -> m_lands e M -> m_lands e N -> m_both_land e M N.
Proof.
  intros (e' & HX & _ & _ & _ & _ & Er & Eh & _ & _ & (W & _ & _ & L & _) & _) HC Hh HX' (P & _ & _ & -> & (A & HP) & _) (Q & _ & _ & -> & (B & HQ) & _).
  rewrite HX in HX'. injection HX' as <-. unfold m_both_land. cbn [bind].
  destruct (MontProps.c33_addition e' P Q A B W HP HQ) as (S & ES & HS).
  destruct (LawProps.c33_law_is_total e' A B W) as (C & _ & HC'); [apply HP|apply HQ|]. specialize (HC' C). apply proj2 in HC'. specialize (HC' eq_refl).
  split; [rewrite ES; exact (HashProps.m_land X s e' S C HC HX (proj2 (HS C) HC'))|].
  split; [exact (MontProps.c34_commutative e' P Q A B W HP HQ)|]. intro oc.
  assert (Ek : MCurve.new_scalar e' (m_get_cofactor e') = Ret (mkScalar (m_h s) (m_r s))).
  { unfold MCurve.new_scalar, m_get_cofactor. rewrite Eh, Er. apply OrderRun.small_scalar, Hh. }
  rewrite Ek. cbn [bind].
  apply (ScLawProps.c56_mont_distributes e' oc oc P Q A B (mkScalar (m_h s) (m_r s)) W L HP HQ); [split; [symmetry; exact Er|cbn [sk]; lia]|cbn [sk]; lia].
Qed.
Lemma e_two X s e M N : e_shipped X s -> e_cleared X s -> 0 < e_h s < e_r s -> X = Ret e -> e_lands e M -> e_lands e N -> e_both_land e M N.
Proof.
  intros (e' & HX & _ & _ & _ & Er & Eh & _ & _ & (W & _ & _ & L & _) & _) HC Hh HX' (P & _ & _ & -> & (A & HP) & _) (Q & _ & _ & -> & (B & HQ) & _).
  rewrite HX in HX'. injection HX' as <-. unfold e_both_land. cbn [bind].
  destruct (EdwProps.c36_addition e' P Q A B W HP HQ) as (S & ES & HS).
  destruct (EdwProps.c36_law_is_total e' A B W) as (C & _ & HC'); [apply HP|apply HQ|]. specialize (HC' C). apply proj2 in HC'. specialize (HC' eq_refl).
  split; [rewrite ES; exact (HashProps.e_land X s e' S C HC HX (proj2 (HS C) HC'))|].
  split; [exact (EdwProps.c37_commutative e' P Q A B W HP HQ)|]. intro oc.
  assert (Ek : ECurve.new_scalar e' (e_get_cofactor e') = Ret (mkScalar (e_h s) (e_r s))).
  { unfold ECurve.new_scalar, e_get_cofactor. rewrite Eh, Er. apply OrderRun.small_scalar, Hh. }
  rewrite Ek. cbn [bind].
  apply (ScLawProps.c56_edw_distributes e' oc oc P Q A B (mkScalar (e_h s) (e_r s)) W L HP HQ); [split; [symmetry; exact Er|cbn [sk]; lia]|cbn [sk]; lia].
Qed.

Ltac small := split; vm_compute; reflexivity.
Lemma w_pairs_of X s : w_shipped X s -> w_cleared X s -> 0 < w_h s < w_r s -> w_hashes_pairs X.
Proof.
  intros HS HC Hh. destruct (HashProps.hashes_of X s HS HC) as (e & HX & H). exists e. split; [exact HX|]. intros z u v p Vz Vu Vv.
  destruct (H z u Vz Vu) as [U1 U2], (H z v Vz Vv) as [V1 V2]. split; intros m Em.
  - exact (w_two X s e _ _ HS HC Hh HX (U1 m Em) (V1 m Em)).
  - exact (w_two X s e _ _ HS HC Hh HX (U2 m Em) (V2 m Em)).
Qed.
(** SSWU and SVDW on the curves whose cofactor clears *)
Lemma c73_weierstrass : Forall w_hashes_pairs [P256; P384; P521; SECP256K1; SECP256K1_3ISO; BLS12381G1].
Proof.
  constructor; [exact (w_pairs_of _ _ InstProps.c48_P256 (proj2 OrderProps.c55_P256) ltac:(small))|].
  constructor; [exact (w_pairs_of _ _ InstProps.c48_P384 (proj2 OrderProps.c55_P384) ltac:(small))|].
  constructor; [exact (w_pairs_of _ _ InstProps.c48_P521 (proj2 OrderProps.c55_P521) ltac:(small))|].
  constructor; [exact (w_pairs_of _ _ InstProps.c48_SECP256K1 (proj2 OrderProps.c55_SECP256K1) ltac:(small))|].
  constructor; [exact (w_pairs_of _ _ InstProps.c48_SECP256K1_3ISO (proj2 OrderProps.c55_SECP256K1_3ISO) ltac:(small))|].
  constructor; [exact (w_pairs_of _ _ InstProps.c48_BLS12381G1 (proj2 OrderProps.c55_BLS12381G1) ltac:(small))|]. constructor.
Qed.
(** SSWU through the 3-isogeny, onto secp256k1 *)
Lemma c73_secp256k1 : forall m z s u v, get_isogeny_secp256k1 = Ret m -> let p := modulus (WCurve.c_f (iso_e0 m)) in
  valid p z -> valid p u -> valid p v -> sswuab0_new (iso_e1 m) z m = Ret s ->
  SECP256K1 = Ret (iso_e1 m) /\ w_both_land (iso_e1 m) (sswuab0_map s u) (sswuab0_map s v).
Proof.
  intros m z s u v Em p Vz Vu Vv Es. destruct (HashProps.c58_secp256k1 m z s u Em Vz Vu Es) as [E1 U], (HashProps.c58_secp256k1 m z s v Em Vz Vv Es) as [_ V].
  split; [exact E1|]. exact (w_two _ _ _ _ _ InstProps.c48_SECP256K1 (proj2 OrderProps.c55_SECP256K1) ltac:(small) E1 U V).
Qed.
(** SSWU through the 11-isogeny, onto BLS12-381 G1: exactly when neither SSWU point is in the kernel; otherwise the map panics *)
Lemma c73_bls12381g1 : forall m z s u v, get_isogeny_bls12381g1 = Ret m -> let p := modulus (WCurve.c_f (iso_e0 m)) in
  valid p z -> valid p u -> valid p v -> sswuab0_new (iso_e1 m) z m = Ret s ->
  BLS12381G1 = Ret (iso_e1 m)
  /\ exists x y x' y', Verif.Spec.Maps.sswu_point p (val (WCurve.c_a (iso_e0 m))) (val (WCurve.c_b (iso_e0 m))) (val z) (val u) x y
    /\ Verif.Spec.Maps.sswu_point p (val (WCurve.c_a (iso_e0 m))) (val (WCurve.c_b (iso_e0 m))) (val z) (val v) x' y'
    /\ (w_both_land (iso_e1 m) (sswuab0_map s u) (sswuab0_map s v) <-> ~ In x kernel11 /\ ~ In x' kernel11).
Proof.
  intros m z s u v Em p Vz Vu Vv Es. destruct (HashProps.c58_bls12381g1 m z s u Em Vz Vu Es) as (E1 & x & y & S & L & K).
  destruct (HashProps.c58_bls12381g1 m z s v Em Vz Vv Es) as (_ & x' & y' & S' & L' & K').
  split; [exact E1|]. exists x, y, x', y'. split; [exact S|]. split; [exact S'|]. split.
  - intros ((P & _ & _ & E & _) & _). split; intro I.
    + rewrite (K I) in E. discriminate.
    + rewrite (K' I) in E. destruct (sswuab0_map s u); discriminate.
  - intros [N N']. exact (w_two _ _ _ _ _ InstProps.c48_BLS12381G1 (proj2 OrderProps.c55_BLS12381G1) ltac:(small) E1 (proj2 L N) (proj2 L' N')).
Qed.
Lemma m_pairs_of X s : m_shipped X s -> m_cleared X s -> 0 < m_h s < m_r s -> m_a s mod m_p s <> 0 -> m_hashes_pairs X.
Proof.
  intros HS HC Hh Na. destruct (HashProps.m_hashes_of X s HS HC Na) as (e & HX & H). exists e. split; [exact HX|]. intros z u v p Vz Vu Vv Nz.
  destruct (H z u Vz Vu Nz) as (m & Em & U), (H z v Vz Vv Nz) as (m' & Em' & V). rewrite Em in Em'. injection Em' as <-.
  exists m. split; [exact Em|]. exact (m_two X s e _ _ HS HC Hh HX U V).
Qed.
Lemma c73_montgomery : Forall m_hashes_pairs [CURVE25519; CURVE448].
Proof.
  constructor; [|constructor; [|constructor]].
  - apply (m_pairs_of _ _ InstProps.c48_CURVE25519 (proj2 OrderProps.c55_CURVE25519)); [small|vm_compute; discriminate].
  - apply (m_pairs_of _ _ InstProps.c48_CURVE448 (proj2 OrderProps.c55_CURVE448)); [small|vm_compute; discriminate].
Qed.
(** Elligator 2 on edwards25519, for every pair *)
Lemma c73_edwards25519 : exists m, edwards25519_to_curve25519 = Ret m /\ EDWARDS25519 = Ret (ed_e0 m) /\
  forall z u v, let p := modulus (ECurve.c_f (ed_e0 m)) in valid p z -> valid p u -> valid p v -> ~ square_mod p (val z) ->
  exists M, ed_ell2_new (ed_e0 m) z (Some (R25519 m)) = Ret M /\ e_both_land (ed_e0 m) (ed_ell2_map M u) (ed_ell2_map M v).
Proof.
  destruct HashProps.c58_edwards25519 as (m & X & X0 & H). exists m. split; [exact X|]. split; [exact X0|]. intros z u v p Vz Vu Vv Nz.
  destruct (H z u Vz Vu Nz) as (M & EM & U), (H z v Vz Vv Nz) as (M' & EM' & V). rewrite EM in EM'. injection EM' as <-.
  exists M. split; [exact EM|]. exact (e_two _ _ _ _ _ InstProps.c48_EDWARDS25519 (proj2 OrderProps.c55_EDWARDS25519) ltac:(small) X0 U V).
Qed.

(** a sum with a summand (0, 0, 0, 0) has Z = 0, so it is no point *)
Lemma red_null x k c : red x k = Ret c -> k = 0 -> val c = 0.
Proof.
  unfold red, mod_floor. intros E ->. destruct (modulus (fld x) =? 0); cbn [bind] in E; [discriminate|]. injection E as <-. apply Zmod_0_l.
Qed.
Lemma mul_null a b c : mul a b = Ret c -> val a = 0 \/ val b = 0 -> val c = 0.
Proof.
  unfold mul. destruct (fp_eqb (fld a) (fld b)); cbn [do_if_eq]; [|discriminate]. intros E H. apply (red_null _ _ _ E).
  destruct H as [-> | ->]; ring.
Qed.
Lemma sub_null a b c : sub a b = Ret c -> val a = 0 -> val b = 0 -> val c = 0.
Proof.
  unfold sub. destruct (fp_eqb (fld a) (fld b)); cbn [do_if_eq]; [|discriminate]. intros E H1 H2. apply (red_null _ _ _ E). lia.
Qed.
Definition zeros (P : ECurve.Point) : Prop := val (ECurve.px (ECurve.pc P)) = 0 /\ val (ECurve.py (ECurve.pc P)) = 0
  /\ val (ECurve.ptt (ECurve.pc P)) = 0 /\ val (ECurve.pz (ECurve.pc P)) = 0.
Lemma add_zeros P Q R : ECurve.pt_add P Q = Ret R -> zeros P \/ zeros Q -> val (ECurve.pz (ECurve.pc R)) = 0.
Proof.
  unfold ECurve.pt_add. destruct (ECurve.curve_eqb _ _); cbn [do_if_eq]; [|discriminate]. unfold ECurve.core_add. cbv zeta. intros E Z.
  destruct (mul (ECurve.px (ECurve.pc P)) _); cbn [bind] in E; [|discriminate].
  destruct (mul (ECurve.py (ECurve.pc P)) _); cbn [bind] in E; [|discriminate].
  destruct (mul (ECurve.c_d _) _) as [c1|] eqn:C1; cbn [bind] in E; [|discriminate].
  destruct (mul c1 _) as [cc|] eqn:C2; cbn [bind] in E; [|discriminate].
  destruct (mul (ECurve.pz (ECurve.pc P)) _) as [dd|] eqn:D; cbn [bind] in E; [|discriminate].
  assert (Dz : val dd = 0) by (apply (mul_null _ _ _ D); destruct Z as [Z|Z]; [left|right]; apply Z).
  assert (Cz : val cc = 0).
  { apply (mul_null _ _ _ C2). destruct Z as [Z|Z]; [left; apply (mul_null _ _ _ C1); right|right]; apply Z. }
  do 5 match type of E with bind ?m _ = Ret _ => destruct m; cbn [bind] in E; [|discriminate] end.
  destruct (sub dd cc) as [ff|] eqn:F; cbn [bind] in E; [|discriminate]. assert (Fz : val ff = 0) by exact (sub_null _ _ _ F Dz Cz).
  do 6 match type of E with bind ?m _ = Ret _ => destruct m; cbn [bind] in E; [|discriminate] end.
  destruct (mul ff _) as [z3|] eqn:G; cbn [bind] in E; [|discriminate]. assert (Gz : val z3 = 0) by (apply (mul_null _ _ _ G); left; exact Fz).
  unfold ECurve.new_proy_point in E. destruct (ECurve.is_on_curve _ _) as [ok|]; cbn [bind] in E; [|discriminate]. destruct ok; cbn [do_if_eq] in E; [|discriminate].
  injection E as <-. exact Gz.
Qed.
(** Elligator 2 on edwards448: exactly for the pairs without an element that is sent to (0, 0, 0, 0) *)
Lemma c73_edwards448 : exists m, edwards448_to_curve448 = Ret m /\ EDWARDS448 = Ret (e4_e0 m) /\
  forall z u v, let p := modulus (ECurve.c_f (e4_e0 m)) in valid p z -> valid p u -> valid p v -> ~ square_mod p (val z) ->
  exists M, ed_ell2_new (e4_e0 m) z (Some (R448 m)) = Ret M
  /\ (e_both_land (e4_e0 m) (ed_ell2_map M u) (ed_ell2_map M v) <->
      (~ (p | val u) /\ ~ (p | 1 + val z * (val u * val u))) /\ ~ (p | val v) /\ ~ (p | 1 + val z * (val v * val v))).
Proof.
  destruct HashProps.c58_edwards448 as (m & X & X0 & H). destruct EdEllProps.c51_edwards448_refuted as (m' & X' & H'). rewrite X in X'. injection X' as <-.
  exists m. split; [exact X|]. split; [exact X0|]. intros z u v p Vz Vu Vv Nz.
  destruct (H z u Vz Vu Nz) as (M & EM & U), (H z v Vz Vv Nz) as (M' & EM' & V). rewrite EM in EM'. injection EM' as <-.
  exists M. split; [exact EM|]. cbv zeta in U, V. fold p in U, V. rewrite <- U, <- V. split.
  - intros ((R & _ & _ & ER & (A & HA) & _) & _).
    destruct (H' z u Vz Vu Nz) as (M1 & P & EM1 & EP & _ & ZP), (H' z v Vz Vv Nz) as (M2 & Q & EM2 & EQ & _ & ZQ).
    rewrite EM in EM1, EM2. injection EM1 as <-. injection EM2 as <-. rewrite EP, EQ in ER. cbn [bind] in ER.
    assert (N : ~ (zeros P \/ zeros Q)).
    { intro Z. pose proof (add_zeros P Q R ER Z) as Z0. destruct HA as (_ & _ & _ & _ & _ & (NZ & _) & _). exact (NZ Z0). }
    split; [apply U|apply V]; split; intro D; apply N; [left; apply ZP; left|left; apply ZP; right|right; apply ZQ; left|right; apply ZQ; right]; exact D.
  - intros [LU LV]. exact (e_two _ _ _ _ _ InstProps.c48_EDWARDS448 (proj2 OrderProps.c55_EDWARDS448) ltac:(small) X0 LU LV).
Qed.

(** opposite elements: with SSWU the two images cancel *)
Lemma w_cancel e P Q A : WPoints.weier e -> WPoints.wpoint e P A -> WPoints.wpoint e Q (negative (modulus (WCurve.c_f e)) A) ->
  WPoints.same (WCurve.pt_add P Q) (WCurve.identity e).
Proof.
  intros W HP HQ. destruct (WeierProps.c25_identity_and_inverse e P A W HP) as (_ & _ & (L & I & EL & EI & E) & _).
  destruct (WeierProps.c24_negation e P A W HP) as (N & EN & HN). rewrite EN in EL. cbn [bind] in EL.
  destruct (WeierProps.c24_addition e P N A _ W HP (proj2 (HN _) eq_refl)) as (L' & EL' & HL). rewrite EL in EL'. injection EL' as <-.
  destruct (WeierProps.c24_addition e P Q A _ W HP HQ) as (S & ES & HS). exists S, I. split; [exact ES|]. split; [exact EI|].
  assert (HI : WPoints.wpoint e I Infinity).
  { WeierProps.open_curve W. destruct (WeierP.identity_wrep p Hp Hp2 a b e ef ea eb) as (J & EJ & HJ). rewrite EI in EJ. injection EJ as <-.
    apply WP. eexists. split; [|exact HJ]. reflexivity. }
  destruct (LawProps.c24_law_is_total e A (negative (modulus (WCurve.c_f e)) A) W) as (C & _ & HC); [apply HP|apply HQ|].
  pose proof (proj2 (HC C) eq_refl) as SC.
  destruct (WeierProps.c32_equality e L I C Infinity W (proj2 (HL C) SC) HI) as (t & Et & Ht). rewrite E in Et. injection Et as <-.
  assert (C = Infinity) by (apply Ht; reflexivity). subst C.
  destruct (WeierProps.c32_equality e S I Infinity Infinity W (proj2 (HS _) SC) HI) as (t & -> & Ht'). f_equal. apply Ht'. reflexivity.
Qed.
Lemma c73_sswu_opposite : forall e z u m, WPoints.weier e -> Morphisms.wfield e -> let p := modulus (WCurve.c_f e) in valid p z -> valid p u -> sswu_new e z = Ret m -> val u <> 0 ->
  exists v, neg u = Ret v /\ WPoints.same (bind (sswu_map m u) (fun P => bind (sswu_map m v) (fun Q => WCurve.pt_add P Q))) (WCurve.identity e).
Proof.
  intros e z u m W F p Vz Vu Em Nu. destruct (MapsProps.c40_on_curve e z u m F Vz Vu Em) as (P & x & y & EP & HP & _).
  destruct (MapsProps.c40_odd e z u m P x y F Vz Vu Em Nu EP HP) as (v & Q & Ev & EQ & HQ). exists v. split; [exact Ev|].
  rewrite EP, EQ. cbn [bind]. exact (w_cancel e P Q _ W HP HQ).
Qed.

Lemma sqmod_dec p n : prime p -> {square_mod p n} + {~ square_mod p n}.
Proof.
  intro Hp. pose proof (prime_ge_2 p Hp). assert (V : valid p (mkFpElt (n mod p) (mkFp p))) by (split; [reflexivity|apply Z.mod_pos_bound; lia]).
  assert (E : square_mod p (n mod p) <-> square_mod p n).
  { assert (D : (p | n - n mod p)) by (exists (n / p); pose proof (Z.div_mod n p); lia).
    split; intros [w W]; exists w; [replace (w * w - n) with (w * w - n mod p - (n - n mod p)) by ring|replace (w * w - n mod p) with (w * w - n + (n - n mod p)) by ring];
      [apply Z.divide_sub_r|apply Z.divide_add_r]; assumption. }
  destruct (is_square (mkFpElt (n mod p) (mkFp p))) as [[|]|] eqn:I.
  - left. apply E. destruct (FieldProps.c06_is_square_decides p _ Hp V) as (b & Eb & Hb). rewrite I in Eb. injection Eb as <-. apply Hb. reflexivity.
  - right. intro S. destruct (FieldProps.c06_is_square_decides p _ Hp V) as (b & Eb & Hb). rewrite I in Eb. injection Eb as <-. apply E, Hb in S. discriminate.
  - exfalso. destruct (FieldProps.c06_is_square_decides p _ Hp V) as (b & Eb & _). rewrite I in Eb. discriminate.
Qed.
(** the candidates of -u are those of u, the first two exchanged *)
Lemma candidates_opp p a b z u v c x1 x2 x3 : (p | u + v) -> Verif.Spec.Maps.svdw_candidates p a b z u c x1 x2 x3 -> Verif.Spec.Maps.svdw_candidates p a b z v c x2 x1 x3.
Proof.
  unfold Verif.Spec.Maps.svdw_candidates. set (gz := Verif.Spec.Maps.cubic a b z). set (h := 3 * (z * z) + 4 * a). cbv zeta.
  intros D (Cc & Ec & Hc & C1 & C2 & C3 & S & G & X).
  assert (T : (p | v * v * gz - u * u * gz)) by (replace (v * v * gz - u * u * gz) with ((v - u) * gz * (u + v)) by ring; apply Z.divide_mul_r, D).
  set (t := u * u * gz) in *. set (t' := v * v * gz) in *. clearbody t t'.
  assert (TT : (p | t' * t' - t * t)) by (replace (t' * t' - t * t) with ((t' + t) * (t' - t)) by ring; apply Z.divide_mul_r, T).
  split; [exact Cc|]. split; [exact Ec|]. split; [exact Hc|]. split; [exact C2|]. split; [exact C1|]. split; [exact C3|].
  split; [replace (x1 + x2 + z) with (x2 + x1 + z) by ring; exact S|]. split.
  - intro N. destruct G as [G1 G2].
    { intro N'. apply N. replace (1 - t' * t') with (1 - t * t - (t' * t' - t * t)) by ring. apply Z.divide_sub_r; assumption. }
    split.
    + replace (2 * x2 * (1 + t') + (z * (1 + t') + 2 * v * c)) with
        ((2 * x2 + z) * (t' - t) + (2 * (1 + t)) * (x2 + x1 + z) + 2 * c * (u + v) - (2 * x1 * (1 + t) + (z * (1 + t) + 2 * u * c))) by ring.
      apply Z.divide_sub_r; [|exact G1]. apply Z.divide_add_r; [apply Z.divide_add_r|]; apply Z.divide_mul_r; assumption.
    + replace ((x3 - z) * h * ((1 - t') * (1 - t')) + 4 * gz * ((1 + t') * (1 + t'))) with
        (((x3 - z) * h * (t' + t - 2) + 4 * gz * (t' + t + 2)) * (t' - t) + ((x3 - z) * h * ((1 - t) * (1 - t)) + 4 * gz * ((1 + t) * (1 + t)))) by ring.
      apply Z.divide_add_r; [apply Z.divide_mul_r, T|exact G2].
  - intro N. destruct X as [X1 X3].
    { replace (1 - t * t) with (1 - t' * t' + (t' * t' - t * t)) by ring. apply Z.divide_add_r; assumption. }
    split; [|exact X3]. replace (2 * x2 + z) with (2 * (x2 + x1 + z) - (2 * x1 + z)) by ring. apply Z.divide_sub_r; [apply Z.divide_mul_r, S|exact X1].
Qed.
Lemma signed_root p n u : prime p -> 2 < p -> square_mod p n -> exists y, coord p y /\ (p | y * y - n) /\ Verif.Spec.Maps.sign_follows u y.
Proof.
  intros Hp H2 [w W]. pose proof (Z.mod_pos_bound w p ltac:(lia)) as B.
  assert (R : (p | (w mod p) * (w mod p) - n)).
  { replace ((w mod p) * (w mod p) - n) with ((w mod p - w) * (w mod p + w) + (w * w - n)) by ring. apply Z.divide_add_r; [|exact W].
    apply Z.divide_mul_l. exists (- (w / p)). pose proof (Z.div_mod w p). lia. }
  set (r := w mod p) in *. destruct (Z.eq_dec r 0) as [E|N]; [exists r; split; [unfold coord; lia|]; split; [exact R|left; exact E]|].
  destruct (Bool.bool_dec (Z.even r) (Z.even u)) as [E|E]; [exists r; split; [unfold coord; lia|]; split; [exact R|right; exact E]|].
  exists (p - r). split; [unfold coord; lia|]. split.
  - replace ((p - r) * (p - r) - n) with ((p - 2 * r) * p + (r * r - n)) by ring. apply Z.divide_add_r; [apply Z.divide_factor_r|exact R].
  - right. rewrite Z.even_sub. replace (Z.even p) with false; [destruct (Z.even r), (Z.even u); (reflexivity || congruence)|].
    symmetry. destruct (Z.even p) eqn:Ep; [|reflexivity]. exfalso. apply Z.even_spec in Ep as [k Hk]. destruct (prime_divisors p Hp 2) as [?|[?|[?|?]]]; [exists k; lia|lia..].
Qed.
(** with SVDW they cancel unless both of the first two candidates are abscissas of points; then each of u and -u takes its own *)
Lemma c73_svdw_opposite : forall e z u m P x y, Morphisms.wfield e -> let p := modulus (WCurve.c_f e) in
  let square_at := fun x => square_mod p (Verif.Spec.Maps.cubic (val (WCurve.c_a e)) (val (WCurve.c_b e)) x) in
  valid p z -> valid p u -> svdw_new e z = Ret m -> val u <> 0 -> svdw_map m u = Ret P -> WPoints.wpoint e P (Affine x y) ->
  exists v Q c x1 x2 x3, neg u = Ret v /\ svdw_map m v = Ret Q
    /\ Verif.Spec.Maps.svdw_candidates p (val (WCurve.c_a e)) (val (WCurve.c_b e)) (val z) (val u) c x1 x2 x3
    /\ (square_at x1 -> square_at x2 -> x = x1 /\ exists y', WPoints.wpoint e Q (Affine x2 y'))
    /\ (~ (square_at x1 /\ square_at x2) -> WPoints.wpoint e Q (negative p (Affine x y))).
Proof.
  intros e z u m P x y F p sq Vz Vu Em Nu EP HP. pose proof F as (Hp & H2 & _). fold p in Hp, H2. destruct Vu as [Fu Ru]. cbv beta in Fu.
  assert (Ev : neg u = Ret (mkFpElt (p - val u) (fld u))).
  { unfold neg, red, mod_floor. rewrite Fu. cbn [modulus]. replace (p =? 0) with false by (symmetry; apply Z.eqb_neq; lia). cbn [bind]. do 2 f_equal.
    rewrite <- (Z.mod_unique (- val u) p (-1) (p - val u)); lia. }
  assert (Vv : valid p (mkFpElt (p - val u) (fld u))) by (split; [exact Fu|cbn [val]; lia]).
  destruct (MapsProps.c41_map e z u m F Vz (conj Fu Ru) Em) as (P' & EP' & HP'). rewrite EP in EP'. injection EP' as <-.
  destruct (MapsProps.c41_map e z _ m F Vz Vv Em) as (Q & EQ & HQ). cbn [val] in HQ.
  apply HP' in HP. destruct HP as (c & x1 & x2 & x3 & CD & Cx & Cy & EC & SG & S1 & S2 & S3).
  exists (mkFpElt (p - val u) (fld u)), Q, c, x1, x2, x3. split; [exact Ev|]. split; [exact EQ|]. split; [exact CD|].
  assert (OP : (p | val u + (p - val u))) by (exists 1; ring). pose proof (candidates_opp p _ _ _ _ _ _ _ _ _ OP CD) as CD'.
  split.
  - intros Q1 Q2. split; [exact (S1 Q1)|].
    destruct (signed_root p _ (p - val u) Hp H2 Q2) as (y' & Cy' & R & SG'). exists y'. apply HQ. exists c, x2, x1, x3.
    split; [exact CD'|]. split; [apply CD|]. split; [exact Cy'|]. split; [exact R|]. split; [exact SG'|].
    split; [reflexivity|]. split; intro N; contradiction.
  - intro N. cbn [negative]. apply HQ. exists c, x2, x1, x3. split; [exact CD'|]. split; [exact Cx|]. split; [apply Z.mod_pos_bound; lia|].
    split; [|split].
    + replace ((- y) mod p * ((- y) mod p) - Verif.Spec.Maps.cubic (val (WCurve.c_a e)) (val (WCurve.c_b e)) x)
        with (((- y) mod p - - y) * ((- y) mod p + - y) + (y * y - Verif.Spec.Maps.cubic (val (WCurve.c_a e)) (val (WCurve.c_b e)) x)) by ring.
      apply Z.divide_add_r; [|exact EC]. apply Z.divide_mul_l. exists (- (- y / p)). pose proof (Z.div_mod (- y) p). lia.
    + destruct SG as [-> | SG]; [left; reflexivity|]. destruct (Z.eq_dec y 0) as [->|Ny]; [left; reflexivity|]. right.
      rewrite <- (Z.mod_unique (- y) p (-1) (p - y)); [|unfold coord in Cy; lia|lia]. rewrite !Z.even_sub, SG. reflexivity.
    + destruct (sqmod_dec p (Verif.Spec.Maps.cubic (val (WCurve.c_a e)) (val (WCurve.c_b e)) x1) Hp) as [Q1|N1];
        destruct (sqmod_dec p (Verif.Spec.Maps.cubic (val (WCurve.c_a e)) (val (WCurve.c_b e)) x2) Hp) as [Q2|N2].
      * destruct N. split; assumption.
      * split; [intro; contradiction|]. split; intros; [exact (S1 Q1)|contradiction].
      * split; [intro; exact (S2 N1 Q2)|]. split; intros; contradiction.
      * split; [intro; contradiction|]. split; intros; [contradiction|exact (S3 N1 N2)].
Qed.

(** P-256 with the parameter -10 of RFC 9380; on the curve modulo 11 of C40 opposite elements cancel and 1, 4 are sent to (8,9), (6,6) with
    sum (2,0); on the one of C41 the opposite elements 5 and 6 are sent to (10,0) and (0,10) *)
Example c73_ex : (exists e z m, P256 = Ret e /\ from_int (w_get_field e) (-10) = Ret z /\ sswu_new e z = Ret m
    /\ forall u v, valid (modulus (w_get_field e)) u -> valid (modulus (w_get_field e)) v -> w_both_land e (sswu_map m u) (sswu_map m v))
  /\ (exists m S T, sswu_new MapsProps.W11 (MapsProps.n11 2) = Ret m
     /\ bind (sswu_map m (MapsProps.n11 1)) (fun P => bind (sswu_map m (MapsProps.n11 4)) (fun Q => WCurve.pt_add P Q)) = Ret S
     /\ bind (sswu_map m (MapsProps.n11 4)) (fun P => bind (sswu_map m (MapsProps.n11 7)) (fun Q => WCurve.pt_add P Q)) = Ret T
     /\ WCurve.normalize S = Ret (MapsProps.w11 2 0) /\ WCurve.pt_is_zero T = true)
  /\ exists m, svdw_new MapsProps.V11 (MapsProps.n11 1) = Ret m /\ neg (MapsProps.n11 5) = Ret (MapsProps.n11 6)
     /\ svdw_map m (MapsProps.n11 5) = Ret (MapsProps.v11 10 0) /\ svdw_map m (MapsProps.n11 6) = Ret (MapsProps.v11 0 10).
Proof.
  split; [|split].
  - destruct HashProps.sswu_P256 as (e & z & m & HX & Ez & Em & H). exists e, z, m. split; [exact HX|]. split; [exact Ez|]. split; [exact Em|].
    intros u v Vu Vv. exact (w_two _ _ _ _ _ InstProps.c48_P256 (proj2 OrderProps.c55_P256) ltac:(small) HX (H u Vu) (H v Vv)).
  - do 3 eexists. split; [vm_compute; reflexivity|]. split; [vm_compute; reflexivity|]. split; [vm_compute; reflexivity|]. split; vm_compute; reflexivity.
  - eexists. split; [vm_compute; reflexivity|]. repeat split; vm_compute; reflexivity.
Qed.
(** so opposite elements do not always have opposite images under SVDW *)
Lemma c73_svdw_odd_refuted : exists e z u v m P Q A, Morphisms.wfield e /\ valid (modulus (WCurve.c_f e)) z /\ valid (modulus (WCurve.c_f e)) u /\ val u <> 0
  /\ svdw_new e z = Ret m /\ neg u = Ret v /\ svdw_map m u = Ret P /\ svdw_map m v = Ret Q /\ WPoints.wpoint e P A
  /\ ~ WPoints.wpoint e Q (negative (modulus (WCurve.c_f e)) A).
Proof.
  exists MapsProps.V11, (MapsProps.n11 1), (MapsProps.n11 5), (MapsProps.n11 6). eexists. exists (MapsProps.v11 10 0), (MapsProps.v11 0 10), (Affine 10 0).
  split; [exact MapsProps.vfield11|]. split; [split; [reflexivity|cbn; lia]|]. split; [split; [reflexivity|cbn; lia]|]. split; [discriminate|].
  split; [vm_compute; reflexivity|]. split; [vm_compute; reflexivity|]. split; [vm_compute; reflexivity|]. split; [vm_compute; reflexivity|]. split.
  - split; [reflexivity|]. do 3 (split; [split; [reflexivity|cbn; lia]|]). split.
    + split; [discriminate|]. split; exists 0; reflexivity.
    + repeat split; try (cbn; lia). exists (-91). reflexivity.
  - intros (_ & _ & _ & _ & (_ & [k D] & _) & _). cbn in D. lia.
Qed.
