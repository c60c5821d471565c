(** Isogenies onto the curves with a = 0 and the maps built on them: C45-C47. *)
From Coq Require Import ZArith Znumtheory Lia String Ascii Bool List.
From Verif.Math Require Import Fld Zp Residue ECGroup.
From Verif.Spec Require Import Arith Curve Isogeny.
From Verif.Spec Require Maps Instances.
From Verif.Model Require Import Out BigInt PrimeField Instances RationalMaps.
From Verif.Model Require WCurve Maps.
From Verif.Proofs Require Import FieldP FieldProps CurveP IsogP.
From Verif.Proofs Require WeierP WeierProps InstP InstShip InstProps MapsP MapsProps Cert_Isog.
From Verif.Math Require Prime_psecp Prime_pbls.
From Verif.Spec Require Export Morphisms.
Import WPoints(weier, wpoint, wsum, won).
Import ListNotations.
Open Scope Z_scope.

Lemma coefs_K p l l' : coefs p l l' -> exists k : list (Zp p), l = map (@fe p) k /\ l' = map (fun c => zv c) k.
Proof.
  intro H. induction H as [|x c l l' [Vx Ec] _ (k & -> & ->)]; [exists []; split; reflexivity|].
  destruct (valid_ex _ _ Vx) as [u ->]. exists (u :: k). cbn [map]. split; [reflexivity|]. f_equal. symmetry. exact Ec.
Qed.

Lemma new_point_z e x y Q : weier e -> WCurve.new_point e x y = Ret Q -> val (WCurve.pz (WCurve.pc Q)) = 1.
Proof.
  intros (_ & H2 & _). set (p := modulus (WCurve.c_f e)) in *.
  assert (ef : WCurve.c_f e = mkFp p) by (unfold p; destruct (WCurve.c_f e); reflexivity).
  unfold WCurve.new_point. rewrite ef. fes.
  destruct (WCurve.is_on_curve e _) as [t|]; [|discriminate]. cbn [bind]. destruct t; cbn [do_if_eq]; [|discriminate].
  intro E. injection E as <-. cbn [WCurve.pc WCurve.pz val fe]. cbn. apply Z.mod_small. lia.
Qed.

(** push looks at X and Y only: it returns the image of the affine point (X, Y) if that is a point of the domain where the
    denominators do not vanish, and panics in all other cases *)
Lemma push_exact : forall m i P, isog m i -> tuple m P ->
  let p := modulus (WCurve.c_f (iso_e0 m)) in
  let X := val (WCurve.px (WCurve.pc P)) in let Y := val (WCurve.py (WCurve.pc P)) in
  (won (iso_e0 m) (Affine X Y) -> ~ (p | peval (i_xd i) X) ->
     exists Q X' Y', iso_push m P = Ret Q /\ wpoint (iso_e1 m) Q (Affine X' Y') /\ val (WCurve.pz (WCurve.pc Q)) = 1
       /\ forall X'' Y'', image m i X Y X'' Y'' <-> X'' = X' /\ Y'' = Y')
  /\ (~ won (iso_e0 m) (Affine X Y) \/ (p | peval (i_xd i) X) -> iso_push m P = Panic "not valid point").
Proof.
  intros m i P W [Vx Vy]. pose proof W as (W0 & W1 & E1 & A1 & C1 & C2 & C3 & C4 & PP). cbn zeta. unfold image.
  set (p := modulus (WCurve.c_f (iso_e0 m))) in *.
  pose proof W0 as (Hp & Hp2 & Va & Vb & _). fold p in Hp, Hp2, Va, Vb.
  pose proof W1 as (_ & _ & _ & Vb' & NR). rewrite E1, A1 in NR. rewrite E1 in Vb'.
  assert (ef : WCurve.c_f (iso_e0 m) = mkFp p) by (unfold p; destruct (WCurve.c_f (iso_e0 m)); reflexivity).
  destruct (coefs_K _ _ _ C1) as (xn & Exn & Zxn), (coefs_K _ _ _ C2) as (xd & Exd & Zxd), (coefs_K _ _ _ C3) as (yn & Eyn & Zyn), (coefs_K _ _ _ C4) as (yd & Eyd & Zyd).
  destruct (valid_ex _ _ Vx) as [x Ex], (valid_ex _ _ Vy) as [y Ey], (valid_ex _ _ Va) as [a Ea], (valid_ex _ _ Vb) as [b Eb], (valid_ex _ _ Vb') as [b' Eb'].
  set (K := ZpF p Hp). change (Zp p) with (car K) in *.
  set (XN := hK p Hp xn x). set (XD := hK p Hp xd x). set (YN := hK p Hp yn x). set (YD := hK p Hp yd x).
  assert (RUN : iso_push m P = WCurve.new_point (iso_e1 m) (fe (Fdiv XN XD)) (fe (Fmul y (Fdiv YN YD)))).
  { unfold iso_push. rewrite ef, Exn, Exd, Eyn, Eyd, Ex, Ey. rewrite !(horner_fe p Hp Hp2). cbn [bind]. fes. reflexivity. }
  rewrite RUN. clear RUN. rewrite Ex, Ey. cbn [val fe].
  assert (ZX : forall k : list K, of_Z p (peval (map (fun c : K => zv c) k) (zv x)) = hK p Hp k x) by (intro k; symmetry; apply hK_Z).
  specialize (PP (zv x)). rewrite Ea, Eb, Eb' in PP. cbn [val fe] in PP. rewrite Zxn, Zxd, Zyn, Zyd in *.
  destruct PP as [PP1 PP2].
  assert (P3 : forall t, t ^ 3 = t * t * t) by (intro t; ring).
  assert (H1 : Fmul (Fmul XD XD) XD = Fmul YD YD).
  { apply of_Z_div in PP1; [|lia]. revert PP1. rewrite P3, Z.pow_2_r. pushZ. rewrite !ZX. exact (fun h => h). }
  set (g := Fadd (Fadd (Fmul (Fmul x x) x) (Fmul a x)) b : K).
  assert (H2 : Fmul g (Fmul YN YN) = Fadd (Fmul (Fmul XN XN) XN) (Fmul b' (Fmul YD YD))).
  { apply of_Z_div in PP2; [|lia]. revert PP2. rewrite P3, !Z.pow_2_r. pushZ. rewrite !ZX. exact (fun h => h). }
  assert (NRK : forall t : K, Fadd (Fmul (Fmul t t) t) b' <> F0).
  { intros t Ht. apply (NR (zv t)). rewrite Eb'. cbn [val fe]. rewrite Z.mul_0_l, Z.add_0_r.
    replace (zv t * zv t * zv t + zv b') with (zv t * zv t * zv t + zv b' - 0) by ring. apply of_Z_div; [lia|]. pushZ. exact Ht. }
  assert (DX : (p | peval (map (fun c : K => zv c) xd) (zv x)) <-> XD = F0).
  { rewrite <- (Z.sub_0_r (peval _ _)), <- of_Z_div by lia. rewrite ZX. reflexivity. }
  assert (DY : (p | peval (map (fun c : K => zv c) yd) (zv x)) <-> YD = F0).
  { rewrite <- (Z.sub_0_r (peval _ _)), <- of_Z_div by lia. rewrite ZX. reflexivity. }
  assert (O0 : won (iso_e0 m) (Affine (zv x) (zv y)) <-> Fmul y y = g).
  { unfold WPoints.won, on_cubic. fold p. rewrite Ea, Eb. cbn [val fe].
    replace (1 * (zv y * zv y) - (zv x * zv x * zv x + 0 * (zv x * zv x) + zv a * zv x + zv b)) with (zv y * zv y - (zv x * zv x * zv x + zv a * zv x + zv b)) by ring.
    rewrite <- of_Z_div by lia. split.
    - intros (_ & _ & H). revert H. pushZ. exact (fun h => h).
    - intro H. split; [apply zv_range; lia|]. split; [apply zv_range; lia|]. pushZ. exact H. }
  assert (O1 : forall u v : K, won (iso_e1 m) (Affine (zv u) (zv v)) <-> Fmul v v = Fadd (Fmul (Fmul u u) u) b').
  { intros u v. unfold WPoints.won, on_cubic. rewrite E1, A1, Eb'. cbn [val fe].
    replace (1 * (zv v * zv v) - (zv u * zv u * zv u + 0 * (zv u * zv u) + 0 * zv u + zv b')) with (zv v * zv v - (zv u * zv u * zv u + zv b')) by ring.
    rewrite <- of_Z_div by lia. split.
    - intros (_ & _ & H). revert H. pushZ. exact (fun h => h).
    - intro H. split; [apply zv_range; lia|]. split; [apply zv_range; lia|]. pushZ. exact H. }
  assert (VV : forall u : K, valid (modulus (WCurve.c_f (iso_e1 m))) (fe u)) by (intro u; rewrite E1; apply valid_fe; lia).
  destruct (WeierProps.c23_new_point (iso_e1 m) _ _ W1 (VV (Fdiv XN XD)) (VV (Fmul y (Fdiv YN YD)))) as [N1 N2]. cbn [val fe] in N1, N2.
  rewrite O1 in N1, N2. rewrite O0, DX. split.
  - intros HO ND. destruct N1 as (Q & EQ & HQ); [apply (image_on K XN XD YN YD g b' H1 H2 NRK y ND); exact HO|].
    exists Q, (zv (Fdiv XN XD)), (zv (Fmul y (Fdiv YN YD))). split; [exact EQ|]. split; [exact HQ|]. split; [exact (new_point_z _ _ _ _ W1 EQ)|].
    assert (NY : YD <> F0) by (intro Z; apply ND, (yd_xd K XD YD H1), Z).
    intros X'' Y''. unfold isogeny_image. rewrite Zxn, Zxd, Zyn, Zyd, DX, DY. split.
    + intros (_ & _ & CX & CY & D1 & D2). destruct (WeierProps.coord_K p Hp X'' CX) as [u ->], (WeierProps.coord_K p Hp Y'' CY) as [v ->].
      apply of_Z_div in D1; [|lia]. apply of_Z_div in D2; [|lia]. revert D1 D2. pushZ. rewrite !ZX. intros D1 D2. split; f_equal.
      * symmetry. apply (Fdiv_eq_iff K _ _ _ ND). symmetry. exact D1.
      * symmetry. apply (ydiv_iff K _ _ _ _ NY). exact D2.
    + intros [-> ->]. split; [exact ND|]. split; [exact NY|]. split; [apply zv_range; lia|]. split; [apply zv_range; lia|].
      split; (apply of_Z_div; [lia|]); pushZ; rewrite !ZX.
      * apply (Fdiv_mul K). exact ND.
      * apply (ydiv_iff K _ _ _ _ NY). reflexivity.
  - intro H. apply N2. intro HO. destruct (Feqd XD F0) as [Z|ND].
    + assert (ZY : YD = F0) by (apply (yd_xd K XD YD H1), Z). apply (image_zero K b' NRK).
      rewrite Z, ZY in HO. rewrite !(div_zero p Hp Hp2), (mul_zero K) in HO. exact HO.
    + apply (image_on K XN XD YN YD g b' H1 H2 NRK y ND) in HO. destruct H; contradiction.
Qed.

(** *** the maps of the code have the coefficients of RFC 9380 *)
Definition coefs_check (p : Z) (o : out (list FpElt)) (l' : list Z) : bool :=
  match o with
  | Ret l => Nat.eqb (length l) (length l')
      && forallb (fun q => (modulus (fld (fst q)) =? p) && (val (fst q) =? snd q) && (0 <=? snd q) && (snd q <? p)) (combine l l')
  | Panic _ => false
  end.
Lemma coefs_ok p o l' : coefs_check p o l' = true -> exists l, o = Ret l /\ coefs p l l'.
Proof.
  unfold coefs_check. destruct o as [l|]; [|discriminate]. rewrite andb_true_iff, Nat.eqb_eq. intros [L F]. exists l. split; [reflexivity|].
  unfold coefs. revert l' L F. induction l as [|x l IH]; intros [|c l'] L F; try discriminate; [constructor|].
  cbn [combine forallb fst snd] in F. rewrite !andb_true_iff, !Z.eqb_eq, Z.leb_le, Z.ltb_lt in F. destruct F as ((((F1 & F2) & F3) & F4) & F).
  constructor; [|apply IH; [cbn in L; lia|exact F]]. split; [|exact F2]. split; [destruct x as [v [m]]; cbn in *; subst; reflexivity|lia].
Qed.

Lemma secp_full : exists m, get_isogeny_secp256k1 = Ret m /\ SECP256K1_3ISO = Ret (iso_e0 m) /\ SECP256K1 = Ret (iso_e1 m) /\ isog m iso3_secp256k1
  /\ modulus (WCurve.c_f (iso_e0 m)) = Cert_Isog.p_secp /\ val (WCurve.c_a (iso_e0 m)) = Cert_Isog.a_secp /\ val (WCurve.c_b (iso_e0 m)) = 1771 /\ prime Cert_Isog.p_secp
  /\ WPoints.wgroup (iso_e0 m).
Proof.
  destruct InstProps.c48_SECP256K1_3ISO as (e0 & X0 & p0 & a0 & b0 & _ & _ & Hp & _ & G & _).
  destruct InstProps.c48_SECP256K1 as (e1 & X1 & p1 & a1 & b1 & _ & _ & _ & _ & (W1 & _) & _). pose proof G as (W0 & _).
  assert (pp : Instances.w_p Instances.std_SECP256K1 = Cert_Isog.p_secp) by (vm_compute; reflexivity).
  assert (pi : Instances.w_p Instances.std_SECP256K1_3ISO = Cert_Isog.p_secp) by (vm_compute; reflexivity).
  assert (ef : WCurve.c_f e1 = mkFp Cert_Isog.p_secp) by (rewrite <- pp, <- p1; destruct (WCurve.c_f e1); reflexivity).
  destruct (coefs_ok Cert_Isog.p_secp (build (mkFp Cert_Isog.p_secp) secp_x_num) (i_xn iso3_secp256k1)) as (xn & E1 & C1); [vm_compute; reflexivity|].
  destruct (coefs_ok Cert_Isog.p_secp (build (mkFp Cert_Isog.p_secp) secp_x_den) (i_xd iso3_secp256k1)) as (xd & E2 & C2); [vm_compute; reflexivity|].
  destruct (coefs_ok Cert_Isog.p_secp (build (mkFp Cert_Isog.p_secp) secp_y_num) (i_yn iso3_secp256k1)) as (yn & E3 & C3); [vm_compute; reflexivity|].
  destruct (coefs_ok Cert_Isog.p_secp (build (mkFp Cert_Isog.p_secp) secp_y_den) (i_yd iso3_secp256k1)) as (yd & E4 & C4); [vm_compute; reflexivity|].
  exists (mkIso e0 e1 xn xd yn yd). unfold get_isogeny_secp256k1. rewrite X1. cbn [bind]. rewrite ef, E1, E2, E3, E4, X0. cbn [bind iso_e0 iso_e1].
  do 3 (split; [reflexivity|]). unfold isog. cbn [iso_e0 iso_e1 iso_x_num iso_x_den iso_y_num iso_y_den].
  assert (pe : modulus (WCurve.c_f e0) = Cert_Isog.p_secp) by (rewrite p0; exact pi). rewrite pi in Hp.
  assert (A0 : val (WCurve.c_a e0) = Cert_Isog.a_secp) by (rewrite a0; vm_compute; reflexivity).
  assert (B0 : val (WCurve.c_b e0) = 1771) by (rewrite b0; vm_compute; reflexivity).
  assert (B1 : val (WCurve.c_b e1) = 7) by (rewrite b1; vm_compute; reflexivity).
  rewrite pe, A0, B0, B1. split; [|auto]. split; [exact W0|]. split; [exact W1|]. split; [rewrite ef; reflexivity|].
  split; [rewrite a1; vm_compute; reflexivity|]. do 4 (split; [assumption|]).
  apply (params_ok _ 14); [exact Hp|exact Cert_Isog.params_secp].
Qed.
Lemma bls_full : exists m, get_isogeny_bls12381g1 = Ret m /\ BLS12381G1_11ISO = Ret (iso_e0 m) /\ BLS12381G1 = Ret (iso_e1 m) /\ isog m iso11_bls12381g1
  /\ modulus (WCurve.c_f (iso_e0 m)) = Cert_Isog.p_bls /\ val (WCurve.c_a (iso_e0 m)) = Cert_Isog.a_bls /\ val (WCurve.c_b (iso_e0 m)) = Cert_Isog.b_bls /\ prime Cert_Isog.p_bls
  /\ WPoints.wgroup (iso_e0 m).
Proof.
  destruct InstProps.c48_BLS12381G1_11ISO as (e0 & X0 & p0 & a0 & b0 & _ & _ & Hp & _ & G & _).
  destruct InstProps.c48_BLS12381G1 as (e1 & X1 & p1 & a1 & b1 & _ & _ & _ & _ & (W1 & _) & _). pose proof G as (W0 & _).
  assert (pp : Instances.w_p Instances.std_BLS12381G1 = Cert_Isog.p_bls) by (vm_compute; reflexivity).
  assert (pi : Instances.w_p Instances.std_BLS12381G1_11ISO = Cert_Isog.p_bls) by (vm_compute; reflexivity).
  assert (ef : WCurve.c_f e1 = mkFp Cert_Isog.p_bls) by (rewrite <- pp, <- p1; destruct (WCurve.c_f e1); reflexivity).
  destruct (coefs_ok Cert_Isog.p_bls (build (mkFp Cert_Isog.p_bls) bls_x_num) (i_xn iso11_bls12381g1)) as (xn & E1 & C1); [vm_compute; reflexivity|].
  destruct (coefs_ok Cert_Isog.p_bls (build (mkFp Cert_Isog.p_bls) bls_x_den) (i_xd iso11_bls12381g1)) as (xd & E2 & C2); [vm_compute; reflexivity|].
  destruct (coefs_ok Cert_Isog.p_bls (build (mkFp Cert_Isog.p_bls) bls_y_num) (i_yn iso11_bls12381g1)) as (yn & E3 & C3); [vm_compute; reflexivity|].
  destruct (coefs_ok Cert_Isog.p_bls (build (mkFp Cert_Isog.p_bls) bls_y_den) (i_yd iso11_bls12381g1)) as (yd & E4 & C4); [vm_compute; reflexivity|].
  exists (mkIso e0 e1 xn xd yn yd). unfold get_isogeny_bls12381g1. rewrite X1. cbn [bind]. rewrite ef, E1, E2, E3, E4, X0. cbn [bind iso_e0 iso_e1].
  do 3 (split; [reflexivity|]). unfold isog. cbn [iso_e0 iso_e1 iso_x_num iso_x_den iso_y_num iso_y_den].
  assert (pe : modulus (WCurve.c_f e0) = Cert_Isog.p_bls) by (rewrite p0; exact pi). rewrite pi in Hp.
  assert (A0 : val (WCurve.c_a e0) = Cert_Isog.a_bls) by (rewrite a0; vm_compute; reflexivity).
  assert (B0 : val (WCurve.c_b e0) = Cert_Isog.b_bls) by (rewrite b0; vm_compute; reflexivity).
  assert (B1 : val (WCurve.c_b e1) = 4) by (rewrite b1; vm_compute; reflexivity).
  rewrite pe, A0, B0, B1. split; [|auto]. split; [exact W0|]. split; [exact W1|]. split; [rewrite ef; reflexivity|].
  split; [rewrite a1; vm_compute; reflexivity|]. do 4 (split; [assumption|]).
  apply (params_ok _ 14); [exact Hp|exact Cert_Isog.params_bls].
Qed.

(** *** facts about points *)
Lemma curve_eqb_eq e1 e2 : WCurve.curve_eqb e1 e2 = true <-> e1 = e2.
Proof.
  split.
  - destruct e1 as [[f] [a [fa]] [b [fb]] r [gx [fx]] [gy [fy]] h], e2 as [[f'] [a' [fa']] [b' [fb']] r' [gx' [fx']] [gy' [fy']] h'].
    unfold WCurve.curve_eqb, fp_eqb, fpelt_eqb, fp_eqb.
    cbn [WCurve.c_f WCurve.c_a WCurve.c_b WCurve.c_r WCurve.c_gx WCurve.c_gy WCurve.c_h modulus val fld].
    rewrite !andb_true_iff, !Z.eqb_eq. intuition congruence.
  - intros ->. unfold WCurve.curve_eqb, fp_eqb, fpelt_eqb, fp_eqb. rewrite !Z.eqb_refl. reflexivity.
Qed.
Lemma div_coord p x y : coord p x -> coord p y -> (p | x - y) -> x = y.
Proof. unfold coord. intros Hx Hy [c E]. assert (c = 0) by nia. lia. Qed.
Lemma wpoint_z1 e P x y : wpoint e P (Affine x y) -> val (WCurve.pz (WCurve.pc P)) = 1 ->
  val (WCurve.px (WCurve.pc P)) = x /\ val (WCurve.py (WCurve.pc P)) = y /\ won e (Affine x y).
Proof.
  intros (_ & Vx & Vy & _ & (_ & D1 & D2) & O) Z1. rewrite Z1, Z.mul_1_r in D1, D2. pose proof O as (Cx & Cy & _).
  split; [exact (div_coord _ _ _ (proj2 Vx) Cx D1)|]. split; [exact (div_coord _ _ _ (proj2 Vy) Cy D2)|exact O].
Qed.
Lemma wpoint_tuple m P A : wpoint (iso_e0 m) P A -> tuple m P.
Proof. intros (_ & Vx & Vy & _). split; assumption. Qed.
Lemma not_square p (Hp : prime p) d sl : InstP.nonsq_check p d sl = true -> ~ square_mod p d.
Proof.
  intros H [y D]. destruct (InstP.nonsq_ok p Hp d sl H) as [H2 N]. apply of_Z_div in D; [|lia]. apply (N (of_Z p y)).
  etransitivity; [symmetry; apply of_Z_mul|exact D].
Qed.
Lemma eqm_cubic p a b x x0 v : (p | x - x0) -> (p | x0 * x0 * x0 + a * x0 + b - v) -> (p | x * x * x + a * x + b - v).
Proof.
  intros D E. replace (x * x * x + a * x + b - v) with ((x - x0) * (x * x + x * x0 + x0 * x0 + a) + (x0 * x0 * x0 + a * x0 + b - v)) by ring.
  apply Z.divide_add_r; [apply Z.divide_mul_l, D|exact E].
Qed.

(** *** C45 *)
(** the map the code builds is the 3-isogeny of RFC 9380 between the two curves it names *)
Lemma c45_shipped : exists m, get_isogeny_secp256k1 = Ret m /\ SECP256K1_3ISO = Ret (iso_e0 m) /\ SECP256K1 = Ret (iso_e1 m) /\ isog m iso3_secp256k1.
Proof. destruct secp_full as (m & H1 & H2 & H3 & H4 & _). eauto. Qed.
Lemma secp_no_zero m x y : get_isogeny_secp256k1 = Ret m -> won (iso_e0 m) (Affine x y) ->
  ~ (modulus (WCurve.c_f (iso_e0 m)) | peval (i_xd iso3_secp256k1) x).
Proof.
  intros Em (_ & _ & O) D. destruct secp_full as (m' & Em' & _ & _ & _ & Ep & Ea & Eb & Hp & _). rewrite Em in Em'. injection Em' as <-.
  rewrite Ep, Ea, Eb in *. apply (zeros_ok _ _ _ _ _ Hp Cert_Isog.zeros_secp) in D. destruct D as (r & [<-|[]] & D).
  apply (not_square _ Hp _ _ Cert_Isog.nonsq_secp). exists y.
  assert (D7 : (Cert_Isog.p_secp | x * x * x + Cert_Isog.a_secp * x + 1771 - 7)).
  { apply (eqm_cubic _ _ _ _ _ _ D). apply Z.mod_divide; [vm_compute; discriminate|vm_compute; reflexivity]. }
  replace (y * y - 7) with ((1 * (y * y) - (x * x * x + 0 * (x * x) + Cert_Isog.a_secp * x + 1771)) + (x * x * x + Cert_Isog.a_secp * x + 1771 - 7)) by ring.
  apply Z.divide_add_r; assumption.
Qed.
(** push looks at X and Y only: it returns the image of (X, Y) if that is a point of the domain and panics if it is not;
    no point of the domain makes a denominator vanish *)
Lemma c45_exact : forall m P, get_isogeny_secp256k1 = Ret m -> tuple m P ->
  let X := val (WCurve.px (WCurve.pc P)) in let Y := val (WCurve.py (WCurve.pc P)) in
  (won (iso_e0 m) (Affine X Y) ->
     exists Q X' Y', iso_push m P = Ret Q /\ wpoint (iso_e1 m) Q (Affine X' Y') /\ image m iso3_secp256k1 X Y X' Y')
  /\ (~ won (iso_e0 m) (Affine X Y) -> iso_push m P = Panic "not valid point").
Proof.
  intros m P Em T. cbn zeta. destruct c45_shipped as (m' & Em' & _ & _ & W). rewrite Em in Em'. injection Em' as <-.
  destruct (push_exact m _ P W T) as [H1 H2]. cbn zeta in H1, H2. split; intro H.
  - destruct (H1 H (secp_no_zero m _ _ Em H)) as (Q & X' & Y' & E & HQ & _ & I). exists Q, X', Y'. split; [exact E|]. split; [exact HQ|].
    apply I. split; reflexivity.
  - apply H2. left. exact H.
Qed.
(** in particular push is total on points with z = 1, and its result is their image, a point of secp256k1 *)
Lemma c45_normalised : forall m P x y, get_isogeny_secp256k1 = Ret m -> wpoint (iso_e0 m) P (Affine x y) ->
  val (WCurve.pz (WCurve.pc P)) = 1 ->
  exists Q X Y, iso_push m P = Ret Q /\ wpoint (iso_e1 m) Q (Affine X Y) /\ image m iso3_secp256k1 x y X Y.
Proof.
  intros m P x y Em HP Z1. destruct (wpoint_z1 _ _ _ _ HP Z1) as (Ex & Ey & O). pose proof (c45_exact m P Em (wpoint_tuple m P _ HP)) as [H _].
  cbn zeta in H. rewrite Ex, Ey in H. exact (H O).
Qed.
(** and it sends opposite points to opposite points *)
Lemma image_neg p i x y X Y : 0 < p -> isogeny_image p i x y X Y -> isogeny_image p i x ((- y) mod p) X ((- Y) mod p).
Proof.
  intros Hp (N1 & N2 & C1 & C2 & D1 & D2). do 3 (split; [assumption|]). split; [apply Z.mod_pos_bound, Hp|]. split; [exact D1|].
  assert (E : forall t, exists c, (- t) mod p = - t + c * p) by (intro t; exists (- (- t / p)); pose proof (Z.div_mod (- t) p ltac:(lia)); lia).
  destruct (E y) as [c1 ->], (E Y) as [c2 ->].
  replace ((- Y + c2 * p) * peval (i_yd i) x - (- y + c1 * p) * peval (i_yn i) x)
    with (- (Y * peval (i_yd i) x - y * peval (i_yn i) x) + (c2 * peval (i_yd i) x - c1 * peval (i_yn i) x) * p) by ring.
  apply Z.divide_add_r; [apply Z.divide_opp_r, D2|apply Z.divide_factor_r].
Qed.
Lemma c45_opposite : forall m P P' x y, get_isogeny_secp256k1 = Ret m -> wpoint (iso_e0 m) P (Affine x y) ->
  wpoint (iso_e0 m) P' (negative (modulus (WCurve.c_f (iso_e0 m))) (Affine x y)) ->
  val (WCurve.pz (WCurve.pc P)) = 1 -> val (WCurve.pz (WCurve.pc P')) = 1 ->
  exists Q Q' X Y, iso_push m P = Ret Q /\ iso_push m P' = Ret Q' /\ wpoint (iso_e1 m) Q (Affine X Y)
    /\ wpoint (iso_e1 m) Q' (negative (modulus (WCurve.c_f (iso_e1 m))) (Affine X Y)).
Proof.
  intros m P P' x y Em HP HP' Z1 Z1'. destruct c45_shipped as (m' & Em' & _ & _ & W). rewrite Em in Em'. injection Em' as <-.
  pose proof W as (W0 & _ & E1 & _). pose proof W0 as (_ & Hp2 & _).
  destruct (wpoint_z1 _ _ _ _ HP Z1) as (Ex & Ey & O). destruct (wpoint_z1 _ _ _ _ HP' Z1') as (Ex' & Ey' & O').
  destruct (push_exact m _ P W (wpoint_tuple m P _ HP)) as [H1 _]. destruct (push_exact m _ P' W (wpoint_tuple m P' _ HP')) as [H1' _].
  cbn zeta in H1, H1'. rewrite Ex, Ey in H1. rewrite Ex', Ey' in H1'.
  destruct (H1 O (secp_no_zero m _ _ Em O)) as (Q & X & Y & EQ & HQ & _ & I). destruct (H1' O' (secp_no_zero m _ _ Em O)) as (Q' & X' & Y' & EQ' & HQ' & _ & I').
  exists Q, Q', X, Y. split; [exact EQ|]. split; [exact EQ'|]. split; [exact HQ|]. cbn [negative]. rewrite E1.
  destruct (proj1 (I' X ((- Y) mod modulus (WCurve.c_f (iso_e0 m))))) as [<- <-]; [|exact HQ'].
  apply image_neg; [lia|]. apply I. split; reflexivity.
Qed.

(** *** explicit tuples *)
Definition pt (m : Iso) (X Y Z : Z) : WCurve.Point :=
  let F := WCurve.c_f (iso_e0 m) in WCurve.mkPoint (iso_e0 m) (WCurve.mkProy (mkFpElt X F) (mkFpElt Y F) (mkFpElt Z F)).
Lemma pt_wpoint m X Y Z A : let p := modulus (WCurve.c_f (iso_e0 m)) in
  coord p X -> coord p Y -> coord p Z -> proj_of p X Y Z A -> won (iso_e0 m) A -> wpoint (iso_e0 m) (pt m X Y Z) A.
Proof.
  cbn zeta. intros CX CY CZ PO O. unfold wpoint, pt. cbn [WCurve.pe WCurve.pc WCurve.px WCurve.py WCurve.pz val].
  assert (V : forall z, coord (modulus (WCurve.c_f (iso_e0 m))) z -> valid (modulus (WCurve.c_f (iso_e0 m))) (mkFpElt z (WCurve.c_f (iso_e0 m)))).
  { intros z C. split; [|exact C]. cbn [fld]. destruct (WCurve.c_f (iso_e0 m)); reflexivity. }
  split; [reflexivity|]. repeat (split; [apply V; assumption|]). split; assumption.
Qed.
Ltac num := first [split; [vm_compute; discriminate|vm_compute; reflexivity] | apply Z.mod_divide; [vm_compute; discriminate|vm_compute; reflexivity]].
(** push panics on the identity *)
Lemma c45_identity_refuted : exists m P, get_isogeny_secp256k1 = Ret m /\ wpoint (iso_e0 m) P Infinity /\ iso_push m P = Panic "not valid point".
Proof.
  destruct secp_full as (m & Em & _ & _ & W & Ep & Ea & Eb & Hp & _). exists m, (pt m 0 1 0). split; [exact Em|].
  assert (HP : wpoint (iso_e0 m) (pt m 0 1 0) Infinity).
  { apply pt_wpoint; rewrite ?Ep; [num|num|num| |exact I]. split; [reflexivity|]. split; [discriminate|reflexivity]. }
  split; [exact HP|]. apply (c45_exact m _ Em (wpoint_tuple m _ _ HP)). cbn [pt WCurve.pc WCurve.px WCurve.py val].
  intros (_ & _ & D). rewrite Ep, Ea, Eb in D. apply Z.mod_divide in D; [|vm_compute; discriminate]. vm_compute in D. discriminate.
Qed.
(** and on a representative with z = 2 of a point whose representative with z = 1 it accepts *)
Lemma c45_unnormalised_refuted : exists m P P' A Q, get_isogeny_secp256k1 = Ret m
  /\ wpoint (iso_e0 m) P A /\ wpoint (iso_e0 m) P' A /\ iso_push m P = Ret Q /\ iso_push m P' = Panic "not valid point".
Proof.
  destruct secp_full as (m & Em & _ & _ & W & Ep & Ea & Eb & Hp & _).
  set (x := 0xa677f67dec3b4e958267664f4bead0c300959b89cdfae2fbb7563af10a26088a).
  set (y := 0xb683b56744d1140cbda41b9853bb2fb7cc44b06dc61406db73c387aea4e680d3).
  set (x2 := (2 * x) mod Cert_Isog.p_secp). set (y2 := (2 * y) mod Cert_Isog.p_secp).
  assert (O : won (iso_e0 m) (Affine x y)) by (unfold WPoints.won, on_cubic; rewrite Ep, Ea, Eb; split; [num|]; split; num).
  assert (HP : wpoint (iso_e0 m) (pt m x y 1) (Affine x y)).
  { apply pt_wpoint; rewrite ?Ep; [num|num|num| |exact O]. split; [discriminate|]. split; num. }
  assert (HP' : wpoint (iso_e0 m) (pt m x2 y2 2) (Affine x y)).
  { apply pt_wpoint; rewrite ?Ep; [num|num|num| |exact O]. split; [discriminate|]. split; num. }
  destruct (c45_normalised m _ _ _ Em HP eq_refl) as (Q & X & Y & EQ & _). exists m, (pt m x y 1), (pt m x2 y2 2), (Affine x y), Q.
  split; [exact Em|]. split; [exact HP|]. split; [exact HP'|]. split; [exact EQ|].
  apply (c45_exact m _ Em (wpoint_tuple m _ _ HP')). cbn [pt WCurve.pc WCurve.px WCurve.py val].
  intros (_ & _ & D). rewrite Ep, Ea, Eb in D. apply Z.mod_divide in D; [|vm_compute; discriminate]. vm_compute in D. discriminate.
Qed.

(** the base point of the domain is sent to the base point of the codomain *)
Lemma c45_generator : exists m G G' Q, get_isogeny_secp256k1 = Ret m /\ WCurve.get_generator (iso_e0 m) = Ret G /\ WCurve.get_generator (iso_e1 m) = Ret G'
  /\ iso_push m G = Ret Q /\ wpoint (iso_e1 m) G' (Affine (Instances.w_gx Instances.std_SECP256K1) (Instances.w_gy Instances.std_SECP256K1))
  /\ wpoint (iso_e1 m) Q (Affine (Instances.w_gx Instances.std_SECP256K1) (Instances.w_gy Instances.std_SECP256K1)).
Proof.
  destruct secp_full as (m & Em & EI & EC & W & Ep & Ea & Eb & Hp & _).
  destruct InstProps.c48_SECP256K1_3ISO as (e0 & X0 & _ & _ & _ & _ & _ & _ & _ & _ & G & EG & HG & _). rewrite EI in X0. injection X0 as <-.
  destruct InstProps.c48_SECP256K1 as (e1 & X1 & _ & _ & _ & _ & _ & _ & _ & _ & G' & EG' & HG' & _). rewrite EC in X1. injection X1 as <-.
  pose proof W as (W0 & _).
  assert (Z1 : val (WCurve.pz (WCurve.pc G)) = 1) by (apply (new_point_z (iso_e0 m) (WCurve.c_gx (iso_e0 m)) (WCurve.c_gy (iso_e0 m)) G W0); exact EG).
  destruct (wpoint_z1 _ _ _ _ HG Z1) as (Ex & Ey & O).
  pose proof (image_ok _ _ _ _ _ _ _ _ _ Hp Cert_Isog.gen_secp) as IM. pose proof (proj1 IM) as N.
  destruct (push_exact m _ G W (wpoint_tuple m _ _ HG)) as [H _]. cbn zeta in H. rewrite Ex, Ey in H.
  destruct (H O) as (Q & X & Y & EQ & HQ & _ & I); [rewrite Ep; exact N|]. exists m, G, G', Q.
  do 4 (split; [assumption|]). split; [exact HG'|].
  destruct (proj1 (I (Instances.w_gx Instances.std_SECP256K1) (Instances.w_gy Instances.std_SECP256K1))) as [-> ->]; [|exact HQ].
  unfold image. rewrite Ep. exact IM.
Qed.

(** *** C46 *)
(** the map the code builds is the 11-isogeny of RFC 9380 between the two curves it names *)
Lemma c46_shipped : exists m, get_isogeny_bls12381g1 = Ret m /\ BLS12381G1_11ISO = Ret (iso_e0 m) /\ BLS12381G1 = Ret (iso_e1 m) /\ isog m iso11_bls12381g1.
Proof. destruct bls_full as (m & H1 & H2 & H3 & H4 & _). eauto. Qed.
Lemma bls_zero m x : get_isogeny_bls12381g1 = Ret m -> coord (modulus (WCurve.c_f (iso_e0 m))) x ->
  (modulus (WCurve.c_f (iso_e0 m)) | peval (i_xd iso11_bls12381g1) x) <-> In x kernel11.
Proof.
  intros Em C. destruct bls_full as (m' & Em' & _ & _ & _ & Ep & Ea & Eb & Hp & _). rewrite Em in Em'. injection Em' as <-. rewrite Ep in *.
  rewrite (zeros_ok _ _ _ _ x Hp Cert_Isog.zeros_bls). split.
  - intros (r & I & D). assert (Cr : coord Cert_Isog.p_bls r).
    { revert I. generalize r. apply Forall_forall. unfold kernel11. repeat (constructor; [num|]). constructor. }
    rewrite (div_coord _ _ _ C Cr D). exact I.
  - intro I. exists x. split; [exact I|]. exists 0. lia.
Qed.
(** push looks at X and Y only: it returns the image of (X, Y) if that is a point of the domain outside the kernel, and panics
    in all other cases *)
Lemma c46_exact : forall m P, get_isogeny_bls12381g1 = Ret m -> tuple m P ->
  let X := val (WCurve.px (WCurve.pc P)) in let Y := val (WCurve.py (WCurve.pc P)) in
  (won (iso_e0 m) (Affine X Y) -> ~ In X kernel11 ->
     exists Q X' Y', iso_push m P = Ret Q /\ wpoint (iso_e1 m) Q (Affine X' Y') /\ image m iso11_bls12381g1 X Y X' Y')
  /\ (~ won (iso_e0 m) (Affine X Y) \/ In X kernel11 -> iso_push m P = Panic "not valid point").
Proof.
  intros m P Em T. cbn zeta. destruct c46_shipped as (m' & Em' & _ & _ & W). rewrite Em in Em'. injection Em' as <-.
  destruct (push_exact m _ P W T) as [H1 H2]. cbn zeta in H1, H2. pose proof (bls_zero m _ Em (proj2 (proj1 T))) as Z. rewrite Z in H1, H2. split.
  - intros H N. destruct (H1 H N) as (Q & X' & Y' & E & HQ & _ & I). exists Q, X', Y'. split; [exact E|]. split; [exact HQ|].
    apply I. split; reflexivity.
  - exact H2.
Qed.
(** on points with z = 1: the image, a point of the curve, unless the point is in the kernel *)
Lemma c46_normalised : forall m P x y, get_isogeny_bls12381g1 = Ret m -> wpoint (iso_e0 m) P (Affine x y) ->
  val (WCurve.pz (WCurve.pc P)) = 1 ->
  (~ In x kernel11 -> exists Q X Y, iso_push m P = Ret Q /\ wpoint (iso_e1 m) Q (Affine X Y) /\ image m iso11_bls12381g1 x y X Y)
  /\ (In x kernel11 -> iso_push m P = Panic "not valid point").
Proof.
  intros m P x y Em HP Z1. destruct (wpoint_z1 _ _ _ _ HP Z1) as (Ex & Ey & O). pose proof (c46_exact m P Em (wpoint_tuple m P _ HP)) as [H1 H2].
  cbn zeta in H1, H2. rewrite Ex, Ey in H1, H2. split; [exact (H1 O)|]. intro I. apply H2. right. exact I.
Qed.
Lemma kernel_on : Forall (fun q => coord Cert_Isog.p_bls (fst q) /\ coord Cert_Isog.p_bls (snd q)
  /\ (Cert_Isog.p_bls | 1 * (snd q * snd q) - (fst q * fst q * fst q + 0 * (fst q * fst q) + Cert_Isog.a_bls * fst q + Cert_Isog.b_bls))) (combine kernel11 kernel11_y).
Proof. unfold kernel11, kernel11_y. cbn [combine]. repeat (constructor; [cbn [fst snd]; split; [num|]; split; num|]). constructor. Qed.
(** every abscissa of the kernel is that of a point of the domain with z = 1, on which push panics; the isogeny sends it to the
    identity *)
Lemma c46_kernel_refuted : forall x, In x kernel11 -> exists m P y, get_isogeny_bls12381g1 = Ret m
  /\ wpoint (iso_e0 m) P (Affine x y) /\ val (WCurve.pz (WCurve.pc P)) = 1 /\ iso_push m P = Panic "not valid point".
Proof.
  intros x I. destruct bls_full as (m & Em & _ & _ & W & Ep & Ea & Eb & Hp & _).
  assert (E : exists y, won (iso_e0 m) (Affine x y)).
  { assert (C : In x (map fst (combine kernel11 kernel11_y))) by exact I. apply in_map_iff in C. destruct C as ([x' y] & <- & C). exists y. cbn [fst].
    unfold WPoints.won, on_cubic. rewrite Ep, Ea, Eb. exact (proj1 (Forall_forall _ _) kernel_on (x', y) C). }
  destruct E as [y O]. exists m, (pt m x y 1), y. pose proof O as (Cx & Cy & _). split; [exact Em|].
  assert (HP : wpoint (iso_e0 m) (pt m x y 1) (Affine x y)).
  { apply pt_wpoint; [exact Cx|exact Cy|rewrite Ep; num| |exact O]. split; [discriminate|]. split; exists 0; ring. }
  split; [exact HP|]. split; [reflexivity|]. exact (proj2 (c46_normalised m _ x y Em HP eq_refl) I).
Qed.
Lemma c46_identity_refuted : exists m P, get_isogeny_bls12381g1 = Ret m /\ wpoint (iso_e0 m) P Infinity /\ iso_push m P = Panic "not valid point".
Proof.
  destruct bls_full as (m & Em & _ & _ & W & Ep & Ea & Eb & Hp & _). exists m, (pt m 0 1 0). split; [exact Em|].
  assert (HP : wpoint (iso_e0 m) (pt m 0 1 0) Infinity).
  { apply pt_wpoint; rewrite ?Ep; [num|num|num| |exact I]. split; [reflexivity|]. split; [discriminate|reflexivity]. }
  split; [exact HP|]. apply (c46_exact m _ Em (wpoint_tuple m _ _ HP)). cbn [pt WCurve.pc WCurve.px WCurve.py val]. left.
  intros (_ & _ & D). rewrite Ep, Ea, Eb in D. apply Z.mod_divide in D; [|vm_compute; discriminate]. vm_compute in D. discriminate.
Qed.
Lemma c46_unnormalised_refuted : exists m P P' A Q, get_isogeny_bls12381g1 = Ret m
  /\ wpoint (iso_e0 m) P A /\ wpoint (iso_e0 m) P' A /\ iso_push m P = Ret Q /\ iso_push m P' = Panic "not valid point".
Proof.
  destruct bls_full as (m & Em & _ & _ & W & Ep & Ea & Eb & Hp & _).
  set (x := 0x6a0ead062ba73a09984eb7351a2d851bc817625345ce033a6eb7d78242b6466c877e022dda626a79ddb85bce57997e2).
  set (y := 0x3b89d8bb9326270e46b6b74e19f7b3f10082fbf1a46df72da50c6571b969afc570d6529350b1b9b05ab4fe5c29920b4).
  set (x2 := (2 * x) mod Cert_Isog.p_bls). set (y2 := (2 * y) mod Cert_Isog.p_bls).
  assert (O : won (iso_e0 m) (Affine x y)) by (unfold WPoints.won, on_cubic; rewrite Ep, Ea, Eb; split; [num|]; split; num).
  assert (HP : wpoint (iso_e0 m) (pt m x y 1) (Affine x y)).
  { apply pt_wpoint; rewrite ?Ep; [num|num|num| |exact O]. split; [discriminate|]. split; num. }
  assert (HP' : wpoint (iso_e0 m) (pt m x2 y2 2) (Affine x y)).
  { apply pt_wpoint; rewrite ?Ep; [num|num|num| |exact O]. split; [discriminate|]. split; num. }
  destruct (proj1 (c46_normalised m _ _ _ Em HP eq_refl)) as (Q & X & Y & EQ & _).
  { unfold kernel11. cbn [In]. intro H. repeat (destruct H as [H|H]; [vm_compute in H; discriminate|]). exact H. }
  exists m, (pt m x y 1), (pt m x2 y2 2), (Affine x y), Q.
  split; [exact Em|]. split; [exact HP|]. split; [exact HP'|]. split; [exact EQ|].
  apply (c46_exact m _ Em (wpoint_tuple m _ _ HP')). cbn [pt WCurve.pc WCurve.px WCurve.py val]. left.
  intros (_ & _ & D). rewrite Ep, Ea, Eb in D. apply Z.mod_divide in D; [|vm_compute; discriminate]. vm_compute in D. discriminate.
Qed.

(** the base point of the domain is sent to the base point of the codomain *)
Lemma c46_generator : exists m G G' Q, get_isogeny_bls12381g1 = Ret m /\ WCurve.get_generator (iso_e0 m) = Ret G /\ WCurve.get_generator (iso_e1 m) = Ret G'
  /\ iso_push m G = Ret Q /\ wpoint (iso_e1 m) G' (Affine (Instances.w_gx Instances.std_BLS12381G1) (Instances.w_gy Instances.std_BLS12381G1))
  /\ wpoint (iso_e1 m) Q (Affine (Instances.w_gx Instances.std_BLS12381G1) (Instances.w_gy Instances.std_BLS12381G1)).
Proof.
  destruct bls_full as (m & Em & EI & EC & W & Ep & Ea & Eb & Hp & _).
  destruct InstProps.c48_BLS12381G1_11ISO as (e0 & X0 & _ & _ & _ & _ & _ & _ & _ & _ & G & EG & HG & _). rewrite EI in X0. injection X0 as <-.
  destruct InstProps.c48_BLS12381G1 as (e1 & X1 & _ & _ & _ & _ & _ & _ & _ & _ & G' & EG' & HG' & _). rewrite EC in X1. injection X1 as <-.
  pose proof W as (W0 & _).
  assert (Z1 : val (WCurve.pz (WCurve.pc G)) = 1) by (apply (new_point_z (iso_e0 m) (WCurve.c_gx (iso_e0 m)) (WCurve.c_gy (iso_e0 m)) G W0); exact EG).
  destruct (wpoint_z1 _ _ _ _ HG Z1) as (Ex & Ey & O).
  pose proof (image_ok _ _ _ _ _ _ _ _ _ Hp Cert_Isog.gen_bls) as IM. pose proof (proj1 IM) as N.
  destruct (push_exact m _ G W (wpoint_tuple m _ _ HG)) as [H _]. cbn zeta in H. rewrite Ex, Ey in H.
  destruct (H O) as (Q & X & Y & EQ & HQ & _ & I); [rewrite Ep; exact N|]. exists m, G, G', Q.
  do 4 (split; [assumption|]). split; [exact HG'|].
  destruct (proj1 (I (Instances.w_gx Instances.std_BLS12381G1) (Instances.w_gy Instances.std_BLS12381G1))) as [-> ->]; [|exact HQ].
  unfold image. rewrite Ep. exact IM.
Qed.

(** *** C47 *)
Lemma inv_ndiv p a w : prime p -> (p | w * a - 1) -> ~ (p | a).
Proof.
  intros Hp D A. assert (D1 : (p | 1)); [|apply Z.divide_1_r_nonneg in D1; destruct Hp; lia].
  replace 1 with (w * a - (w * a - 1)) by ring. apply Z.divide_sub_r; [apply Z.divide_mul_r, A|exact D].
Qed.
(** SSWU ends with new_point, so its result has z = 1 *)
Lemma sswu_map_z e z u m P : weier e -> Morphisms.wfield e -> valid (modulus (WCurve.c_f e)) z -> valid (modulus (WCurve.c_f e)) u ->
  Maps.sswu_new e z = Ret m -> Maps.sswu_map m u = Ret P -> val (WCurve.pz (WCurve.pc P)) = 1.
Proof.
  intros W0 W. destruct (MapsProps.wfield_open _ W) as (p & Hp & a & b & Hp2 & Hm & ef & ea & eb). rewrite ef. cbn [modulus].
  intros Vz Vu. destruct (valid_ex _ _ Vz) as [k ->], (valid_ex _ _ Vu) as [v ->]. intros E EP.
  destruct (MapsP.sswu_new_K p Hp Hp2 a b e ef ea eb k) as [H1 H2].
  destruct (MapsProps.sw_ok_dec p Hp Hp2 a b k) as [H|H]; [|rewrite (H2 H) in E; discriminate]. rewrite (H1 H) in E. injection E as <-.
  destruct (MapsP.sswu_map_K p Hp Hp2 Hm a b e ef ea eb k v H) as (y & _ & _ & Em). rewrite Em in EP. exact (new_point_z _ _ _ _ W0 EP).
Qed.
Lemma isog_wfield m i : isog m i -> sqrt_modulus (modulus (WCurve.c_f (iso_e0 m))) -> Morphisms.wfield (iso_e0 m).
Proof. intros ((Hp & Hp2 & Va & Vb & _) & _) S. split; [exact Hp|]. split; [exact Hp2|]. split; [exact S|]. split; assumption. Qed.
(** new accepts exactly the codomain of the isogeny together with parameters that SSWU accepts for its domain *)
Lemma c47_new : forall m i e z, isog m i -> sqrt_modulus (modulus (WCurve.c_f (iso_e0 m))) -> valid (modulus (WCurve.c_f (iso_e0 m))) z ->
  let ok := e = iso_e1 m /\ Verif.Spec.Maps.sswu_params (modulus (WCurve.c_f (iso_e0 m))) (val (WCurve.c_a (iso_e0 m))) (val (WCurve.c_b (iso_e0 m))) (val z) in
  (ok -> exists s, sswuab0_new e z m = Ret s) /\ (~ ok -> sswuab0_new e z m = Panic "wrong input parameters").
Proof.
  intros m i e z W S Vz ok. destruct (MapsProps.c40_new (iso_e0 m) z (isog_wfield m i W S) Vz) as [N1 N2].
  pose proof W as (W0 & (Hp & Hp2 & _ & _ & NR) & E1 & A1 & _). unfold sswuab0_new.
  assert (X : e = iso_e1 m -> WCurve.curve_eqb e (iso_e1 m) && xorb (is_zero (WCurve.c_a e)) (is_zero (WCurve.c_b e)) = true).
  { intros ->. rewrite (proj2 (curve_eqb_eq _ _) eq_refl). cbn [andb]. unfold is_zero. rewrite A1. change (0 =? 0) with true.
    destruct (Z.eqb_spec (val (WCurve.c_b (iso_e1 m))) 0) as [Z|Z]; [|reflexivity]. exfalso. apply (NR 0). rewrite A1, Z. exists 0. ring. }
  split; intro H.
  - destruct H as [Ee HS]. rewrite (X Ee). cbn [negb]. destruct (N1 HS) as (s & ->). cbn [bind]. eexists. reflexivity.
  - destruct (WCurve.curve_eqb e (iso_e1 m)) eqn:C; [|reflexivity]. apply curve_eqb_eq in C. specialize (X C). cbn [andb] in X |- *. rewrite X. cbn [negb].
    rewrite N2; [reflexivity|]. intro HS. apply H. split; assumption.
Qed.
(** map(u) is the image under the isogeny of the point SSWU gives on its domain, and a panic if that point is in the kernel *)
Lemma c47_map : forall m i e z s u, isog m i -> sqrt_modulus (modulus (WCurve.c_f (iso_e0 m))) -> valid (modulus (WCurve.c_f (iso_e0 m))) z ->
  valid (modulus (WCurve.c_f (iso_e0 m))) u -> sswuab0_new e z m = Ret s ->
  let p := modulus (WCurve.c_f (iso_e0 m)) in
  exists x y, Verif.Spec.Maps.sswu_point p (val (WCurve.c_a (iso_e0 m))) (val (WCurve.c_b (iso_e0 m))) (val z) (val u) x y
    /\ won (iso_e0 m) (Affine x y)
    /\ (~ (p | peval (i_xd i) x) -> exists Q X Y, sswuab0_map s u = Ret Q /\ wpoint e Q (Affine X Y) /\ image m i x y X Y)
    /\ ((p | peval (i_xd i) x) -> sswuab0_map s u = Panic "not valid point").
Proof.
  intros m i e z s u W S Vz Vu E. cbn zeta. pose proof (isog_wfield m i W S) as WF. pose proof W as (W0 & _).
  revert E. unfold sswuab0_new. destruct (WCurve.curve_eqb e (iso_e1 m)) eqn:C; [|discriminate]. apply curve_eqb_eq in C. subst e.
  destruct (negb _); [discriminate|]. destruct (Maps.sswu_new (iso_e0 m) z) as [w|] eqn:Ew; [|discriminate]. cbn [bind]. intro E. injection E as <-.
  destruct (MapsProps.c40_on_curve _ _ _ _ WF Vz Vu Ew) as (P & x & y & EP & HP & _ & _).
  destruct (MapsProps.c40_map _ _ _ _ WF Vz Vu Ew) as (P' & EP' & HS). rewrite EP in EP'. injection EP' as <-.
  pose proof (sswu_map_z _ _ _ _ _ W0 WF Vz Vu Ew EP) as Z1.
  destruct (wpoint_z1 _ _ _ _ HP Z1) as (Ex & Ey & O). exists x, y. split; [apply HS, HP|]. split; [exact O|].
  unfold sswuab0_map. cbn [s0_sswu s0_iso]. rewrite EP. cbn [bind].
  destruct (push_exact m i P W (wpoint_tuple m P _ HP)) as [H1 H2]. cbn zeta in H1, H2. rewrite Ex, Ey in H1, H2. split.
  - intro N. destruct (H1 O N) as (Q & X & Y & EQ & HQ & _ & I). exists Q, X, Y. split; [exact EQ|]. split; [exact HQ|]. apply I. split; reflexivity.
  - intro D. apply H2. right. exact D.
Qed.
Lemma secp_sqrt m : get_isogeny_secp256k1 = Ret m -> sqrt_modulus (modulus (WCurve.c_f (iso_e0 m))).
Proof.
  intro Em. destruct secp_full as (m' & Em' & _ & _ & _ & Ep & _). rewrite Em in Em'. injection Em' as <-. rewrite Ep. left. vm_compute. reflexivity.
Qed.
Lemma bls_sqrt m : get_isogeny_bls12381g1 = Ret m -> sqrt_modulus (modulus (WCurve.c_f (iso_e0 m))).
Proof.
  intro Em. destruct bls_full as (m' & Em' & _ & _ & _ & Ep & _). rewrite Em in Em'. injection Em' as <-. rewrite Ep. left. vm_compute. reflexivity.
Qed.
(** over the 3-isogeny to secp256k1 the map is total *)
Lemma c47_secp256k1 : forall m e z s u, get_isogeny_secp256k1 = Ret m -> valid (modulus (WCurve.c_f (iso_e0 m))) z ->
  valid (modulus (WCurve.c_f (iso_e0 m))) u -> sswuab0_new e z m = Ret s ->
  exists x y Q X Y, Verif.Spec.Maps.sswu_point (modulus (WCurve.c_f (iso_e0 m))) (val (WCurve.c_a (iso_e0 m))) (val (WCurve.c_b (iso_e0 m))) (val z) (val u) x y
    /\ sswuab0_map s u = Ret Q /\ wpoint e Q (Affine X Y) /\ image m iso3_secp256k1 x y X Y.
Proof.
  intros m e z s u Em Vz Vu E. destruct c45_shipped as (m' & Em' & _ & _ & W). rewrite Em in Em'. injection Em' as <-.
  destruct (c47_map m _ e z s u W (secp_sqrt m Em) Vz Vu E) as (x & y & HS & O & H & _).
  destruct (H (secp_no_zero m x y Em O)) as (Q & X & Y & EQ & HQ & I). exists x, y, Q, X, Y. auto.
Qed.
(** over the 11-isogeny to BLS12-381 G1 it returns the image exactly when the SSWU point is outside the kernel *)
Lemma c47_bls12381g1 : forall m e z s u, get_isogeny_bls12381g1 = Ret m -> valid (modulus (WCurve.c_f (iso_e0 m))) z ->
  valid (modulus (WCurve.c_f (iso_e0 m))) u -> sswuab0_new e z m = Ret s ->
  exists x y, Verif.Spec.Maps.sswu_point (modulus (WCurve.c_f (iso_e0 m))) (val (WCurve.c_a (iso_e0 m))) (val (WCurve.c_b (iso_e0 m))) (val z) (val u) x y
    /\ (~ In x kernel11 -> exists Q X Y, sswuab0_map s u = Ret Q /\ wpoint e Q (Affine X Y) /\ image m iso11_bls12381g1 x y X Y)
    /\ (In x kernel11 -> sswuab0_map s u = Panic "not valid point").
Proof.
  intros m e z s u Em Vz Vu E. destruct c46_shipped as (m' & Em' & _ & _ & W). rewrite Em in Em'. injection Em' as <-.
  destruct (c47_map m _ e z s u W (bls_sqrt m Em) Vz Vu E) as (x & y & HS & O & H1 & H2). pose proof O as (Cx & _).
  rewrite (bls_zero m x Em Cx) in H1, H2. exists x, y. auto.
Qed.
(** a square certified by its root, which makes SSWU's last condition hold *)
Lemma params_by_root p a b z x0 r : prime p -> ~ (p | a) -> ~ (p | b) -> ~ square_mod p z -> ~ (p | z + 1) -> ~ (p | z * a) ->
  (p | x0 * (z * a) - b) -> (p | r * r - (x0 * x0 * x0 + a * x0 + b)) -> Verif.Spec.Maps.sswu_params p a b z.
Proof.
  intros Hp Ha Hb Hz H1 Hza Hx Hr. split; [exact Ha|]. split; [exact Hb|]. split; [exact Hz|]. split; [exact H1|].
  intros x Dx. exists r. unfold Verif.Spec.Maps.cubic.
  assert (D : (p | (x - x0) * (z * a))).
  { replace ((x - x0) * (z * a)) with ((x * (z * a) - b) - (x0 * (z * a) - b)) by ring. apply Z.divide_sub_r; assumption. }
  apply (prime_mult p Hp) in D. destruct D as [D|D]; [|contradiction].
  replace (r * r - (x * x * x + a * x + b)) with ((r * r - (x0 * x0 * x0 + a * x0 + b)) - (x - x0) * (x * x + x * x0 + x0 * x0 + a)) by ring.
  apply Z.divide_sub_r; [exact Hr|apply Z.divide_mul_l, D].
Qed.
Ltac nnum := let D := fresh in intro D; apply Z.mod_divide in D; [|vm_compute; discriminate]; vm_compute in D; discriminate.
Lemma square_mod_p p z : 0 < p -> square_mod p (z mod p) -> square_mod p z.
Proof.
  intros Hp [y D]. exists y. replace (y * y - z) with ((y * y - z mod p) - (z - z mod p)) by ring.
  apply Z.divide_sub_r; [exact D|]. exists (z / p). pose proof (Z.div_mod z p ltac:(lia)). lia.
Qed.
Lemma accepted m i e z : isog m i -> sqrt_modulus (modulus (WCurve.c_f (iso_e0 m))) -> e = iso_e1 m -> coord (modulus (WCurve.c_f (iso_e0 m))) z ->
  Verif.Spec.Maps.sswu_params (modulus (WCurve.c_f (iso_e0 m))) (val (WCurve.c_a (iso_e0 m))) (val (WCurve.c_b (iso_e0 m))) z ->
  exists s, sswuab0_new e (mkFpElt z (WCurve.c_f (iso_e0 m))) m = Ret s.
Proof.
  intros W S Ee Cz H. apply (c47_new m i e (mkFpElt z (WCurve.c_f (iso_e0 m))) W S); [|split; [exact Ee|exact H]].
  split; [cbn; destruct (WCurve.c_f (iso_e0 m)); reflexivity|exact Cz].
Qed.
(** the parameters of RFC 9380 are accepted: z = -11 for secp256k1 and z = 11 for BLS12-381 G1 *)
Example c47_secp256k1_ex : exists m s, get_isogeny_secp256k1 = Ret m
  /\ sswuab0_new (iso_e1 m) (mkFpElt (Cert_Isog.p_secp - 11) (WCurve.c_f (iso_e0 m))) m = Ret s.
Proof.
  destruct secp_full as (m & Em & _ & _ & W & Ep & Ea & Eb & Hp & _). exists m.
  destruct (accepted m _ (iso_e1 m) (Cert_Isog.p_secp - 11) W (secp_sqrt m Em) eq_refl) as (s & Es).
  - rewrite Ep. num.
  - rewrite Ep, Ea, Eb.
    apply (params_by_root _ _ _ _ 84696452356521335330109137840758697432857528317706937927279952333543666418577
      18364601681750688294657986852423245333803871022936718218329797708983130841480 Hp); [nnum|nnum| |nnum|nnum|num|num].
    replace (Cert_Isog.p_secp - 11) with ((-11) mod Cert_Isog.p_secp) by (vm_compute; reflexivity).
    intro Q. apply square_mod_p in Q; [|vm_compute; reflexivity]. revert Q. exact (not_square _ Hp _ _ Cert_Isog.nonsq_secp_z).
  - exists s. split; [exact Em|exact Es].
Qed.
Example c47_bls12381g1_ex : exists m s, get_isogeny_bls12381g1 = Ret m /\ sswuab0_new (iso_e1 m) (mkFpElt 11 (WCurve.c_f (iso_e0 m))) m = Ret s.
Proof.
  destruct bls_full as (m & Em & _ & _ & W & Ep & Ea & Eb & Hp & _). exists m.
  destruct (accepted m _ (iso_e1 m) 11 W (bls_sqrt m Em) eq_refl) as (s & Es).
  - rewrite Ep. num.
  - rewrite Ep, Ea, Eb.
    apply (params_by_root _ _ _ _ 2804858857133937099622193571436483626014013193105397454853431114229365119931628302936765775078151302032269524150292
      883926319761702754759909536142450234040420493353017578303105057331414514426056372828799438842649753623273850162620 Hp); [nnum|nnum| |nnum|nnum|num|num].
    exact (not_square _ Hp _ _ Cert_Isog.nonsq_bls).
  - exists s. split; [exact Em|exact Es].
Qed.
(** with z = 11 the map to BLS12-381 G1 panics on this u, whose SSWU point is in the kernel of the isogeny *)
Lemma c47_bls12381g1_refuted : exists m s u, get_isogeny_bls12381g1 = Ret m
  /\ sswuab0_new (iso_e1 m) (mkFpElt 11 (WCurve.c_f (iso_e0 m))) m = Ret s
  /\ valid (modulus (WCurve.c_f (iso_e0 m))) u
  /\ val u = 2996364799790106798135996267804732426571918304256045973420659328602593967274666773429484758551777178205846782232816
  /\ sswuab0_map s u = Panic "not valid point".
Proof.
  destruct c47_bls12381g1_ex as (m & s & Em & Es).
  destruct bls_full as (m' & Em' & _ & _ & W & Ep & Ea & Eb & Hp & _). rewrite Em in Em'. injection Em' as <-.
  set (un := 2996364799790106798135996267804732426571918304256045973420659328602593967274666773429484758551777178205846782232816).
  exists m, s, (mkFpElt un (WCurve.c_f (iso_e0 m))). split; [exact Em|]. split; [exact Es|].
  assert (V : forall z, coord (modulus (WCurve.c_f (iso_e0 m))) z -> valid (modulus (WCurve.c_f (iso_e0 m))) (mkFpElt z (WCurve.c_f (iso_e0 m)))).
  { intros z C. split; [cbn; destruct (WCurve.c_f (iso_e0 m)); reflexivity|exact C]. }
  assert (Vu : valid (modulus (WCurve.c_f (iso_e0 m))) (mkFpElt un (WCurve.c_f (iso_e0 m)))) by (apply V; rewrite Ep; num).
  assert (Vz : valid (modulus (WCurve.c_f (iso_e0 m))) (mkFpElt 11 (WCurve.c_f (iso_e0 m)))) by (apply V; rewrite Ep; num).
  split; [exact Vu|]. split; [reflexivity|].
  destruct (c47_bls12381g1 m _ _ s _ Em Vz Vu Es) as (x & y & HS & _ & H). apply H. cbn [val] in HS.
  rewrite Ep, Ea, Eb in HS. destruct HS as (x1 & (C1 & _ & H1) & Cx & _ & _ & _ & Hsq & _).
  set (k := 162902306530757011687648381458039960905879760854007434532151803806422383239905014872915974221245198317567396330740).
  assert (E1 : x1 = k).
  { apply (div_coord Cert_Isog.p_bls); [exact C1|num|].
    pose proof (PolyL.pident_ok _ Hp _ _ _ Cert_Isog.n_inv 0) as D1. pose proof (PolyL.pident_ok _ Hp _ _ _ Cert_Isog.n_kernel 0) as D2.
    cbn [PolyL.pexp_ev peval Cert_Isog.n_exp Cert_Isog.t_exp] in D1, D2. fold k in D2. change Cert_Isog.u_bls with un in D1, D2.
    repeat rewrite Z.mul_0_l in D1. repeat rewrite Z.mul_0_l in D2. repeat rewrite Z.add_0_r in D1. repeat rewrite Z.add_0_r in D2.
    set (n := 11 * (un * un) * (11 * (un * un)) + 11 * (un * un)) in *.
    assert (NA : ~ (Cert_Isog.p_bls | Cert_Isog.a_bls * n)) by (exact (inv_ndiv _ _ _ Hp D1)).
    assert (D : (Cert_Isog.p_bls | (x1 - k) * (Cert_Isog.a_bls * n))).
    { replace ((x1 - k) * (Cert_Isog.a_bls * n)) with ((x1 * (Cert_Isog.a_bls * n) + Cert_Isog.b_bls * (n + 1)) - (k * (Cert_Isog.a_bls * n) + Cert_Isog.b_bls * (n + 1) - 0)) by ring.
      apply Z.divide_sub_r; [apply H1; intro D; apply NA, Z.divide_mul_r, D|exact D2]. }
    apply (prime_mult _ Hp) in D. destruct D as [D|D]; [exact D|contradiction]. }
  rewrite E1 in Hsq. rewrite Hsq; [left; reflexivity|].
  exists 1739429656926185439904361090065954043179437539053338275424116272461408956201590520069915105617686132352055041512622. num.
Qed.
