(** The Edwards model on representatives of points. *)
From Coq Require Import ZArith Znumtheory Lia String Bool List Ring Field.
From Verif.Math Require Import Fld Zp Pow Residue Edwards.
From Verif.Spec Require Import Arith Curve.
From Verif.Model Require Import Out BigInt PrimeField Scalar ECurve.
From Verif.Proofs Require Import FieldP FieldProps BytesP SerialProps ScalarProps CurveP LadderP.
From Verif.Proofs Require WeierP.
Import ListNotations.
Open Scope Z_scope.

(** the polynomials as the code computes them *)
Section Code.
  Variable K : Fld.
  Add Field KF : (Fth K).
  Open Scope fld_scope.
  Variables a d : K.
  Definition erep (X Y T Z : K) (P : K * K) : Prop :=
    Z <> 0 /\ X = fst P * Z /\ Y = snd P * Z /\ T = fst P * snd P * Z.
  Definition etest (X Y T Z : K) : Prop :=
    X * X * a + Y * Y - (T * T * d + Z * Z) = 0 /\ X * Y - T * Z = 0.

  Lemma erep_on X Y T Z P : erep X Y T Z P -> (etest X Y T Z <-> eon K a d P).
  Proof.
    destruct P as [x y]. unfold erep, etest, eon. cbn [fst snd]. intros (HZ & -> & -> & ->).
    rewrite <- (Fsub_zero K (a * (x * x) + y * y)). split.
    - intros [E _]. assert (M : (Z * Z) * (a * (x * x) + y * y - (1 + d * (x * x) * (y * y))) = 0) by (rewrite <- E; ring).
      destruct (Fmul_integral K _ _ M) as [N|N]; [|exact N]. destruct (Fmul_nonzero K Z Z HZ HZ N).
    - intro E. split; [|ring].
      transitivity (Z * Z * (a * (x * x) + y * y - (1 + d * (x * x) * (y * y)))); [ring|rewrite E; ring].
  Qed.
  Lemma erep_one x y : erep x y (x * y) 1 (x, y).
  Proof. unfold erep. cbn. split; [apply F_1_neq_0|]. repeat split; ring. Qed.
  Lemma erep_zero : erep 0 1 0 1 (ezero K).
  Proof. unfold erep, ezero. cbn. split; [apply F_1_neq_0|]. repeat split; ring. Qed.
  Lemma erep_opp X Y T Z P : erep X Y T Z P -> erep (- X) Y (- T) Z (eopp K P).
  Proof. unfold erep, eopp. cbn [fst snd]. intros (HZ & -> & -> & ->). split; [exact HZ|]. repeat split; ring. Qed.

  Definition code_add (x1 y1 t1 z1 x2 y2 t2 z2 : K) : K * K * K * K :=
    let aa := x1 * x2 in let bb := y1 * y2 in let cc := d * t1 * t2 in let dd := z1 * z2 in
    let ee := (x1 + y1) * (x2 + y2) - aa - bb in
    let ff := dd - cc in let gg := dd + cc in let hh := bb - aa * a in
    (ee * ff, gg * hh, ee * hh, ff * gg).
  Lemma code_add_rep X1 Y1 T1 Z1 X2 Y2 T2 Z2 P Q : erep X1 Y1 T1 Z1 P -> erep X2 Y2 T2 Z2 Q ->
    1 + d * exy K P Q <> 0 -> 1 - d * exy K P Q <> 0 ->
    let '(x, y, t, z) := code_add X1 Y1 T1 Z1 X2 Y2 T2 Z2 in erep x y t z (eadd K a d P Q).
  Proof.
    destruct P as [x1 y1], Q as [x2 y2]. unfold erep, code_add, eadd, exy. cbn [fst snd].
    intros (H1 & -> & -> & ->) (H2 & -> & -> & ->) Dp Dm. split.
    - assert (E : (Z1 * Z2 - d * (x1 * y1 * Z1) * (x2 * y2 * Z2)) * (Z1 * Z2 + d * (x1 * y1 * Z1) * (x2 * y2 * Z2)) =
        (Z1 * Z2) * (Z1 * Z2) * ((1 - d * (x1 * x2 * (y1 * y2))) * (1 + d * (x1 * x2 * (y1 * y2))))) by ring.
      rewrite E. apply Fmul_nonzero; [|apply Fmul_nonzero; assumption].
      apply Fmul_nonzero; apply Fmul_nonzero; assumption.
    - repeat split; field; auto.
  Qed.

  Lemma erep_cross X1 Y1 T1 Z1 X2 Y2 T2 Z2 P Q : erep X1 Y1 T1 Z1 P -> erep X2 Y2 T2 Z2 Q ->
    (X1 * Z2 = Z1 * X2 /\ Y1 * Z2 = Z1 * Y2 /\ T1 * Z2 = Z1 * T2 <-> P = Q).
  Proof.
    destruct P as [x1 y1], Q as [x2 y2]. unfold erep. cbn [fst snd].
    intros (H1 & -> & -> & ->) (H2 & -> & -> & ->). split.
    - intros (EX & EY & _). assert (N : Z1 * Z2 <> 0) by (apply Fmul_nonzero; assumption).
      f_equal; apply (Fcancel_l K (Z1 * Z2)); try exact N.
      + transitivity (x1 * Z1 * Z2); [ring|]. rewrite EX. ring.
      + transitivity (y1 * Z1 * Z2); [ring|]. rewrite EY. ring.
    - intro E. pose proof (f_equal fst E) as Ex. pose proof (f_equal snd E) as Ey. cbn in Ex, Ey. subst x2 y2. repeat split; ring.
  Qed.
  Lemma erep_fun X Y T Z P Q : erep X Y T Z P -> erep X Y T Z Q -> P = Q.
  Proof. intros HP HQ. apply (erep_cross _ _ _ _ _ _ _ _ _ _ HP HQ). repeat split; ring. Qed.
  Lemma erep_inv X Y T Z P : erep X Y T Z P -> X * Finv Z = fst P /\ Y * Finv Z = snd P.
  Proof. unfold erep. intros (HZ & -> & -> & ->). split; field; exact HZ. Qed.

  Hypothesis two : (2 : K) <> 0.
  Hypothesis a_sq : exists s : K, s * s = a.
  Hypothesis a_nz : a <> 0.
  Hypothesis d_nonsq : forall s : K, s * s <> d.
  Lemma x_zero_y y : eon K a d (0, y) -> y = 1 \/ y = - (1).
  Proof.
    unfold eon. intro E. apply Fsqr_eq. transitivity (a * (0 * 0) + y * y); [ring|]. rewrite E. ring.
  Qed.
  Lemma one_sq : eon K a d (0, 1). Proof. unfold eon. ring. Qed.
  Lemma opp_one_sq : eon K a d (0, - (1)). Proof. unfold eon. ring. Qed.
  Lemma opp1_nz : - (1) <> (0 : K).
  Proof. intro E. apply (F_1_neq_0 K). transitivity (- - (1) : K); [ring|]. rewrite E. ring. Qed.
  Lemma opp1_neq1 : (1 : K) <> - (1).
  Proof. intro E. apply two. transitivity (1 - - (1) : K); [ring|]. rewrite <- E. ring. Qed.
  (** every tuple passing the curve test is a representative, except the zero tuple *)
  Lemma etest_cases X Y T Z : etest X Y T Z ->
    (X = 0 /\ Y = 0 /\ T = 0 /\ Z = 0) \/ (exists P, erep X Y T Z P /\ eon K a d P).
  Proof.
    intro H. pose proof H as [E1 E2].
    destruct (Feqd Z 0) as [->|HZ].
    - left. assert (P : X * Y = 0) by (transitivity (X * Y - T * 0); [ring|exact E2]).
      apply (proj1 (Fsub_zero K _ _)) in E1.
      destruct (Fmul_integral K _ _ P) as [->| ->].
      + assert (S : Y * Y = d * (T * T)) by (transitivity (0 * 0 * a + Y * Y); [ring|]; rewrite E1; ring).
        destruct (Feqd T 0) as [->|HT].
        * split; [reflexivity|]. split; [|auto]. apply (Fsqr_zero K). rewrite S. ring.
        * destruct (sq_ratio K d d_nonsq Y T HT S).
      + destruct a_sq as [s Hs].
        assert (S : (s * X) * (s * X) = d * (T * T)).
        { transitivity (X * X * (s * s) + 0 * 0); [ring|]. rewrite Hs, E1. ring. }
        destruct (Feqd T 0) as [->|HT].
        * split; [|auto]. assert (S0 : s * X = 0) by (apply (Fsqr_zero K); rewrite S; ring).
          destruct (Fmul_integral K _ _ S0) as [Z0|Z0]; [|exact Z0]. exfalso. apply a_nz. rewrite <- Hs, Z0. ring.
        * destruct (sq_ratio K d d_nonsq (s * X) T HT S).
    - right. exists (X / Z, Y / Z).
      assert (R : erep X Y T Z (X / Z, Y / Z)).
      { unfold erep. cbn [fst snd]. apply (proj1 (Fsub_zero K _ _)) in E2. split; [exact HZ|]. split; [field; exact HZ|]. split; [field; exact HZ|].
        transitivity (T * Z / Z); [field; exact HZ|]. rewrite <- E2. field. exact HZ. }
      split; [exact R|]. apply (erep_on _ _ _ _ _ R). exact H.
  Qed.

  (** x from y, as decode computes it *)
  Definition xx (y : K) : K := (y * y + - (1)) / (d * (y * y) - a).
  Lemma v_nz y : d * (y * y) - a <> 0.
  Proof.
    intro E. apply (proj1 (Fsub_zero K _ _)) in E. destruct a_sq as [s Hs]. destruct (Feqd y 0) as [->|Hy].
    - apply a_nz. rewrite <- E. ring.
    - apply (sq_ratio K d d_nonsq s y Hy). rewrite Hs, E. reflexivity.
  Qed.
  Lemma eon_xx x y : eon K a d (x, y) <-> x * x = xx y.
  Proof.
    unfold eon, xx. pose proof (v_nz y) as N. split; intro E.
    - symmetry.
      assert (E' : y * y + - (1) = x * x * (d * (y * y) - a)).
      { transitivity (a * (x * x) + y * y - a * (x * x) - 1); [ring|]. rewrite E. ring. }
      rewrite E'. field. apply v_nz.
    - assert (E' : x * x * (d * (y * y) - a) = y * y + - (1)) by (rewrite E; field; exact N).
      transitivity (a * (x * x) + (y * y + - (1)) + 1); [ring|]. rewrite <- E'. ring.
  Qed.
End Code.

(** *** from pairs of residues to the specification over integers *)
Section Alg.
  Variable k : Fld.
  Add Field kf2 : (Fth k).
  Lemma es_alg (x u v : k) : u <> F0 -> (Fmul x u = v <-> x = Fdiv v u).
  Proof. intro N. split; [intros <-; field; exact N|intros ->; field; exact N]. Qed.
  Lemma nz_sub0 (u : k) : u <> F0 <-> Fsub u F0 <> F0.
  Proof. assert (E : Fsub u F0 = u) by ring. rewrite E. tauto. Qed.
  Lemma exy_assoc (x1 x2 y1 y2 : k) : Fmul (Fmul (Fmul x1 x2) y1) y2 = Fmul (Fmul x1 x2) (Fmul y1 y2).
  Proof. ring. Qed.
End Alg.
Section Bridge.
  Variable p : Z.
  Hypothesis Hp : prime p.
  Hypothesis Hp2 : 2 < p.
  Local Notation K := (ZpF p Hp).
  Variables a d : ZpF p Hp.
  Hypothesis a_sq : exists s : ZpF p Hp, Fmul s s = a.
  Hypothesis a_nz : a <> F0.
  Hypothesis d_nonsq : forall s : ZpF p Hp, Fmul s s <> d.
  Local Notation two := (two_K p Hp Hp2).
  Local Notation eon := (eon K a d).
  Local Notation eadd := (eadd K a d).

  Definition zz (P : K * K) : Z * Z := (zv (fst P), zv (snd P)).
  Lemma zz_inj P Q : zz P = zz Q -> P = Q.
  Proof.
    destruct P as [x y], Q as [x' y']. intro E. pose proof (f_equal fst E) as Ex. pose proof (f_equal snd E) as Ey.
    apply Zp_eq in Ex. apply Zp_eq in Ey. cbn in Ex, Ey. congruence.
  Qed.
  Lemma zz_of x y : coord p x -> coord p y -> (x, y) = zz (of_Z p x, of_Z p y).
  Proof. intros Hx Hy. unfold zz. cbn [fst snd]. rewrite !(coord_of p) by assumption. reflexivity. Qed.
  Lemma eon_zz P : eon P <-> on_edwards p (zv a) (zv d) (zz P).
  Proof.
    destruct P as [x y]. unfold Edwards.eon, on_edwards, zz. cbn [fst snd].
    pose proof (coord_zv p Hp Hp2 x). pose proof (coord_zv p Hp Hp2 y). rewrite <- of_Z_div by lia. pushZ.
    split; [intro E; split; [assumption|]; split; [assumption|exact E]|intros (_ & _ & E); exact E].
  Qed.
  Lemma on_unzz P : on_edwards p (zv a) (zv d) P -> exists Q, P = zz Q /\ eon Q.
  Proof.
    destruct P as [x y]. intro H. exists (of_Z p x, of_Z p y).
    assert (E : (x, y) = zz (of_Z p x, of_Z p y)) by (apply zz_of; apply H).
    split; [exact E|]. apply eon_zz. rewrite <- E. exact H.
  Qed.
  Lemma neg_zz P : zz (eopp K P) = edwards_neg p (zz P).
  Proof. reflexivity. Qed.
  Lemma nz_div (z : Z) : ~ (p | z) <-> of_Z p z <> (F0 : K).
  Proof.
    change (F0 : K) with (of_Z p 0). rewrite of_Z_div, Z.sub_0_r by lia. reflexivity.
  Qed.
  Lemma es_zz A B : eon A -> eon B -> forall C, edwards_sum p (zv a) (zv d) (zz A) (zz B) C <-> C = zz (eadd A B).
  Proof.
    intros HA HB [x3 y3].
    pose proof (den_plus K a d two a_sq d_nonsq A B HA HB) as Dp.
    pose proof (den_minus K a d two a_sq d_nonsq A B HA HB) as Dm.
    destruct A as [x1 y1], B as [x2 y2]. unfold edwards_sum, zz, Edwards.eadd, exy in *. cbn [fst snd] in *.
    assert (Ep : of_Z p (1 + zv d * (zv x1 * zv x2 * zv y1 * zv y2)) = Fadd F1 (Fmul d (Fmul (Fmul x1 x2) (Fmul y1 y2))) :> K).
    { pushZ. change (zmul (zmul (zmul x1 x2) y1) y2) with (Fmul (Fmul (Fmul x1 x2) y1) y2 : K). rewrite (exy_assoc K). reflexivity. }
    assert (Em : of_Z p (1 - zv d * (zv x1 * zv x2 * zv y1 * zv y2)) = Fsub F1 (Fmul d (Fmul (Fmul x1 x2) (Fmul y1 y2))) :> K).
    { pushZ. change (zmul (zmul (zmul x1 x2) y1) y2) with (Fmul (Fmul (Fmul x1 x2) y1) y2 : K). rewrite (exy_assoc K). reflexivity. }
    rewrite !nz_div, Ep, Em.
    rewrite (div_prod_Z p Hp Hp2 x3 _ (Fadd (Fmul x1 y2) (Fmul y1 x2)) _ _ (eq_sym Ep)) by (pushZ; reflexivity).
    rewrite (div_prod_Z p Hp Hp2 y3 _ (Fsub (Fmul y1 y2) (Fmul a (Fmul x1 x2))) _ _ (eq_sym Em)) by (pushZ; reflexivity).
    rewrite (es_alg K _ _ _ Dp), (es_alg K _ _ _ Dm). split.
    - intros (C1 & C2 & _ & _ & E1 & E2). apply (f_equal zv) in E1. apply (f_equal zv) in E2.
      rewrite (coord_of p) in E1 by exact C1. rewrite (coord_of p) in E2 by exact C2. rewrite E1, E2. reflexivity.
    - intro E. pose proof (f_equal fst E) as E1. pose proof (f_equal snd E) as E2. cbn [fst snd] in E1, E2. clear E.
      rewrite E1, E2, !of_Z_zv. pose proof (coord_zv p Hp Hp2). auto 10.
  Qed.

  Fixpoint enmul (n : nat) (A : K * K) : K * K := match n with O => ezero K | S m => eadd (enmul m A) A end.
  Lemma on_enmul n A : eon A -> eon (enmul n A).
  Proof.
    intro H. induction n as [|n IH]; [apply eon_zero|]. cbn. apply (eon_add K a d two a_sq d_nonsq); assumption.
  Qed.
  Lemma zz_zero : zz (ezero K) = (0, 1).
  Proof. unfold zz, ezero. cbn [fst snd]. f_equal. change (1 mod p = 1). apply Z.mod_small. lia. Qed.
  Lemma multiple_zz n A : eon A -> forall C, multiple (edwards_sum p (zv a) (zv d)) (0, 1) (zz A) n C <-> C = zz (enmul n A).
  Proof.
    intro H. induction n as [|n IH]; intro C.
    - cbn [enmul]. rewrite zz_zero. split; [intro M; inversion M; reflexivity|intros ->; constructor].
    - split.
      + intro M. inversion M as [|m Q R M1 S E1 E2]; subst. apply IH in M1. subst Q.
        apply es_zz in S; [exact S|apply on_enmul, H|exact H].
      + intros ->. apply mult_S with (zz (enmul n A)); [apply IH; reflexivity|].
        apply es_zz; [apply on_enmul, H|exact H|reflexivity].
  Qed.
  Lemma eadd_0_l A : eadd (ezero K) A = A.
  Proof. rewrite eadd_comm. apply eadd_zero. Qed.
  Lemma enmul_add m n A : eon A -> eadd (enmul m A) (enmul n A) = enmul (m + n) A.
  Proof.
    intro H. induction n as [|n IH]; [rewrite Nat.add_0_r; apply eadd_zero|].
    rewrite Nat.add_succ_r. cbn [enmul]. rewrite <- IH. symmetry.
    apply (eadd_assoc K a d two a_sq d_nonsq); try assumption; apply on_enmul, H.
  Qed.
  Lemma enmul_mul m n A : eon A -> enmul m (enmul n A) = enmul (m * n) A.
  Proof.
    intro H. induction m as [|m IH]; [reflexivity|]. cbn [Nat.mul]. rewrite Nat.add_comm, <- enmul_add by exact H.
    rewrite <- IH. reflexivity.
  Qed.
  Lemma rep_zz (X Y T Z : K) A : erep K X Y T Z A <-> ext_of p (zv X) (zv Y) (zv T) (zv Z) (zz A).
  Proof.
    destruct A as [x y]. unfold erep, ext_of, zz. cbn [fst snd]. rewrite <- (zv_nz p Hp).
    rewrite <- !of_Z_div by lia. pushZ. reflexivity.
  Qed.
End Bridge.

(** the square root of a non-zero element is not zero, whether or not it is a square *)
Section SqrtNz.
  Variable K : Fld.
  Add Field KF3 : (Fth K).
  Lemma sqrt_m1_nz (c : K) : Fmul c c = Fopp F1 -> c <> F0.
  Proof. intros E Z. apply (opp1_nz K). rewrite <- E, Z. ring. Qed.
End SqrtNz.
Lemma sqrt_fe_nz p (Hp : prime p) (x : ZpF p Hp) : sqrt_modulus p ->
  exists y : ZpF p Hp, sqrt (fe x) = Ret (fe y) /\ (x <> F0 -> y <> F0) /\ (is_sq p Hp x -> Fmul y y = x).
Proof.
  intro Hm. destruct (sqrt_fe p Hp x Hm) as (y & E & S). exists y. split; [exact E|]. split; [|exact S]. intro Nx.
  pose proof (pgt1 p Hp) as H1. revert E. destruct Hm as [H|H].
  - assert (p <> 2) as H2 by (intros ->; discriminate H).
    unfold sqrt. cbn [fld fe]. rewrite sqrt_precmp_3mod4 by (assumption || lia). cbn [bind sqrt_with].
    rewrite pow_bigint_fe by lia.
    assert (R : 0 <= (p + 1) / 4 < p - 1).
    { pose proof (Z.div_mod p 4 ltac:(lia)). split; [apply Z.div_pos; lia|]. apply Z.div_lt_upper_bound; lia. }
    rewrite (Z.mod_small ((p + 1) / 4)) by exact R. intro E. apply (f_equal (fun o => match o with Ret v => v | _ => fe x end)) in E.
    apply fe_inj in E. rewrite <- E, <- (fpow_of_Z p Hp x) by lia. apply (fpow_nz (ZpF p Hp)), Nx.
  - assert (p <> 2) as H2 by (intros ->; discriminate H).
    unfold sqrt. cbn [fld fe]. rewrite (sqrt_precmp_5mod8 p Hp H). cbn [bind sqrt_with].
    pose proof (p_ge5 p Hp H). destruct (k_range p Hp H) as [Hk1 Hk2].
    rewrite pow_bigint_fe by lia. cbn [bind].
    rewrite (Z.mod_small ((p - 5) / 8 + 1)) by lia.
    rewrite <- (fpow_of_Z p Hp x) by lia.
    pose proof (fpow_nz (ZpF p Hp) x (Z.to_nat ((p - 5) / 8 + 1)) Nx) as N0.
    set (t0 := fpow x (Z.to_nat ((p - 5) / 8 + 1))) in *.
    rewrite sqr_fe by lia. cbn [bind]. rewrite mul_fe by lia. cbn [bind].
    destruct (fpelt_eqb _ _); unfold cmov; intro E; apply (f_equal (fun o => match o with Ret v => v | _ => fe x end)) in E;
      apply fe_inj in E; rewrite <- E; [exact N0|].
    apply (Fmul_nonzero (ZpF p Hp)); [exact N0|]. apply (sqrt_m1_nz (ZpF p Hp)). apply sqrt_m1_spec. exact H.
Qed.

(** *** byte strings *)
Lemma le_value_app l m : le_value (l ++ m) = le_value l + 256 ^ Z.of_nat (length l) * le_value m.
Proof.
  induction l as [|b l IH]; [cbn [app le_value length]; change (256 ^ Z.of_nat 0) with 1; lia|]. cbn [app le_value length].
  rewrite IH, Nat2Z.inj_succ, Z.pow_succ_r by lia. ring.
Qed.
Lemma le_value_zeros n : le_value (repeat 0 n) = 0.
Proof. induction n as [|n IH]; [reflexivity|]. cbn [repeat le_value]. rewrite IH. reflexivity. Qed.
Lemma le_value_bound l : Forall is_byte l -> 0 <= le_value l < 256 ^ Z.of_nat (length l).
Proof.
  intro H. rewrite <- (rev_involutive l), le_value_rev, rev_length. apply be_value_bound. apply Forall_rev, H.
Qed.
Lemma le_value_inj l m : Forall is_byte l -> Forall is_byte m -> length l = length m -> le_value l = le_value m -> l = m.
Proof.
  intros Hl Hm L E. rewrite <- (rev_involutive l), <- (rev_involutive m). f_equal.
  apply be_value_inj; try (apply Forall_rev; assumption); [rewrite !rev_length; exact L|].
  rewrite !be_value_rev. exact E.
Qed.
Lemma update_last_app g l b : update_last g (l ++ [b]) = Ret (l ++ [g b]).
Proof. unfold update_last. rewrite rev_app_distr. cbn [rev app]. rewrite rev_involutive. reflexivity. Qed.
Lemma snoc_ex {A} (l : list A) : l <> [] -> exists m b, l = m ++ [b].
Proof. intro N. destruct (exists_last N) as (m & b & E). eauto. Qed.
Lemma last_bit b : is_byte b -> Z.land (Z.shiftr b 7) 1 = b / 128 /\ Z.land b 127 = b mod 128 /\ 0 <= b / 128 <= 1.
Proof.
  unfold is_byte. intro H.
  assert (Q : 0 <= b / 128 <= 1).
  { split; [apply Z.div_pos; lia|]. assert (b / 128 < 2) by (apply Z.div_lt_upper_bound; lia). lia. }
  split; [|split; [|exact Q]].
  - rewrite Z.shiftr_div_pow2 by lia. change (2 ^ 7) with 128. rewrite (Z.land_ones _ 1) by lia. apply Z.mod_small. change (2 ^ 1) with 2. lia.
  - apply (Z.land_ones b 7). lia.
Qed.
Lemma lor_bit b s : 0 <= b < 128 -> 0 <= s <= 1 -> Z.lor b (Z.shiftl s 7 mod 256) = b + 128 * s.
Proof.
  intros Hb Hs. assert (s = 0 \/ s = 1) as [->| ->] by lia.
  - change (Z.shiftl 0 7 mod 256) with 0. rewrite Z.lor_0_r. lia.
  - change (Z.shiftl 1 7 mod 256) with 128.
    rewrite <- Z.lxor_lor, <- Z.add_nocarry_lxor; [reflexivity| |];
    apply Z.bits_inj'; intros n Hn; rewrite Z.land_spec, Z.bits_0; destruct (Z.eq_dec n 7) as [->|N];
      try (change 128 with (2 ^ 7); rewrite Z.pow2_bits_false by lia; apply andb_false_r);
      change (Z.testbit 128 7) with true; rewrite andb_true_r; apply Z.bits_above_log2; try lia;
      (destruct (Z.eq_dec b 0) as [->|]; [cbn; lia|apply Z.log2_lt_pow2; lia]).
Qed.

Section Size.
  Variable p : Z.
  Hypothesis Hp2 : 2 < p.
  Local Notation ne := (enc_size (mkFp p)).
  Lemma ne_bounds : 8 * (ne - 1) <= bits p < 8 * ne /\ 0 < ne.
  Proof.
    unfold enc_size. cbn [modulus]. pose proof (bits_pos p ltac:(lia)).
    pose proof (Z.div_mod (bits p + 1 + 7) 8 ltac:(lia)). pose proof (Z.mod_pos_bound (bits p + 1 + 7) 8 ltac:(lia)). lia.
  Qed.
  Lemma ne_ed_size : ed_size p ne.
  Proof.
    destruct ne_bounds as [[L U] P]. split; [exact P|].
    change 256 with (2 ^ 8). rewrite <- !Z.pow_mul_r by lia. pose proof (bits_pos p ltac:(lia)).
    pose proof (bits_le p ltac:(lia)) as A. pose proof (bits_lt p ltac:(lia)) as B. split.
    - apply Z.le_trans with (2 ^ bits p); [apply Z.pow_le_mono_r; lia|].
      replace (bits p) with (Z.succ (bits p - 1)) by lia. rewrite Z.pow_succ_r by lia. lia.
    - apply Z.lt_le_trans with (2 ^ Z.succ (bits p)); [rewrite Z.pow_succ_r by lia; lia|]. apply Z.pow_le_mono_r; lia.
  Qed.
  Lemma ed_size_unique n : ed_size p n -> n = ne.
  Proof.
    intros (H & L & U). destruct ne_ed_size as (H' & L' & U').
    destruct (Z.lt_trichotomy n ne) as [T|[T|T]]; [exfalso|exact T|exfalso].
    - assert (256 ^ n <= 256 ^ (ne - 1)) by (apply Z.pow_le_mono_r; lia). lia.
    - assert (256 ^ ne <= 256 ^ (n - 1)) by (apply Z.pow_le_mono_r; lia). lia.
  Qed.
  Lemma p_half : 256 ^ ne = 2 * 2 ^ (8 * ne - 1) /\ p < 2 ^ (8 * ne - 1) /\ 2 ^ (8 * ne - 1) = 128 * 256 ^ (ne - 1).
  Proof.
    destruct ne_ed_size as (H & L & U).
    assert (E : 256 ^ ne = 2 * 2 ^ (8 * ne - 1)).
    { change 256 with (2 ^ 8). rewrite <- Z.pow_mul_r by lia. rewrite <- Z.pow_succ_r by lia. f_equal. lia. }
    split; [exact E|]. split; [lia|].
    change 256 with (2 ^ 8). change 128 with (2 ^ 7). rewrite <- Z.pow_mul_r, <- Z.pow_add_r by lia. f_equal. lia.
  Qed.
  Lemma sb_le_ne : size_bytes (mkFp p) <= ne.
  Proof. unfold size_bytes, enc_size. cbn [modulus]. apply Z.div_le_mono; lia. Qed.

  (** splitting a text into the sign bit and the little-endian value *)
  Lemma text_split l : Forall is_byte l -> Z.of_nat (length l) = ne -> exists m b, l = m ++ [b] /\ is_byte b
    /\ Forall is_byte m /\ Z.of_nat (length m) = ne - 1
    /\ le_value l = le_value (m ++ [b mod 128]) + b / 128 * 2 ^ (8 * ne - 1)
    /\ 0 <= le_value (m ++ [b mod 128]) < 2 ^ (8 * ne - 1) /\ 0 <= b / 128 <= 1.
  Proof.
    intros B L. destruct ne_bounds as [_ P]. destruct (snoc_ex l) as (m & b & ->); [intros ->; cbn in L; lia|].
    rewrite app_length in L. cbn [length] in L. apply Forall_app in B. destruct B as [Bm Bb].
    pose proof (Forall_inv Bb) as Hb. exists m, b. split; [reflexivity|]. split; [exact Hb|]. split; [exact Bm|].
    assert (Lm : Z.of_nat (length m) = ne - 1) by lia. split; [exact Lm|].
    destruct p_half as (_ & _ & E). rewrite E, !le_value_app, Lm. cbn [le_value].
    pose proof (le_value_bound m Bm) as Bd. rewrite Lm in Bd. destruct (last_bit b Hb) as (_ & _ & Q).
    pose proof (Z.div_mod b 128 ltac:(lia)) as D. pose proof (Z.mod_pos_bound b 128 ltac:(lia)).
    split; [rewrite D at 1; ring|]. split; [|exact Q]. nia.
  Qed.
  Lemma split_unique u s v t : 0 <= u < 2 ^ (8 * ne - 1) -> 0 <= v < 2 ^ (8 * ne - 1) ->
    0 <= s -> 0 <= t -> u + s * 2 ^ (8 * ne - 1) = v + t * 2 ^ (8 * ne - 1) -> u = v /\ s = t.
  Proof.
    set (M := 2 ^ (8 * ne - 1)). intros Hu Hv Hs Ht E.
    assert (s = t) as <-; [|split; [lia|reflexivity]].
    destruct (Z.lt_trichotomy s t) as [T|[T|T]]; [exfalso|exact T|exfalso].
    - assert ((s + 1) * M <= t * M) by (apply Z.mul_le_mono_nonneg_r; lia). lia.
    - assert ((t + 1) * M <= s * M) by (apply Z.mul_le_mono_nonneg_r; lia). lia.
  Qed.
End Size.

Section E.
  Variable p : Z.
  Hypothesis Hp : prime p.
  Hypothesis Hp2 : 2 < p.
  Local Notation K := (ZpF p Hp).
  Variables a d : ZpF p Hp.
  Variable e : Curve.
  Hypothesis ef : c_f e = mkFp p.
  Hypothesis ea : c_a e = fe a.
  Hypothesis ed : c_d e = fe d.
  Local Notation eon := (eon K a d).
  Local Notation eadd := (eadd K a d).

  Definition mk (X Y T Z : K) : ProyCoordinates := mkProy (fe X) (fe Y) (fe T) (fe Z).
  Lemma on_curve_mk (X Y T Z : K) : exists t, is_on_curve e (mk X Y T Z) = Ret t /\ (t = true <-> etest K a d X Y T Z).
  Proof.
    unfold is_on_curve, mk. cbn [px py ptt pz]. rewrite ea, ed. fes. eexists. split; [reflexivity|].
    rewrite andb_true_iff, !is_zero_fe by lia. reflexivity.
  Qed.

  Definition wrep (P : Point) (A : K * K) : Prop :=
    pe P = e /\ (exists X Y T Z : K, pc P = mk X Y T Z /\ erep K X Y T Z A) /\ eon A.

  Lemma new_proy_mk (X Y T Z : K) A : erep K X Y T Z A -> eon A ->
    new_proy_point e (mk X Y T Z) = Ret (mkPoint e (mk X Y T Z)).
  Proof.
    intros R H. unfold new_proy_point. destruct (on_curve_mk X Y T Z) as (t & -> & Ht). cbn [bind].
    assert (t = true) as ->; [|reflexivity]. apply Ht. apply (erep_on K a d _ _ _ _ _ R). exact H.
  Qed.
  Lemma wrep_mk (X Y T Z : K) A : erep K X Y T Z A -> eon A -> wrep (mkPoint e (mk X Y T Z)) A.
  Proof. intros R H. split; [reflexivity|]. split; [|exact H]. exists X, Y, T, Z. split; [reflexivity|exact R]. Qed.
  Lemma new_point_mk (x y : K) : exists t, (t = true <-> eon (x, y))
    /\ new_point e (fe x) (fe y) = if t then Ret (mkPoint e (mk x y (Fmul x y) F1)) else Panic ERR_ECC_NEW.
  Proof.
    unfold new_point. rewrite ef. fes.
    change (mkProy (fe x) (fe y) _ (fe (of_Z p 1))) with (mk x y (Fmul x y) (F1 : K)).
    destruct (on_curve_mk x y (Fmul x y) F1) as (t & -> & Ht). cbn [bind]. exists t. split; [|destruct t; reflexivity].
    rewrite Ht. exact (erep_on K a d _ _ _ _ _ (erep_one K x y)).
  Qed.
  Lemma identity_mk : identity e = Ret (mkPoint e (mk F0 F1 F0 F1)).
  Proof.
    unfold identity. rewrite ef. fes.
    change (mkProy _ _ _ _) with (mk (F0 : K) F1 F0 F1).
    apply (new_proy_mk _ _ _ _ _ (erep_zero K) (eon_zero K a d)).
  Qed.
  Lemma identity_wrep : exists P, identity e = Ret P /\ wrep P (ezero K).
  Proof.
    rewrite identity_mk. eexists. split; [reflexivity|]. apply wrep_mk; [apply erep_zero|apply eon_zero].
  Qed.
  Lemma curve_eqb_refl c : curve_eqb c c = true.
  Proof. unfold curve_eqb, fp_eqb, fpelt_eqb. rewrite !fp_eqb_refl, !Z.eqb_refl. reflexivity. Qed.

  Hypothesis a_sq : exists s : ZpF p Hp, Fmul s s = a.
  Hypothesis a_nz : a <> F0.
  Hypothesis d_nonsq : forall s : ZpF p Hp, Fmul s s <> d.
  Local Notation two := (two_K p Hp Hp2).

  Lemma core_add_wrep P Q A B : wrep P A -> wrep Q B -> exists R, core_add P Q = Ret R /\ wrep R (eadd A B).
  Proof.
    intros (EP & (X1 & Y1 & T1 & Z1 & CP & RP) & OA) (EQ & (X2 & Y2 & T2 & Z2 & CQ & RQ) & OB).
    pose proof (code_add_rep K a d _ _ _ _ _ _ _ _ _ _ RP RQ
      (den_plus K a d two a_sq d_nonsq A B OA OB) (den_minus K a d two a_sq d_nonsq A B OA OB)) as R.
    pose proof (eon_add K a d two a_sq d_nonsq A B OA OB) as O.
    unfold core_add. rewrite EP, CP, CQ, ea, ed. cbn [px py ptt pz mk]. fes.
    match goal with |- context [new_proy_point e ?c] =>
      change c with (let '(x, y, t, z) := code_add K a d X1 Y1 T1 Z1 X2 Y2 T2 Z2 in mk x y t z) end.
    destruct (code_add K a d X1 Y1 T1 Z1 X2 Y2 T2 Z2) as [[[x y] t] z].
    rewrite (new_proy_mk _ _ _ _ _ R O). eexists. split; [reflexivity|apply wrep_mk; assumption].
  Qed.
  Lemma neg_wrep P A : wrep P A -> exists R, pt_neg P = Ret R /\ wrep R (eopp K A).
  Proof.
    intros (EP & (X1 & Y1 & T1 & Z1 & CP & RP) & OA). unfold pt_neg, core_neg. rewrite EP, CP. cbn [px py ptt pz mk]. fes.
    change (mkProy _ _ _ _) with (mk (Fopp X1) Y1 (Fopp T1) Z1).
    pose proof (erep_opp K _ _ _ _ _ RP) as R. pose proof (eon_opp K a d _ OA) as O.
    rewrite (new_proy_mk _ _ _ _ _ R O). eexists. split; [reflexivity|apply wrep_mk; assumption].
  Qed.
  Lemma add_wrep P Q A B : wrep P A -> wrep Q B -> exists R, pt_add P Q = Ret R /\ wrep R (eadd A B).
  Proof.
    intros HP HQ. unfold pt_add. rewrite (proj1 HP), (proj1 HQ), curve_eqb_refl. apply core_add_wrep; assumption.
  Qed.
  Lemma sub_wrep P Q A B : wrep P A -> wrep Q B -> exists R, pt_sub P Q = Ret R /\ wrep R (eadd A (eopp K B)).
  Proof.
    intros HP HQ. unfold pt_sub. destruct (neg_wrep Q B HQ) as (N & -> & HN). apply add_wrep; assumption.
  Qed.
  Lemma eqb_wrep P Q A B : wrep P A -> wrep Q B -> exists t, pt_eqb P Q = Ret t /\ (t = true <-> A = B).
  Proof.
    intros (EP & (X1 & Y1 & T1 & Z1 & CP & RP) & OA) (EQ & (X2 & Y2 & T2 & Z2 & CQ & RQ) & OB).
    unfold pt_eqb. rewrite EP, EQ, CP, CQ, curve_eqb_refl. cbn [px py ptt pz mk]. fes.
    eexists. split; [reflexivity|]. cbn [andb]. rewrite !andb_true_iff, !fpelt_eqb_fe by lia.
    rewrite <- (erep_cross K _ _ _ _ _ _ _ _ _ _ RP RQ). apply and_assoc.
  Qed.
  (** the test only looks at x *)
  Lemma is_zero_wrep P A : wrep P A -> (pt_is_zero P = true <-> fst A = F0).
  Proof.
    intros (EP & (X1 & Y1 & T1 & Z1 & CP & RP) & OA). unfold pt_is_zero. rewrite CP. cbn [px py ptt pz mk].
    rewrite !andb_true_iff, !negb_true_iff, !is_zero_fe by lia.
    assert (NZ : forall u : K, is_zero (fe u) = false <-> u <> F0).
    { intro u. rewrite <- not_true_iff_false, is_zero_fe. reflexivity. }
    rewrite !NZ. clear NZ. destruct A as [x y]. cbn [fst]. destruct RP as (HZ & EX & EY & ET). cbn [fst snd] in *. split.
    - intros (((X0 & _) & _) & _). rewrite EX in X0. destruct (Fmul_integral K _ _ X0) as [E|E]; [exact E|contradiction].
    - intro E. assert (Hy : y <> F0).
      { intro Y0. rewrite E in OA. destruct (x_zero_y K a d y OA) as [E1|E1]; rewrite Y0 in E1;
          [apply (F_1_neq_0 K); symmetry; exact E1|apply (opp1_nz K); symmetry; exact E1]. }
      rewrite EX, EY, ET, E. split; [split; [split|]|exact HZ].
      + apply Zp_eq. reflexivity.
      + apply (Fmul_nonzero K); assumption.
      + apply Zp_eq. reflexivity.
  Qed.
  Lemma normalize_wrep P A : wrep P A -> normalize P = Ret (mkPoint e (mk (fst A) (snd A) (Fmul (fst A) (snd A)) F1)).
  Proof.
    intros (EP & (X1 & Y1 & T1 & Z1 & CP & RP) & OA). unfold normalize. rewrite EP, CP. cbn [px py ptt pz mk]. fes.
    rewrite set_one_fe by lia. destruct (erep_inv K _ _ _ _ _ RP) as [EX EY].
    unfold mk. rewrite <- EX, <- EY. reflexivity.
  Qed.

  Lemma mul_wrep oc P A k : wrep P A -> sr k = c_r e -> 0 < sk k -> bits (sk k) < 2 ^ 64 ->
    exists R, pt_mul oc P k = Ret R /\ wrep R (enmul p Hp a d (Z.to_nat (sk k)) A).
  Proof.
    intros HP Er Hk H64. unfold pt_mul. rewrite (proj1 HP), Er, Z.eqb_refl. cbn [do_if_eq]. unfold core_mul.
    rewrite (proj1 HP). destruct identity_wrep as (I0 & -> & HI). cbn [bind].
    apply (scalar_loop (fun n q => wrep q (enmul p Hp a d n A))); [|exact HI|exact Hk|exact H64].
    intros n q t Hq. destruct (add_wrep q q _ _ Hq Hq) as (D & -> & HD). cbn [bind].
    rewrite (enmul_add p Hp Hp2 a d a_sq d_nonsq n n A (proj2 (proj2 HP))) in HD. destruct t.
    - destruct (add_wrep D P _ A HD HP) as (R & -> & HR). exists R. split; [reflexivity|].
      rewrite Nat.add_1_r. exact HR.
    - exists D. split; [reflexivity|]. rewrite Nat.add_0_r. exact HD.
  Qed.
  Lemma mul_zero_wrep oc P A r : wrep P A -> r = c_r e ->
    exists R, wrep R (ezero K) /\ pt_mul oc P (mkScalar 0 r) = if oc then Panic "attempt to subtract with overflow" else Ret R.
  Proof.
    intros HP ->. unfold pt_mul. cbn [sr]. rewrite (proj1 HP), Z.eqb_refl. cbn [do_if_eq]. unfold core_mul.
    rewrite (proj1 HP). destruct identity_wrep as (I0 & -> & HI). cbn [bind]. exists I0. split; [exact HI|].
    apply mul_loop_zero.
  Qed.

  (** *** bytes *)
  Local Notation ne := (enc_size (mkFp p)).
  Lemma sign_bit_fe (x : K) : sign_bit (sgn0 (fe x)) = zv x mod 2.
  Proof.
    rewrite (sgn0_val p) by (apply valid_fe; lia). cbn [val fe]. rewrite Zmod_even. destruct (Z.even (zv x)); reflexivity.
  Qed.
  Lemma encode_wrep P A c : wrep P A -> exists buf, encode P c = Ret buf /\ ed_text ne (zv (fst A)) (zv (snd A)) buf.
  Proof.
    intro H. unfold encode. rewrite (normalize_wrep P A H). cbn [bind pc mk px py]. rewrite (proj1 H), ef.
    destruct A as [x y]. cbn [fst snd].
    destruct (to_bytes_spec p (fe y)) as (bx & _ & -> & L & B & V); [apply valid_fe; lia|]. cbn [bind].
    pose proof (sb_le_ne p) as SB. destruct (ne_bounds p Hp2) as [_ Hn]. unfold fp_new in L.
    assert (LR : length (rev bx) = Z.to_nat (size_bytes (mkFp p))) by (rewrite rev_length; lia).
    unfold resize. rewrite firstn_all2 by lia.
    set (l := rev bx ++ repeat 0 (Z.to_nat ne - length (rev bx))).
    assert (Bl : Forall is_byte l).
    { apply Forall_app. split; [apply Forall_rev, B|]. apply Forall_forall. intros z Hz. apply repeat_spec in Hz. subst z. unfold is_byte. lia. }
    assert (Ll : Z.of_nat (length l) = ne).
    { unfold l. rewrite app_length, repeat_length. lia. }
    assert (Vl : le_value l = zv y).
    { unfold l. rewrite le_value_app, le_value_zeros, le_value_rev, V, Z.mul_0_r, Z.add_0_r. reflexivity. }
    clearbody l. destruct (text_split p Hp2 l Bl Ll) as (m & b & -> & Hb & Bm & Lm & E & R & Q).
    rewrite Vl in E. pose proof (zv_range p y ltac:(lia)) as Ry. destruct (p_half p Hp2) as (Ph1 & Ph2 & Ph3).
    assert (b / 128 = 0) as B0 by nia. rewrite update_last_app. eexists. split; [reflexivity|].
    rewrite sign_bit_fe. assert (Hs : 0 <= zv x mod 2 <= 1) by (pose proof (Z.mod_pos_bound (zv x) 2 ltac:(lia)); lia).
    assert (Hb' : 0 <= b < 128). { unfold is_byte in Hb. pose proof (Z.div_mod b 128 ltac:(lia)). pose proof (Z.mod_pos_bound b 128 ltac:(lia)). lia. }
    rewrite lor_bit by assumption. split; [rewrite app_length in *; exact Ll|]. split.
    - apply Forall_app. split; [exact Bm|]. constructor; [unfold is_byte; lia|constructor].
    - rewrite le_value_app in Vl |- *. cbn [le_value] in *. rewrite Ph3, Lm in *. rewrite <- Vl. ring.
  Qed.
  Lemma ed_text_unique x y l m : ed_text ne x y l -> ed_text ne x y m -> l = m.
  Proof. intros (L & B & V) (L' & B' & V'). apply le_value_inj; try assumption; [lia|congruence]. Qed.
  Lemma ed_text_inj (x y x' y' : Z) l : coord p y -> coord p y' -> ed_text ne x y l -> ed_text ne x' y' l -> y = y' /\ x mod 2 = x' mod 2.
  Proof.
    intros (H1 & H1') (H2 & H2') (_ & _ & V) (_ & _ & V'). rewrite V in V'. destruct (p_half p Hp2) as (_ & Ph2 & _).
    pose proof (Z.mod_pos_bound x 2 ltac:(lia)). pose proof (Z.mod_pos_bound x' 2 ltac:(lia)).
    apply (split_unique p) in V'; [exact V'|lia|lia|lia|lia].
  Qed.

  (** a text of the right length is a value y and a sign *)
  Lemma decode_text buf : Forall is_byte buf -> Z.of_nat (length buf) = ne -> exists y s,
    le_value buf = y + s * 2 ^ (8 * ne - 1) /\ 0 <= y < 2 ^ (8 * ne - 1) /\ 0 <= s <= 1 /\
    decode e buf = if p <=? y then Ret (Err ERR_Y) else
      (bind (sqrt (fe (xx K a d (of_Z p y)))) (fun r =>
       bind (zero (c_f e)) (fun z => if fpelt_eqb r z && (s =? 1) then Ret (Err ERR_SQRT) else
         bind (if negb (sign_bit (sgn0 r) =? s) then neg r else Ret r) (fun x =>
         bind (new_point e x (fe (of_Z p y))) (fun P => Ret (Ok P)))))).
  Proof.
    intros B L. destruct (text_split p Hp2 buf B L) as (m & b & -> & Hb & Bm & Lm & E & R & Q).
    exists (le_value (m ++ [b mod 128])), (b / 128). split; [exact E|]. split; [exact R|]. split; [exact Q|].
    unfold decode. rewrite ef, L, Z.eqb_refl. cbn [negb modulus]. rewrite rev_app_distr. cbn [rev app].
    destruct (last_bit b Hb) as (-> & E2 & _). rewrite update_last_app. cbn [bind]. rewrite E2, from_bytes_le_value.
    destruct (p <=? _); [reflexivity|]. rewrite ea, ed. fes. reflexivity.
  Qed.
  Lemma decode_len buf : Z.of_nat (length buf) <> ne -> decode e buf = Ret (Err ERR_SIZE).
  Proof. intro N. unfold decode. rewrite ef. destruct (Z.eqb_spec (Z.of_nat (length buf)) ne); [contradiction|reflexivity]. Qed.

  Hypothesis Hm : sqrt_modulus p.
  Lemma decode_cases buf : Forall is_byte buf ->
    (Z.of_nat (length buf) <> ne /\ exists m, decode e buf = Ret (Err m))
    \/ (exists y s, Z.of_nat (length buf) = ne /\ 0 <= y < 2 ^ (8 * ne - 1) /\ 0 <= s <= 1 /\ le_value buf = y + s * 2 ^ (8 * ne - 1) /\
         ((p <= y /\ exists m, decode e buf = Ret (Err m))
          \/ (s = 1 /\ y < p /\ xx K a d (of_Z p y) = F0 /\ exists m, decode e buf = Ret (Err m))
          \/ (y < p /\ (exists x Q, decode e buf = Ret (Ok Q) /\ wrep Q (x, of_Z p y) /\ zv x mod 2 = s))
          \/ (y < p /\ (s = 0 \/ xx K a d (of_Z p y) <> F0) /\ (forall x : K, ~ eon (x, of_Z p y)) /\ exists m, decode e buf = Panic m))).
  Proof.
    intro B. destruct (Z.eq_dec (Z.of_nat (length buf)) ne) as [L|L]; [right|left; split; [exact L|rewrite decode_len by exact L; eauto]].
    destruct (decode_text buf B L) as (y & s & V & Ry & Rs & ED). exists y, s. split; [exact L|]. split; [exact Ry|]. split; [exact Rs|].
    split; [exact V|]. destruct (Z.leb_spec p y) as [G|G]; [left; split; [exact G|eauto]|right].
    destruct (sqrt_fe_nz p Hp (xx K a d (of_Z p y)) Hm) as (r & Es & Nz & Sq). rewrite Es in ED. cbn [bind] in ED.
    rewrite ef in ED. rewrite zero_fe in ED by lia. cbn [bind] in ED.
    destruct (fpelt_eqb (fe r) (fe (of_Z p 0))) eqn:Z0.
    - apply fpelt_eqb_fe in Z0.
      assert (X0 : xx K a d (of_Z p y) = F0) by (destruct (Feqd (xx K a d (of_Z p y)) F0) as [X|X]; [exact X|destruct (Nz X Z0)]).
      subst r. destruct (Z.eqb_spec s 1) as [S1|S1]; cbn [andb] in ED.
      + left. split; [exact S1|]. split; [exact G|]. split; [exact X0|]. eauto.
      + right. left. split; [exact G|]. assert (s = 0) as -> by lia.
        rewrite sign_bit_fe in ED.
        assert (zv (of_Z p 0) mod 2 = 0) as E0 by (rewrite zv_of_Z, Z.mod_0_l by lia; reflexivity).
        rewrite E0 in ED. cbn [Z.eqb negb bind] in ED.
        destruct (new_point_mk (of_Z p 0) (of_Z p y)) as (t & Ht & EN). rewrite EN in ED.
        assert (O : eon (of_Z p 0, of_Z p y)).
        { apply (eon_xx K a d a_sq a_nz d_nonsq). rewrite X0. apply Zp_eq. reflexivity. }
        apply Ht in O as Et. rewrite Et in ED. cbn [bind] in ED.
        exists (of_Z p 0). eexists. split; [exact ED|]. split; [apply wrep_mk; [apply erep_one|exact O]|exact E0].
    - right. cbn [andb] in ED.
      assert (R0 : r <> F0). { intros ->. rewrite <- not_true_iff_false in Z0. apply Z0, fpelt_eqb_fe. reflexivity. }
      rewrite sign_bit_fe in ED.
      assert (exists s' : K, (if negb (zv r mod 2 =? s) then neg (fe r) else Ret (fe r)) = Ret (fe s')
        /\ Fmul s' s' = Fmul r r /\ zv s' mod 2 = s) as (s' & En & Sq' & Par).
      { pose proof (WeierP.parity_opp p Hp Hp2 r R0) as PO. rewrite !Zmod_even in *.
        destruct (negb ((if Z.even (zv r) then 0 else 1) =? s)) eqn:Fl.
        - exists (Fopp r). split; [apply neg_fe; lia|]. split; [apply (WeierP.Fopp_sqr K)|]. rewrite Zmod_even, PO.
          apply negb_true_iff, Z.eqb_neq in Fl. destruct (Z.even (zv r)); cbn [negb]; lia.
        - exists r. split; [reflexivity|]. split; [reflexivity|]. rewrite Zmod_even.
          apply negb_false_iff, Z.eqb_eq in Fl. exact Fl. }
      rewrite En in ED. cbn [bind] in ED. destruct (new_point_mk s' (of_Z p y)) as (t & Ht & EN). rewrite EN in ED.
      destruct t; cbn [bind] in ED.
      + left. split; [exact G|]. exists s'. eexists. split; [exact ED|]. split; [|exact Par].
        apply wrep_mk; [apply erep_one|]. apply Ht. reflexivity.
      + right. split; [exact G|].
        assert (N : forall x : K, ~ eon (x, of_Z p y)).
        { intros x O. apply diff_false_true. apply Ht. apply (eon_xx K a d a_sq a_nz d_nonsq) in O.
          apply (eon_xx K a d a_sq a_nz d_nonsq). rewrite Sq'. apply Sq. exists x. exact O. }
        split; [|split; [exact N|eauto]]. right. intro X0. apply (N F0). apply (eon_xx K a d a_sq a_nz d_nonsq). rewrite X0.
        apply Zp_eq. reflexivity.
  Qed.
End E.
