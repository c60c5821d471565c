(** The Weierstrass model on representatives of points. *)
From Coq Require Import ZArith Znumtheory Lia String Bool List Ring Field.
From Verif.Math Require Import Fld Zp Residue ECGroup RCB.
From Verif.Spec Require Import Arith Curve.
From Verif.Model Require Import Out BigInt PrimeField Scalar WCurve.
From Verif.Proofs Require Import FieldP FieldProps BytesP SerialProps ScalarProps CurveP LadderP.
Import ListNotations.
Open Scope Z_scope.

(** the polynomials as the code computes them *)
Section Code.
  Variable K : Fld.
  Add Field KF : (Fth K).
  Open Scope fld_scope.
  Variables a b : K.
  Definition code_add (x1 y1 z1 x2 y2 z2 : K) : K * K * K :=
    let b3 := b + b + b in
    let t0 := x1 * x2 in let t1 := y1 * y2 in let t2 := z1 * z2 in
    let t3 := x1 + y1 in let t4 := x2 + y2 in let t3 := t3 * t4 in
    let t4 := t0 + t1 in let t3 := t3 - t4 in
    let t4 := x1 + z1 in let t5 := x2 + z2 in let t4 := t4 * t5 in
    let t5 := t0 + t2 in let t4 := t4 - t5 in
    let t5 := y1 + z1 in let x3 := y2 + z2 in let t5 := t5 * x3 in
    let x3 := t1 + t2 in let t5 := t5 - x3 in
    let z3 := a * t4 in let x3 := b3 * t2 in let z3 := x3 + z3 in
    let x3 := t1 - z3 in let z3 := t1 + z3 in let y3 := x3 * z3 in
    let t1 := t0 + t0 in let t1 := t1 + t0 in let t2 := a * t2 in let t4 := b3 * t4 in
    let t1 := t1 + t2 in let t2 := t0 - t2 in let t2 := a * t2 in let t4 := t4 + t2 in
    let t0 := t1 * t4 in let y3 := y3 + t0 in let t0 := t5 * t4 in
    let x3 := t3 * x3 in let x3 := x3 - t0 in let t0 := t3 * t1 in
    let z3 := t5 * z3 in let z3 := z3 + t0 in (x3, y3, z3).
  Lemma code_add_spec x1 y1 z1 x2 y2 z2 : code_add x1 y1 z1 x2 y2 z2 =
    (rX K a b x1 y1 z1 x2 y2 z2, rY K a b x1 y1 z1 x2 y2 z2, rZ K a b x1 y1 z1 x2 y2 z2).
  Proof. unfold code_add, rX, rY, rZ. f_equal; [f_equal|]; ring. Qed.
  Definition code_double (x y z : K) : K * K * K :=
    let b3 := b + b + b in
    let t0 := x * x in let t1 := y * y in let t2 := z * z in
    let t3 := x * y in let t3 := t3 + t3 in
    let z3 := x * z in let z3 := z3 + z3 in
    let x3 := a * z3 in let y3 := b3 * t2 in let y3 := x3 + y3 in
    let x3 := t1 - y3 in let y3 := t1 + y3 in let y3 := x3 * y3 in let x3 := t3 * x3 in
    let z3 := b3 * z3 in let t2 := a * t2 in let t3 := t0 - t2 in let t3 := a * t3 in let t3 := t3 + z3 in
    let z3 := t0 + t0 in let t0 := z3 + t0 in let t0 := t0 + t2 in let t0 := t0 * t3 in
    let y3 := y3 + t0 in let t2 := y * z in let t2 := t2 + t2 in let t0 := t2 * t3 in
    let x3 := x3 - t0 in let z3 := t2 * t1 in let z3 := z3 + z3 in let z3 := z3 + z3 in (x3, y3, z3).
  Lemma code_double_spec x y z : code_double x y z = (rX K a b x y z x y z, rY K a b x y z x y z, dZ K y z).
  Proof. unfold code_double, rX, rY, dZ. f_equal; [f_equal|]; ring. Qed.
  Lemma code_on (x y z : K) :
    x * (x * x) + z * (z * (a * x + b * z) - y * y) = 0 <-> y * y * z = x * x * x + a * x * (z * z) + b * (z * z * z).
  Proof.
    rewrite <- (Fsub_zero K (y * y * z)). split; intro H.
    - transitivity (- (x * (x * x) + z * (z * (a * x + b * z) - y * y))); [ring|]. rewrite H. ring.
    - transitivity (- (y * y * z - (x * x * x + a * x * (z * z) + b * (z * z * z)))); [ring|]. rewrite H. ring.
  Qed.
  Lemma code_affine (x y : K) : y * y * 1 = x * x * x + a * x * (1 * 1) + b * (1 * 1 * 1) <-> on K 0 a b (Aff K x y).
  Proof.
    cbn. unfold cubic. split; intro E; [transitivity (y * y * 1); [ring|]; rewrite E; ring|].
    transitivity (y * y); [ring|]. rewrite E. ring.
  Qed.
  (** cross products decide equality of representatives *)
  Lemma rep_cross X1 Y1 Z1 X2 Y2 Z2 A B : rep K X1 Y1 Z1 A -> rep K X2 Y2 Z2 B ->
    (X1 * Z2 = Z1 * X2 /\ Y1 * Z2 = Z1 * Y2 <-> A = B).
  Proof.
    destruct A as [|x y], B as [|u v]; cbn [rep].
    - intros (-> & H1 & ->) (-> & H2 & ->). split; [reflexivity|intros _; split; ring].
    - intros (-> & H1 & ->) (H2 & -> & ->). split; [|discriminate].
      intros [_ E]. exfalso. apply (Fmul_nonzero K Y1 Z2); [exact H1|exact H2|]. rewrite E. ring.
    - intros (H2 & -> & ->) (-> & H1 & ->). split; [|discriminate].
      intros [_ E]. exfalso. apply (Fmul_nonzero K Z1 Y2); [exact H2|exact H1|]. rewrite <- E. ring.
    - intros (H1 & -> & ->) (H2 & -> & ->).
      assert (H : Z1 * Z2 <> 0) by (apply Fmul_nonzero; assumption). split.
      + intros [E1 E2]. f_equal; apply (Fcancel_l K) with (Z1 * Z2); try exact H.
        * transitivity (x * Z1 * Z2); [ring|]. rewrite E1. ring.
        * transitivity (y * Z1 * Z2); [ring|]. rewrite E2. ring.
      + intro E. injection E as -> ->. split; ring.
  Qed.
  Lemma rep_inv x y X Y Z : rep K X Y Z (Aff K x y) -> X * Finv Z = x /\ Y * Finv Z = y.
  Proof. intros (Hz & -> & ->). split; field; exact Hz. Qed.
  Lemma rep_one x y : rep K x y 1 (Aff K x y).
  Proof. cbn. repeat split; try ring. apply F_1_neq_0. Qed.
  Lemma rep_opp X Y Z A : rep K X Y Z A -> rep K X (- Y) Z (popp K A).
  Proof.
    destruct A as [|x y]; cbn.
    - intros (-> & H & ->). repeat split. apply Fopp_nonzero, H.
    - intros (H & -> & ->). repeat split; [exact H|ring].
  Qed.
  Lemma Fopp_sqr (s : K) : (- s) * (- s) = s * s. Proof. ring. Qed.
  Lemma F_1_l (s : K) : 1 * s = s. Proof. ring. Qed.
  Lemma Fopp_0 : - (0 : K) = 0. Proof. ring. Qed.
  Lemma on_value (x y : K) : on K 0 a b (Aff K x y) -> y * y = (x * x + a) * x + b.
  Proof. cbn. unfold cubic. intros ->. ring. Qed.
  Lemma on_other (x y s : K) : on K 0 a b (Aff K x y) -> s * s = (x * x + a) * x + b -> on K 0 a b (Aff K x s).
  Proof. cbn. unfold cubic. intros _ ->. ring. Qed.
End Code.

Lemma parity_opp p (Hp : prime p) (Hp2 : 2 < p) (s : ZpF p Hp) : s <> F0 ->
  Z.even (zv (Fopp s : ZpF p Hp)) = negb (Z.even (zv s)).
Proof.
  intro N. pose proof (zv_range p s ltac:(lia)) as R.
  assert (N' : zv s <> 0) by (intro E; apply N, Zp_eq; rewrite E; reflexivity).
  change (Z.even ((- zv s) mod p) = negb (Z.even (zv s))).
  assert ((- zv s) mod p = p - zv s) as -> by (symmetry; apply Z.mod_unique with (-1); lia).
  rewrite Z.even_sub. destruct (half_spec p Hp ltac:(lia)) as (_ & _ & Ep).
  replace (Z.even p) with false; [destruct (Z.even (zv s)); reflexivity|].
  rewrite Ep, Z.even_add, Z.even_mul. reflexivity.
Qed.
Lemma app_inv_len {A} (l l' m m' : list A) : l ++ m = l' ++ m' -> length l = length l' -> l = l' /\ m = m'.
Proof.
  revert l'. induction l as [|x l IH]; intros [|x' l'] E L; try discriminate; [auto|].
  injection E as -> E. injection L as L. destruct (IH l' E L) as [-> ->]. auto.
Qed.

Section W.
  Variable p : Z.
  Hypothesis Hp : prime p.
  Hypothesis Hp2 : 2 < p.
  Local Notation K := (ZpF p Hp).
  Variables a b : K.
  Variable e : Curve.
  Hypothesis ef : c_f e = mkFp p.
  Hypothesis ea : c_a e = fe a.
  Hypothesis eb : c_b e = fe b.
  Local Notation on := (on K F0 a b).
  Local Notation padd := (padd K F0 a).

  Definition mk (X Y Z : K) : ProyCoordinates := mkProy (fe X) (fe Y) (fe Z).

  Lemma on_curve_mk (X Y Z : K) : exists t, is_on_curve e (mk X Y Z) = Ret t
    /\ (t = true <-> (Fmul (Fmul Y Y) Z = Fadd (Fadd (Fmul (Fmul X X) X) (Fmul (Fmul a X) (Fmul Z Z)))
        (Fmul b (Fmul (Fmul Z Z) Z)) :> K)).
  Proof.
    unfold is_on_curve, mk. cbn [px py pz]. rewrite ea, eb. fes. eexists. split; [reflexivity|].
    rewrite is_zero_fe by lia. apply (code_on K a b X Y Z).
  Qed.

  (** P is a valid representative of the point A of the curve *)
  Definition wrep (P : Point) (A : pt K) : Prop :=
    pe P = e /\ (exists X Y Z : K, pc P = mk X Y Z /\ rep K X Y Z A) /\ on A.

  Lemma new_proy_mk (X Y Z : K) A : rep K X Y Z A -> on A -> new_proy_point e (mk X Y Z) = Ret (mkPoint e (mk X Y Z)).
  Proof.
    intros R H. unfold new_proy_point. destruct (on_curve_mk X Y Z) as (t & -> & Ht). cbn [bind].
    assert (t = true) as ->; [|reflexivity]. apply Ht. exact (rep_on K a b X Y Z A R H).
  Qed.
  Lemma wrep_mk (X Y Z : K) A : rep K X Y Z A -> on A -> wrep (mkPoint e (mk X Y Z)) A.
  Proof. intros R H. split; [reflexivity|]. split; [|exact H]. exists X, Y, Z. split; [reflexivity|exact R]. Qed.

  Lemma one_K : of_Z p 1 = (F1 : K). Proof. reflexivity. Qed.

  Lemma new_point_mk (x y : K) : exists t, (t = true <-> on (Aff K x y))
    /\ new_point e (fe x) (fe y) = if t then Ret (mkPoint e (mk x y F1)) else Panic ERR_ECC_NEW.
  Proof.
    unfold new_point. rewrite ef. fes. change (mkProy (fe x) (fe y) (fe (of_Z p 1))) with (mk x y (F1 : K)).
    destruct (on_curve_mk x y F1) as (t & -> & Ht). cbn [bind]. exists t. split; [|destruct t; reflexivity].
    rewrite Ht. exact (code_affine K a b x y).
  Qed.

  Lemma identity_wrep : exists P, identity e = Ret P /\ wrep P (Inf K).
  Proof.
    unfold identity. rewrite ef. fes.
    assert (R : rep K (F0 : K) F1 F0 (Inf K)) by exact (conj eq_refl (conj (F_1_neq_0 K) eq_refl)).
    change (mkProy _ _ _) with (mk (F0 : K) F1 F0).
    rewrite (new_proy_mk _ _ _ _ R I). eexists. split; [reflexivity|]. apply wrep_mk; [exact R|exact I].
  Qed.

  Hypothesis noroot : forall x : K, Fadd (Fadd (Fmul (Fmul x x) x) (Fmul a x)) b <> F0.
  Local Notation two := (two_K p Hp Hp2).

  Lemma curve_eqb_refl c : curve_eqb c c = true.
  Proof.
    unfold curve_eqb, fp_eqb, fpelt_eqb. rewrite !fp_eqb_refl, !Z.eqb_refl. reflexivity.
  Qed.

  Lemma core_add_wrep P Q A B : wrep P A -> wrep Q B ->
    exists R, core_add P Q = Ret R /\ wrep R (padd A B).
  Proof.
    intros (EP & (X1 & Y1 & Z1 & CP & RP) & OA) (EQ & (X2 & Y2 & Z2 & CQ & RQ) & OB).
    pose proof (rcb_add K a b two noroot _ _ _ _ _ _ _ _ RP RQ OA OB) as R.
    pose proof (on_padd K F0 a b two _ _ OA OB) as O.
    unfold core_add. rewrite EP, CP, CQ, ea, eb. cbn [px py pz mk]. fes.
    match goal with |- context [new_proy_point e ?c] =>
      change c with (let '(x, y, z) := code_add K a b X1 Y1 Z1 X2 Y2 Z2 in mk x y z) end.
    rewrite code_add_spec. cbv beta iota zeta. rewrite (new_proy_mk _ _ _ _ R O).
    eexists. split; [reflexivity|apply wrep_mk; assumption].
  Qed.
  Lemma core_doubling_wrep P A : wrep P A -> exists R, core_doubling P = Ret R /\ wrep R (padd A A).
  Proof.
    intros (EP & (X1 & Y1 & Z1 & CP & RP) & OA).
    pose proof (rcb_double K a b two noroot _ _ _ _ RP OA) as R.
    pose proof (on_padd K F0 a b two _ _ OA OA) as O.
    unfold core_doubling. rewrite EP, CP, ea, eb. cbn [px py pz mk]. fes.
    match goal with |- context [new_proy_point e ?c] =>
      change c with (let '(x, y, z) := code_double K a b X1 Y1 Z1 in mk x y z) end.
    rewrite code_double_spec. cbv beta iota zeta. rewrite (new_proy_mk _ _ _ _ R O).
    eexists. split; [reflexivity|apply wrep_mk; assumption].
  Qed.
  Lemma neg_wrep P A : wrep P A -> exists R, pt_neg P = Ret R /\ wrep R (popp K A).
  Proof.
    intros (EP & (X1 & Y1 & Z1 & CP & RP) & OA). unfold pt_neg, core_neg. rewrite EP, CP. cbn [px py pz mk]. fes.
    change (mkProy _ _ _) with (mk X1 (Fopp Y1) Z1).
    pose proof (rep_opp K _ _ _ _ RP) as R. pose proof (on_popp K F0 a b _ OA) as O.
    rewrite (new_proy_mk _ _ _ _ R O). eexists. split; [reflexivity|apply wrep_mk; assumption].
  Qed.
  Lemma add_wrep P Q A B : wrep P A -> wrep Q B -> exists R, pt_add P Q = Ret R /\ wrep R (padd A B).
  Proof.
    intros HP HQ. unfold pt_add. rewrite (proj1 HP), (proj1 HQ), curve_eqb_refl. apply core_add_wrep; assumption.
  Qed.
  Lemma sub_wrep P Q A B : wrep P A -> wrep Q B -> exists R, pt_sub P Q = Ret R /\ wrep R (padd A (popp K B)).
  Proof.
    intros HP HQ. unfold pt_sub. destruct (neg_wrep Q B HQ) as (N & -> & HN). apply add_wrep; assumption.
  Qed.

  Lemma eqb_wrep P Q A B : wrep P A -> wrep Q B -> exists t, pt_eqb P Q = Ret t /\ (t = true <-> A = B).
  Proof.
    intros (EP & (X1 & Y1 & Z1 & CP & RP) & OA) (EQ & (X2 & Y2 & Z2 & CQ & RQ) & OB).
    unfold pt_eqb. rewrite EP, EQ, CP, CQ, curve_eqb_refl. cbn [px py pz mk]. fes.
    eexists. split; [reflexivity|]. cbn [andb]. rewrite andb_true_iff, !fpelt_eqb_fe by lia.
    apply (rep_cross K _ _ _ _ _ _ _ _ RP RQ).
  Qed.

  Lemma is_zero_wrep P A : wrep P A -> (pt_is_zero P = true <-> A = Inf K).
  Proof.
    intros (EP & (X1 & Y1 & Z1 & CP & RP) & OA). unfold pt_is_zero. rewrite CP. cbn [px py pz mk].
    rewrite !andb_true_iff, negb_true_iff, !is_zero_fe by lia.
    destruct A as [|x y]; cbn in RP.
    - destruct RP as (-> & HY & ->). split; [reflexivity|]. intros _. repeat split.
      destruct (is_zero (fe Y1)) eqn:E; [|reflexivity]. apply is_zero_fe in E. contradiction.
    - destruct RP as (HZ & _ & _). split; [|discriminate]. intros (_ & E). contradiction.
  Qed.

  Lemma normalize_wrep P x y : wrep P (Aff K x y) -> normalize P = Ret (mkPoint e (mk x y F1)).
  Proof.
    intros (EP & (X1 & Y1 & Z1 & CP & RP) & OA). unfold normalize. rewrite EP, CP. cbn [px py pz mk]. fes.
    rewrite set_one_fe by lia. destruct (rep_inv K _ _ _ _ _ RP) as [EX EY].
    unfold mk. apply (f_equal Ret), (f_equal (mkPoint e)), f_equal3; [apply f_equal, EX|apply f_equal, EY|reflexivity].
  Qed.
  Lemma normalize_inf P : wrep P (Inf K) -> normalize P = Ret (mkPoint e (mk F0 F0 F1)).
  Proof.
    intros (EP & (X1 & Y1 & Z1 & CP & (-> & HY & ->)) & OA). unfold normalize. rewrite EP, CP. cbn [px py pz mk]. fes.
    rewrite set_one_fe by lia. change (F0 : K) with (of_Z p 0). rewrite zinv_0 by lia.
    unfold mk. apply (f_equal Ret), (f_equal (mkPoint e)), f_equal3; [| |reflexivity]; apply f_equal, Zp_eq; cbn; rewrite ?Z.mul_0_r; reflexivity.
  Qed.

  (** the double-and-add loop *)
  Lemma mul_wrep oc P A k : wrep P A -> sr k = c_r e -> 0 < sk k -> bits (sk k) < 2 ^ 64 ->
    exists R, pt_mul oc P k = Ret R /\ wrep R (nmul p Hp F0 a (Z.to_nat (sk k)) A).
  Proof.
    intros HP Er Hk H64. unfold pt_mul. rewrite (proj1 HP), Er, Z.eqb_refl. cbn [do_if_eq]. unfold core_mul.
    rewrite (proj1 HP). destruct identity_wrep as (I0 & -> & HI). cbn [bind].
    apply (scalar_loop (fun n q => wrep q (nmul p Hp F0 a n A))); [|exact HI|exact Hk|exact H64].
    intros n q t Hq. destruct (core_doubling_wrep q _ Hq) as (D & -> & HD). cbn [bind].
    rewrite (nmul_add p Hp Hp2 F0 a b (nonsing K a b noroot) n n A (proj2 (proj2 HP))) in HD. destruct t.
    - destruct (add_wrep D P _ A HD HP) as (R & -> & HR). exists R. split; [reflexivity|].
      rewrite Nat.add_1_r. exact HR.
    - exists D. split; [reflexivity|]. rewrite Nat.add_0_r. exact HD.
  Qed.
  Lemma mul_zero_wrep oc P A r : wrep P A -> r = c_r e ->
    exists R, wrep R (Inf K) /\ pt_mul oc P (mkScalar 0 r) = if oc then Panic "attempt to subtract with overflow" else Ret R.
  Proof.
    intros HP ->. unfold pt_mul. cbn [sr]. rewrite (proj1 HP), Z.eqb_refl. cbn [do_if_eq]. unfold core_mul.
    rewrite (proj1 HP). destruct identity_wrep as (I0 & -> & HI). cbn [bind]. exists I0. split; [exact HI|].
    apply mul_loop_zero.
  Qed.

  (** *** bytes *)
  Local Notation nb := (size_bytes (mkFp p)).
  Lemma be_digits_fe (x : K) : exists bx, elt_to_bytes_be (fe x) = Ret bx /\ be_digits nb (zv x) bx.
  Proof.
    destruct (to_bytes_spec p (fe x)) as (bx & E & _ & L & B & V); [apply valid_fe; lia|].
    exists bx. split; [exact E|]. repeat split; assumption.
  Qed.
  Lemma sign_tag_fe (y : K) : sign_tag (sgn0 (fe y)) = if Z.even (zv y) then 2 else 3.
  Proof. rewrite (sgn0_val p) by (apply valid_fe; lia). cbn [val fe]. destruct (Z.even (zv y)); reflexivity. Qed.

  Lemma encode_wrep P x y c : wrep P (Aff K x y) -> exists buf, encode P c = Ret buf /\ sec1 nb (zv x) (zv y) c buf.
  Proof.
    intro H. unfold encode. rewrite (normalize_wrep P x y H). cbn [bind pc].
    assert (Z0 : pt_is_zero (mkPoint e (mk x y F1)) = false).
    { unfold pt_is_zero. cbn [pc mk px py pz]. apply andb_false_iff. right.
      destruct (is_zero (fe (F1 : K))) eqn:E; [|reflexivity]. apply is_zero_fe in E.
      exfalso. exact (F_1_neq_0 K E). }
    rewrite Z0. cbn [mk px py].
    destruct (be_digits_fe x) as (bx & -> & Dx). destruct (be_digits_fe y) as (by_ & -> & Dy). cbn [bind].
    destruct c; eexists; (split; [reflexivity|]).
    - rewrite sign_tag_fe. constructor. exact Dx.
    - constructor; assumption.
  Qed.
  Lemma encode_inf P c : wrep P (Inf K) -> encode P c = Ret (if c then 2 :: repeat 0 (Z.to_nat nb) else 4 :: repeat 0 (2 * Z.to_nat nb)).
  Proof.
    intro H. unfold encode. rewrite (normalize_inf P H). cbn [bind pc].
    assert (Z0 : pt_is_zero (mkPoint e (mk F0 F0 F1)) = false).
    { unfold pt_is_zero. cbn [pc mk px py pz]. apply andb_false_iff. right.
      destruct (is_zero (fe (F1 : K))) eqn:E; [|reflexivity]. apply is_zero_fe in E.
      exfalso. exact (F_1_neq_0 K E). }
    rewrite Z0. cbn [mk px py].
    destruct (be_digits_fe F0) as (bx & -> & Dx). cbn [bind]. rewrite sign_tag_fe.
    assert (E : bx = repeat 0 (Z.to_nat nb)).
    { destruct Dx as (L & B & V). apply be_value_inj; [exact B| | |].
      - apply Forall_forall. intros z Hz. apply repeat_spec in Hz. subst. unfold is_byte. lia.
      - rewrite repeat_length. lia.
      - rewrite V, be_value_zeros. reflexivity. }
    rewrite E. cbn [Nat.mul]. rewrite Nat.add_0_r, repeat_app. destruct c; reflexivity.
  Qed.
  Lemma sec1_unique x y c b1 b2 : sec1 nb x y c b1 -> sec1 nb x y c b2 -> b1 = b2.
  Proof.
    assert (D : forall v l m, be_digits nb v l -> be_digits nb v m -> l = m).
    { intros v l m (L1 & B1 & V1) (L2 & B2 & V2). apply be_value_inj; try assumption; [lia|congruence]. }
    intros H1 H2. inversion H1 as [bx D1 E1|bx by_ D1 D2 E1]; subst; inversion H2 as [bx' D1' E1'|bx' by_' D1' D2' E1']; subst.
    - f_equal. eapply D; eassumption.
    - f_equal. f_equal; eapply D; eassumption.
  Qed.

  Lemma sec1_same_y (m : Z) (x y y' : K) c buf : sec1 m (zv x) (zv y) c buf -> sec1 m (zv x) (zv y') c buf ->
    y = y' \/ (c = true /\ Z.even (zv y) = Z.even (zv y')).
  Proof.
    intros S S'. inversion S as [bx Dx Ec Eb|bx by_ Dx Dy Ec Eb]; subst; inversion S' as [bx' Dx' Ec' E|bx' by_' Dx' Dy' Ec' E]; subst.
    - right. split; [reflexivity|]. destruct (Z.even (zv y)), (Z.even (zv y')); congruence.
    - left. apply Zp_eq. destruct Dy as (_ & _ & Vy), Dy' as (_ & _ & Vy'), Dx as (Lx & _ & _), Dx' as (Lx' & _ & _).
      rewrite <- Vy, <- Vy'. f_equal. symmetry. apply app_inv_len in E; [apply E|lia].
  Qed.

  Lemma slice_mid tag bx rest : Z.of_nat (length bx) = nb -> slice (tag :: bx ++ rest) 1 (nb + 1) = Ret bx.
  Proof.
    intro L. unfold slice. cbn [length]. rewrite app_length.
    destruct (Z.leb_spec 1 (nb + 1)); [|lia]. destruct (Z.leb_spec (nb + 1) (Z.of_nat (S (length bx + length rest)))); [|lia].
    cbn [andb]. f_equal. change (Z.to_nat 1) with 1%nat. cbn [skipn].
    replace (Z.to_nat (nb + 1 - 1)) with (length bx) by lia. rewrite firstn_app, firstn_all, Nat.sub_diag. apply app_nil_r.
  Qed.
  Lemma slice_end tag bx rest : Z.of_nat (length bx) = nb ->
    slice (tag :: bx ++ rest) (nb + 1) (Z.of_nat (length (tag :: bx ++ rest))) = Ret rest.
  Proof.
    intro L. unfold slice. cbn [length]. rewrite app_length.
    destruct (Z.leb_spec (nb + 1) (Z.of_nat (S (length bx + length rest)))); [|lia].
    rewrite Z.leb_refl. cbn [andb]. f_equal.
    replace (Z.to_nat (nb + 1)) with (S (length bx)) by lia. cbn [skipn].
    rewrite skipn_app, skipn_all, Nat.sub_diag. cbn [app skipn].
    replace (Z.to_nat _) with (length rest) by lia. apply firstn_all.
  Qed.

  Lemma n_pos : 0 < nb. Proof. exact (size_pos p ltac:(lia)). Qed.

  Lemma decode_len1 tag : exists m, decode e [tag] = Panic m.
  Proof.
    unfold decode. rewrite ef. change (Z.of_nat (length [tag])) with 1. cbn [Z.eqb Pos.eqb orb negb].
    unfold slice. change (Z.of_nat (length [tag])) with 1. pose proof n_pos.
    destruct (Z.leb_spec (nb + 1) 1); [lia|]. rewrite andb_false_r. eexists. reflexivity.
  Qed.

  Lemma decode_bad buf : Forall is_byte buf -> length buf <> 1%nat ->
    (~ exists c x y, coord p x /\ coord p y /\ sec1 nb x y c buf) -> exists m, decode e buf = Ret (Err m).
  Proof.
    intros B L1 H. unfold decode. rewrite ef. pose proof n_pos as Hn. cbn [modulus].
    destruct (Z.eqb_spec (Z.of_nat (length buf)) 1); [lia|]. cbn [orb].
    destruct (Z.eqb_spec (Z.of_nat (length buf)) (nb + 1)) as [L|L];
    destruct (Z.eqb_spec (Z.of_nat (length buf)) (2 * nb + 1)) as [L'|L']; cbn [orb negb]; try lia;
    try (eexists; reflexivity).
    - destruct buf as [|tag bx]; [cbn in L; lia|].
      assert (Lb : Z.of_nat (length bx) = nb) by (cbn [length] in L; lia).
      rewrite <- (app_nil_r bx), slice_mid by exact Lb. cbn [bind]. rewrite from_bytes_be_value.
      inversion B as [|? ? Bt Bx]; subst. pose proof (be_value_bound _ Bx) as [Hb _].
      destruct (Z.leb_spec p (be_value bx)) as [Hx|Hx]; [eexists; reflexivity|].
      destruct (Z.eqb_spec tag 0); [eexists; reflexivity|].
      destruct (Z.eqb_spec tag 4); [eexists; reflexivity|].
      destruct ((tag =? 2) || (tag =? 3)) eqn:T; [|eexists; reflexivity].
      exfalso. apply H. exists true, (be_value bx), (if tag =? 2 then 0 else 1).
      split; [split; assumption|]. split; [unfold coord; destruct (tag =? 2); lia|].
      assert (tag = if Z.even (if tag =? 2 then 0 else 1) then 2 else 3) as Et.
      { apply orb_true_iff in T. rewrite !Z.eqb_eq in T. destruct T as [T|T]; rewrite T; reflexivity. }
      rewrite Et at 2. constructor. repeat split; assumption.
    - destruct buf as [|tag bb]; [cbn [length] in L'; lia|].
      set (bx := firstn (Z.to_nat nb) bb). set (by_ := skipn (Z.to_nat nb) bb).
      assert (Eb : bb = bx ++ by_) by (symmetry; apply firstn_skipn).
      assert (Lb : Z.of_nat (length bb) = 2 * nb) by (cbn [length] in L'; lia).
      assert (Lx : Z.of_nat (length bx) = nb) by (unfold bx; rewrite firstn_length; lia).
      assert (Ly : Z.of_nat (length by_) = nb) by (unfold by_; rewrite skipn_length; lia).
      clearbody bx by_. subst bb. rewrite slice_mid by exact Lx. cbn [bind]. rewrite from_bytes_be_value.
      inversion B as [|? ? Bt Bb]; subst. apply Forall_app in Bb. destruct Bb as [Bx Byy].
      pose proof (be_value_bound _ Bx) as [Hbx _]. pose proof (be_value_bound _ Byy) as [Hby _].
      destruct (Z.leb_spec p (be_value bx)) as [Hx|Hx]; [eexists; reflexivity|].
      destruct (Z.eqb_spec tag 0); [eexists; reflexivity|].
      destruct (Z.eqb_spec tag 4) as [->|].
      + cbn [negb]. fes. rewrite slice_end by exact Lx. cbn [bind]. rewrite from_bytes_be_value.
        destruct (Z.leb_spec p (be_value by_)) as [Hy|Hy]; [eexists; reflexivity|].
        exfalso. apply H. exists false, (be_value bx), (be_value by_).
        split; [split; assumption|]. split; [split; assumption|]. constructor; repeat split; assumption.
      + destruct ((tag =? 2) || (tag =? 3)); eexists; reflexivity.
  Qed.

  (** whether a text is framed at all is decidable *)
  Definition framed buf := exists c x y, coord p x /\ coord p y /\ sec1 nb x y c buf.
  Lemma framed_iff tag bb : Forall is_byte (tag :: bb) ->
    (framed (tag :: bb) <->
      (Z.of_nat (length bb) = nb /\ (tag = 2 \/ tag = 3) /\ be_value bb < p)
      \/ (Z.of_nat (length bb) = 2 * nb /\ tag = 4 /\ be_value (firstn (Z.to_nat nb) bb) < p /\ be_value (skipn (Z.to_nat nb) bb) < p)).
  Proof.
    intro B. pose proof n_pos as Hn. inversion B as [|? ? Bt Bb]; subst. split.
    - intros (c & x & y & Cx & Cy & S). unfold coord in *. inversion S as [bx Dx Ec Eb|bx by_ Dx Dy Ec Eb]; subst.
      + left. destruct Dx as (L & _ & V). split; [exact L|]. split; [destruct (Z.even y); auto|lia].
      + right. destruct Dx as (Lx & _ & Vx), Dy as (Ly & _ & Vy). rewrite app_length.
        split; [lia|]. split; [reflexivity|]. replace (Z.to_nat nb) with (length bx) by lia.
        rewrite firstn_app, skipn_app, firstn_all, skipn_all, Nat.sub_diag. cbn [firstn skipn app]. rewrite app_nil_r. lia.
    - intros [(L & T & V)|(L & -> & Vx & Vy)].
      + exists true, (be_value bb), (tag - 2). pose proof (be_value_bound _ Bb). split; [unfold coord; lia|].
        split; [unfold coord; lia|].
        assert (E : tag :: bb = (if Z.even (tag - 2) then 2 else 3) :: bb) by (destruct T as [T|T]; rewrite T; reflexivity).
        rewrite E. constructor. repeat split; assumption.
      + pose proof Bb as Bb'. rewrite <- (firstn_skipn (Z.to_nat nb) bb) in Bb'. apply Forall_app in Bb'. destruct Bb' as [B1 B2].
        exists false, (be_value (firstn (Z.to_nat nb) bb)), (be_value (skipn (Z.to_nat nb) bb)).
        pose proof (be_value_bound _ B1). pose proof (be_value_bound _ B2).
        split; [unfold coord; lia|]. split; [unfold coord; lia|].
        rewrite <- (firstn_skipn (Z.to_nat nb) bb) at 3. constructor; repeat split; try assumption.
        * rewrite firstn_length. lia.
        * rewrite skipn_length. lia.
  Qed.
  Lemma framed_dec buf : Forall is_byte buf -> framed buf \/ ~ framed buf.
  Proof.
    intro B. destruct buf as [|tag bb]; [right; intros (c & x & y & _ & _ & S); inversion S|].
    rewrite (framed_iff tag bb B).
    destruct (Z.eq_dec (Z.of_nat (length bb)) nb), (Z.eq_dec (Z.of_nat (length bb)) (2 * nb)),
      (Z.eq_dec tag 2), (Z.eq_dec tag 3), (Z.eq_dec tag 4), (Z_lt_dec (be_value bb) p),
      (Z_lt_dec (be_value (firstn (Z.to_nat nb) bb)) p), (Z_lt_dec (be_value (skipn (Z.to_nat nb) bb)) p); tauto.
  Qed.

  Hypothesis Hm : sqrt_modulus p.
  Lemma decode_framed (x y : K) c buf : sec1 nb (zv x) (zv y) c buf ->
    (exists Q (y' : K), decode e buf = Ret (Ok Q) /\ wrep Q (Aff K x y') /\ sec1 nb (zv x) (zv y') c buf)
    \/ (exists m, decode e buf = Panic m /\ forall (y' : K), sec1 nb (zv x) (zv y') c buf -> ~ on (Aff K x y')).
  Proof.
    intro S. pose proof n_pos as Hn.
    inversion S as [bx Dx Ec Eb|bx by_ Dx Dy Ec Eb]; subst; clear S.
    - set (tag := if Z.even (zv y) then 2 else 3). destruct Dx as (Lx & Bx & Vx).
      assert (Ht : (tag =? 0) = false /\ (tag =? 4) = false /\ (tag =? 2) || (tag =? 3) = true)
        by (unfold tag; destruct (Z.even (zv y)); auto).
      destruct Ht as (T0 & T4 & T23).
      assert (ED : decode e (tag :: bx) =
        bind (sqrt (fe (Fadd (Fmul (Fadd (Fmul x x) a) x) b : K))) (fun y_sqrt =>
        bind (if negb (tag =? sign_tag (sgn0 y_sqrt)) then neg y_sqrt else Ret y_sqrt) (fun y =>
        bind (new_point e (fe x) y) (fun P => Ret (Ok P))))).
      { unfold decode. rewrite ef. cbn [modulus]. cbn [length]. rewrite Nat2Z.inj_succ, Lx.
        replace (Z.succ nb) with (nb + 1) by lia. rewrite Z.eqb_refl, orb_true_r. cbn [orb negb].
        rewrite <- (app_nil_r bx), slice_mid by exact Lx. cbn [bind]. rewrite from_bytes_be_value, Vx, T0, T4, T23.
        pose proof (zv_range p x ltac:(lia)). destruct (Z.leb_spec p (zv x)); [lia|]. fes.
        rewrite of_Z_zv, ea, eb. fes. reflexivity. }
      destruct (sqrt_fe p Hp (Fadd (Fmul (Fadd (Fmul x x) a) x) b : K) Hm) as (s & Es & Hs).
      rewrite Es in ED. cbn [bind] in ED. rewrite sign_tag_fe in ED.
      assert (exists s' : K, (if negb (tag =? (if Z.even (zv s) then 2 else 3)) then neg (fe s) else Ret (fe s)) = Ret (fe s')
        /\ Fmul s' s' = Fmul s s /\ (s' <> F0 -> tag = if Z.even (zv s') then 2 else 3)) as (s' & En & Sq & Par).
      { destruct (negb (tag =? (if Z.even (zv s) then 2 else 3))) eqn:Fl.
        - exists (Fopp s). split; [apply neg_fe; lia|]. split; [apply (Fopp_sqr K)|]. intro N.
          rewrite parity_opp; [|exact Hp2|intro Z0; apply N; rewrite Z0; apply (Fopp_0 K)].
          revert Fl. unfold tag. destruct (Z.even (zv y)), (Z.even (zv s)); cbn; congruence.
        - exists s. split; [reflexivity|]. split; [reflexivity|]. intros _.
          revert Fl. unfold tag. destruct (Z.even (zv y)), (Z.even (zv s)); cbn; congruence. }
      rewrite En in ED. cbn [bind] in ED.
      destruct (new_point_mk x s') as (t & Ht & EN). rewrite EN in ED. destruct t; cbn [bind] in ED.
      + left. assert (O : on (Aff K x s')) by (apply Ht; reflexivity).
        exists (mkPoint e (mk x s' F1)), s'. split; [exact ED|]. split; [apply wrep_mk; [apply rep_one|exact O]|].
        rewrite Par; [|apply (y_nonzero K a b noroot x s' O)]. constructor. repeat split; assumption.
      + right. exists ERR_ECC_NEW. split; [exact ED|]. intros y' _ O. apply (diff_false_true).
        apply Ht. apply (on_other K a b x y'); [exact O|]. rewrite Sq. apply Hs.
        exists y'. apply (on_value K a b x y' O).
    - destruct Dx as (Lx & Bx & Vx), Dy as (Ly & Byy & Vy).
      assert (ED : decode e (4 :: bx ++ by_) = bind (new_point e (fe x) (fe y)) (fun P => Ret (Ok P))).
      { unfold decode. rewrite ef. cbn [modulus].
        assert (L : Z.of_nat (length (4 :: bx ++ by_)) = 2 * nb + 1) by (cbn [length]; rewrite app_length; lia).
        rewrite slice_end, L by exact Lx.
        rewrite Z.eqb_refl, !orb_true_r. cbn [negb].
        rewrite slice_mid by exact Lx. cbn [bind]. rewrite !from_bytes_be_value, Vx, Vy. cbn [Z.eqb Pos.eqb].
        pose proof (zv_range p x ltac:(lia)). destruct (Z.leb_spec p (zv x)); [lia|].
        pose proof (zv_range p y ltac:(lia)). destruct (Z.leb_spec p (zv y)); [lia|]. fes.
        rewrite !of_Z_zv. reflexivity. }
      destruct (new_point_mk x y) as (t & Ht & EN). rewrite EN in ED. destruct t; cbn [bind] in ED.
      + left. assert (O : on (Aff K x y)) by (apply Ht; reflexivity).
        exists (mkPoint e (mk x y F1)), y. split; [exact ED|]. split; [apply wrep_mk; [apply rep_one|exact O]|].
        constructor; repeat split; assumption.
      + right. exists ERR_ECC_NEW. split; [exact ED|]. intros y' S' O.
        inversion S' as [|bx' by_' Dx' Dy' E0 E]; subst.
        assert (y' = y) as ->.
        { apply Zp_eq. destruct Dy' as (Ly' & _ & Vy'), Dx' as (Lx' & _ & _).
          assert (length bx' = length bx) as Lxx by lia.
          rewrite <- Vy, <- Vy'. f_equal. 
          apply app_inv_len in E; [|exact Lxx]. apply E. }
        apply Ht in O. discriminate O.
  Qed.
End W.
