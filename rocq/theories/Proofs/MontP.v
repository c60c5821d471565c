(** The Montgomery model on representatives of points. *)
From Coq Require Import ZArith Znumtheory Lia String Bool List Ring Field.
From Verif.Math Require Import Fld Zp Residue ECGroup RCB MontAdd.
From Verif.Spec Require Import Arith Curve.
From Verif.Model Require Import Out BigInt PrimeField Scalar MCurve.
From Verif.Proofs Require Import FieldP FieldProps BytesP SerialProps ScalarProps CurveP LadderP.
From Verif.Proofs Require WeierP.
Import ListNotations.
Open Scope Z_scope.

(** the polynomials as the code computes them *)
Section Code.
  Variable K : Fld.
  Add Field KF : (Fth K).
  Open Scope fld_scope.
  Variables a s : K.
  Definition code_add (x1 y1 z1 x2 y2 z2 : K) : K * K * K :=
    let t0 := x1 * x2 in let t1 := y1 * y2 in let t2 := z1 * z2 in
    let t3 := x1 * y2 in let t4 := x2 * y1 in
    let t5 := y1 * z2 in let t6 := y2 * z1 in
    let t7 := x1 * z2 in let t8 := x2 * z1 in
    let t9 := t7 + t8 in let ta := t9 + t0 * a in
    let rr := t5 + t6 in let tt := ta - t1 in
    let vv := t9 * a + t0 + t0 + t0 + t2 in
    let ss := (t3 - t4) * s + t0 - t2 in
    let uu := (t7 - t8) * s - t3 - t4 in
    let ww := (t5 - t6) * s + ta + t1 in
    (rr * ss - tt * uu, tt * ww - vv * ss, vv * uu - rr * ww).
  Lemma code_add_spec x1 y1 z1 x2 y2 z2 : code_add x1 y1 z1 x2 y2 z2 =
    (mX K a s x1 y1 z1 x2 y2 z2, mY K a s x1 y1 z1 x2 y2 z2, mZ K a s x1 y1 z1 x2 y2 z2).
  Proof. unfold code_add, mX, mY, mZ, mt, mw, mv, ms, mu, mr. f_equal; [f_equal|]; ring. Qed.
  Lemma code_on (b x y z : K) : b = 1 ->
    b * (y * y) * z - x * (x * x + a * x * z + z * z) = 0 <-> y * y * z = x * (x * x + a * x * z + z * z).
  Proof.
    intros ->. rewrite <- (Fsub_zero K (y * y * z)). split; intro H; rewrite <- H; ring.
  Qed.
  Lemma code_affine (x y : K) : y * y * 1 = x * (x * x + a * x * 1 + 1 * 1) <-> on K a 1 0 (Aff K x y).
  Proof.
    cbn. unfold cubic. split; intro E; [transitivity (y * y * 1); [ring|]; rewrite E; ring|].
    transitivity (y * y); [ring|]. rewrite E. ring.
  Qed.
  Definition rhs (x : K) : K := ((x + a) * x + 1) * x * (1 / 1).
  Lemma one_inv (z : K) : z * (1 / 1) = z.
  Proof. field. apply F_1_neq_0. Qed.
  Lemma on_value (x y : K) : on K a 1 0 (Aff K x y) -> y * y = rhs x.
  Proof. unfold rhs. rewrite one_inv. cbn. unfold cubic. intros ->. ring. Qed.
  Lemma on_other (x s' : K) : s' * s' = rhs x -> on K a 1 0 (Aff K x s').
  Proof. unfold rhs. rewrite one_inv. cbn. unfold cubic. intros ->. ring. Qed.
  Lemma origin_on : on K a 1 0 (Aff K 0 0).
  Proof. cbn. unfold cubic. ring. Qed.
End Code.

Section M.
  Variable p : Z.
  Hypothesis Hp : prime p.
  Hypothesis Hp2 : 2 < p.
  Local Notation K := (ZpF p Hp).
  Variables a b s : K.
  Variable e : Curve.
  Hypothesis ef : c_f e = mkFp p.
  Hypothesis ea : c_a e = fe a.
  Hypothesis eb : c_b e = fe b.
  Hypothesis es : c_s e = fe s.
  Hypothesis b1 : b = F1.
  Local Notation on := (on K a F1 F0).
  Local Notation padd := (padd K a F1).

  Definition mk (X Y Z : K) : ProyCoordinates := mkProy (fe X) (fe Y) (fe Z).

  Lemma on_curve_mk (X Y Z : K) : exists t, is_on_curve e (mk X Y Z) = Ret t
    /\ (t = true <-> (Fmul (Fmul Y Y) Z = Fmul X (Fadd (Fadd (Fmul X X) (Fmul (Fmul a X) Z)) (Fmul Z Z)) :> K)).
  Proof.
    unfold is_on_curve, mk. cbn [px py pz]. rewrite ea, eb. fes. eexists. split; [reflexivity|].
    rewrite is_zero_fe by lia. apply (code_on K a b X Y Z b1).
  Qed.

  (** P is a valid representative of the point A of the curve *)
  Definition wrep (P : Point) (A : pt K) : Prop :=
    pe P = e /\ (exists X Y Z : K, pc P = mk X Y Z /\ rep K X Y Z A) /\ on A.

  Lemma new_proy_mk (X Y Z : K) A : rep K X Y Z A -> on A -> new_proy_point e (mk X Y Z) = Ret (mkPoint e (mk X Y Z)).
  Proof.
    intros R H. unfold new_proy_point. destruct (on_curve_mk X Y Z) as (t & -> & Ht). cbn [bind].
    assert (t = true) as ->; [|reflexivity]. apply Ht. exact (m_rep_on K a X Y Z A R H).
  Qed.
  Lemma wrep_mk (X Y Z : K) A : rep K X Y Z A -> on A -> wrep (mkPoint e (mk X Y Z)) A.
  Proof. intros R H. split; [reflexivity|]. split; [|exact H]. exists X, Y, Z. split; [reflexivity|exact R]. Qed.

  Lemma one_K : of_Z p 1 = (F1 : K). Proof. reflexivity. Qed.

  Lemma new_point_mk (x y : K) : exists t, (t = true <-> on (Aff K x y))
    /\ new_point e (fe x) (fe y) = if t then Ret (mkPoint e (mk x y F1)) else Panic ERR_ECC_NEW.
  Proof.
    unfold new_point. rewrite ef. fes. change (mkProy (fe x) (fe y) (fe (of_Z p 1))) with (mk x y (F1 : K)).
    destruct (on_curve_mk x y F1) as (t & -> & Ht). cbn [bind]. exists t. split; [|destruct t; reflexivity].
    rewrite Ht. exact (code_affine K a x y).
  Qed.

  Lemma identity_wrep : exists P, identity e = Ret P /\ wrep P (Inf K).
  Proof.
    unfold identity. rewrite ef. fes.
    assert (R : rep K (F0 : K) F1 F0 (Inf K)) by exact (conj eq_refl (conj (F_1_neq_0 K) eq_refl)).
    change (mkProy _ _ _) with (mk (F0 : K) F1 F0).
    rewrite (new_proy_mk _ _ _ _ R I). eexists. split; [reflexivity|]. apply wrep_mk; [exact R|exact I].
  Qed.

  Hypothesis nonsing : Fmul a a <> Fmul (Fadd F1 F1) (Fadd F1 F1) :> K.
  Hypothesis nos : forall x : K, Fadd (Fadd (Fmul (Fmul x x) x) (Fmul a (Fmul x x))) x <> Fmul s s.
  Local Notation two := (two_K p Hp Hp2).

  Lemma curve_eqb_refl c : curve_eqb c c = true.
  Proof.
    unfold curve_eqb, fp_eqb, fpelt_eqb. rewrite !fp_eqb_refl, !Z.eqb_refl. reflexivity.
  Qed.

  Lemma core_add_wrep P Q A B : wrep P A -> wrep Q B ->
    exists R, core_add P Q = Ret R /\ wrep R (padd A B).
  Proof.
    intros (EP & (X1 & Y1 & Z1 & CP & RP) & OA) (EQ & (X2 & Y2 & Z2 & CQ & RQ) & OB).
    pose proof (mont_add K a s two nonsing nos _ _ _ _ _ _ _ _ RP RQ OA OB) as R.
    pose proof (on_padd K a F1 F0 two _ _ OA OB) as O.
    unfold core_add. rewrite EP, CP, CQ, ea, es. cbn [px py pz mk]. fes.
    match goal with |- context [new_proy_point e ?c] =>
      change c with (let '(x, y, z) := code_add K a s X1 Y1 Z1 X2 Y2 Z2 in mk x y z) end.
    rewrite code_add_spec. cbv beta iota zeta. rewrite (new_proy_mk _ _ _ _ R O).
    eexists. split; [reflexivity|apply wrep_mk; assumption].
  Qed.
  Lemma neg_wrep P A : wrep P A -> exists R, pt_neg P = Ret R /\ wrep R (popp K A).
  Proof.
    intros (EP & (X1 & Y1 & Z1 & CP & RP) & OA). unfold pt_neg, core_neg. rewrite EP, CP. cbn [px py pz mk]. fes.
    change (mkProy _ _ _) with (mk X1 (Fopp Y1) Z1).
    pose proof (WeierP.rep_opp K _ _ _ _ RP) as R. pose proof (on_popp K a F1 F0 _ OA) as O.
    rewrite (new_proy_mk _ _ _ _ R O). eexists. split; [reflexivity|apply wrep_mk; assumption].
  Qed.
  Lemma add_wrep P Q A B : wrep P A -> wrep Q B -> exists R, pt_add P Q = Ret R /\ wrep R (padd A B).
  Proof.
    intros HP HQ. unfold pt_add. rewrite (proj1 HP), (proj1 HQ), curve_eqb_refl. apply core_add_wrep; assumption.
  Qed.
  Lemma sub_wrep P Q A B : wrep P A -> wrep Q B -> exists R, pt_sub P Q = Ret R /\ wrep R (padd A (popp K B)).
  Proof.
    intros HP HQ. unfold pt_sub. destruct (neg_wrep Q B HQ) as (N & -> & HN). apply add_wrep; assumption.
  Qed.

  Lemma eqb_wrep P Q A B : wrep P A -> wrep Q B -> exists t, pt_eqb P Q = Ret t /\ (t = true <-> A = B).
  Proof.
    intros (EP & (X1 & Y1 & Z1 & CP & RP) & OA) (EQ & (X2 & Y2 & Z2 & CQ & RQ) & OB).
    unfold pt_eqb. rewrite EP, EQ, CP, CQ, curve_eqb_refl. cbn [px py pz mk]. fes.
    eexists. split; [reflexivity|]. cbn [andb]. rewrite andb_true_iff, !fpelt_eqb_fe by lia.
    apply (WeierP.rep_cross K _ _ _ _ _ _ _ _ RP RQ).
  Qed.

  Lemma is_zero_wrep P A : wrep P A -> (pt_is_zero P = true <-> A = Inf K).
  Proof.
    intros (EP & (X1 & Y1 & Z1 & CP & RP) & OA). unfold pt_is_zero. rewrite CP. cbn [px py pz mk].
    rewrite !andb_true_iff, negb_true_iff, !is_zero_fe by lia.
    destruct A as [|x y]; cbn in RP.
    - destruct RP as (-> & HY & ->). split; [reflexivity|]. intros _. repeat split.
      destruct (is_zero (fe Y1)) eqn:E; [|reflexivity]. apply is_zero_fe in E. contradiction.
    - destruct RP as (HZ & _ & _). split; [|discriminate]. intros (_ & E). contradiction.
  Qed.

  Lemma normalize_wrep P x y : wrep P (Aff K x y) -> normalize P = Ret (mkPoint e (mk x y F1)).
  Proof.
    intros (EP & (X1 & Y1 & Z1 & CP & RP) & OA). unfold normalize. rewrite EP, CP. cbn [px py pz mk]. fes.
    rewrite set_one_fe by lia. destruct (WeierP.rep_inv K _ _ _ _ _ RP) as [EX EY].
    unfold mk. apply (f_equal Ret), (f_equal (mkPoint e)), f_equal3; [apply f_equal, EX|apply f_equal, EY|reflexivity].
  Qed.
  Lemma normalize_inf P : wrep P (Inf K) -> normalize P = Ret (mkPoint e (mk F0 F0 F1)).
  Proof.
    intros (EP & (X1 & Y1 & Z1 & CP & (-> & HY & ->)) & OA). unfold normalize. rewrite EP, CP. cbn [px py pz mk]. fes.
    rewrite set_one_fe by lia. change (F0 : K) with (of_Z p 0). rewrite zinv_0 by lia.
    unfold mk. apply (f_equal Ret), (f_equal (mkPoint e)), f_equal3; [| |reflexivity]; apply f_equal, Zp_eq; cbn; rewrite ?Z.mul_0_r; reflexivity.
  Qed.

  (** the double-and-add loop *)
  Lemma mul_wrep oc P A k : wrep P A -> sr k = c_r e -> 0 < sk k -> bits (sk k) < 2 ^ 64 ->
    exists R, pt_mul oc P k = Ret R /\ wrep R (nmul p Hp a F1 (Z.to_nat (sk k)) A).
  Proof.
    intros HP Er Hk H64. unfold pt_mul. rewrite (proj1 HP), Er, Z.eqb_refl. cbn [do_if_eq]. unfold core_mul.
    rewrite (proj1 HP). destruct identity_wrep as (I0 & -> & HI). cbn [bind].
    apply (scalar_loop (fun n q => wrep q (nmul p Hp a F1 n A))); [|exact HI|exact Hk|exact H64].
    intros n q t Hq. destruct (add_wrep q q _ _ Hq Hq) as (D & -> & HD). cbn [bind].
    rewrite (nmul_add p Hp Hp2 a F1 F0 (mont_nonsing K a s nonsing nos) n n A (proj2 (proj2 HP))) in HD. destruct t.
    - destruct (add_wrep D P _ A HD HP) as (R & -> & HR). exists R. split; [reflexivity|].
      rewrite Nat.add_1_r. exact HR.
    - exists D. split; [reflexivity|]. rewrite Nat.add_0_r. exact HD.
  Qed.
  Lemma mul_zero_wrep oc P A r : wrep P A -> r = c_r e ->
    exists R, wrep R (Inf K) /\ pt_mul oc P (mkScalar 0 r) = if oc then Panic "attempt to subtract with overflow" else Ret R.
  Proof.
    intros HP ->. unfold pt_mul. cbn [sr]. rewrite (proj1 HP), Z.eqb_refl. cbn [do_if_eq]. unfold core_mul.
    rewrite (proj1 HP). destruct identity_wrep as (I0 & -> & HI). cbn [bind]. exists I0. split; [exact HI|].
    apply mul_loop_zero.
  Qed.

  (** *** bytes *)
  Local Notation nb := (size_bytes (mkFp p)).
  Local Notation be_digits_fe := (WeierP.be_digits_fe p Hp Hp2).
  Local Notation sign_tag_fe := (WeierP.sign_tag_fe p Hp Hp2).
  Local Notation slice_mid := (WeierP.slice_mid p).
  Local Notation slice_end := (WeierP.slice_end p).
  Local Notation n_pos := (WeierP.n_pos p Hp2).
  Lemma encode_wrep P x y c : wrep P (Aff K x y) -> exists buf, encode P c = Ret buf /\ sec1 nb (zv x) (zv y) c buf.
  Proof.
    intro H. unfold encode. rewrite (normalize_wrep P x y H). cbn [bind pc].
    assert (Z0 : pt_is_zero (mkPoint e (mk x y F1)) = false).
    { unfold pt_is_zero. cbn [pc mk px py pz]. apply andb_false_iff. right.
      destruct (is_zero (fe (F1 : K))) eqn:E; [|reflexivity]. apply is_zero_fe in E.
      exfalso. exact (F_1_neq_0 K E). }
    rewrite Z0. cbn [mk px py].
    destruct (be_digits_fe x) as (bx & -> & Dx). destruct (be_digits_fe y) as (by_ & -> & Dy). cbn [bind].
    destruct c; eexists; (split; [reflexivity|]).
    - rewrite sign_tag_fe. constructor. exact Dx.
    - constructor; assumption.
  Qed.
  Lemma encode_inf P c : wrep P (Inf K) -> encode P c = Ret (if c then 2 :: repeat 0 (Z.to_nat nb) else 4 :: repeat 0 (2 * Z.to_nat nb)).
  Proof.
    intro H. unfold encode. rewrite (normalize_inf P H). cbn [bind pc].
    assert (Z0 : pt_is_zero (mkPoint e (mk F0 F0 F1)) = false).
    { unfold pt_is_zero. cbn [pc mk px py pz]. apply andb_false_iff. right.
      destruct (is_zero (fe (F1 : K))) eqn:E; [|reflexivity]. apply is_zero_fe in E.
      exfalso. exact (F_1_neq_0 K E). }
    rewrite Z0. cbn [mk px py].
    destruct (be_digits_fe F0) as (bx & -> & Dx). cbn [bind]. rewrite sign_tag_fe.
    assert (E : bx = repeat 0 (Z.to_nat nb)).
    { destruct Dx as (L & B & V). apply be_value_inj; [exact B| | |].
      - apply Forall_forall. intros z Hz. apply repeat_spec in Hz. subst z. unfold is_byte. lia.
      - rewrite repeat_length. lia.
      - rewrite V, be_value_zeros. reflexivity. }
    rewrite E. cbn [Nat.mul]. rewrite Nat.add_0_r, repeat_app. destruct c; reflexivity.
  Qed.
  Lemma decode_len1 tag : exists m, decode e [tag] = Panic m.
  Proof.
    unfold decode. rewrite ef. change (Z.of_nat (length [tag])) with 1. cbn [Z.eqb Pos.eqb orb negb].
    unfold WCurve.slice. change (Z.of_nat (length [tag])) with 1. pose proof n_pos.
    destruct (Z.leb_spec (nb + 1) 1); [lia|]. rewrite andb_false_r. eexists. reflexivity.
  Qed.

  Lemma decode_bad buf : Forall is_byte buf -> length buf <> 1%nat ->
    (~ exists c x y, coord p x /\ coord p y /\ sec1 nb x y c buf) -> exists m, decode e buf = Ret (Err m).
  Proof.
    intros B L1 H. unfold decode. rewrite ef. pose proof n_pos as Hn. cbn [modulus].
    destruct (Z.eqb_spec (Z.of_nat (length buf)) 1); [lia|]. cbn [orb].
    destruct (Z.eqb_spec (Z.of_nat (length buf)) (nb + 1)) as [L|L];
    destruct (Z.eqb_spec (Z.of_nat (length buf)) (2 * nb + 1)) as [L'|L']; cbn [orb negb]; try lia;
    try (eexists; reflexivity).
    - destruct buf as [|tag bx]; [cbn in L; lia|].
      assert (Lb : Z.of_nat (length bx) = nb) by (cbn [length] in L; lia).
      rewrite <- (app_nil_r bx), slice_mid by exact Lb. cbn [bind]. rewrite from_bytes_be_value.
      pose proof (Forall_inv_tail B) as Bx. pose proof (be_value_bound _ Bx) as [Hb _].
      destruct (Z.leb_spec p (be_value bx)) as [Hx|Hx]; [eexists; reflexivity|].
      destruct (Z.eqb_spec tag 0); [eexists; reflexivity|].
      destruct (Z.eqb_spec tag 4); [eexists; reflexivity|].
      destruct ((tag =? 2) || (tag =? 3)) eqn:T; [|eexists; reflexivity].
      exfalso. apply H. exists true, (be_value bx), (if tag =? 2 then 0 else 1).
      split; [split; assumption|]. split; [unfold coord; destruct (tag =? 2); lia|].
      assert (tag = if Z.even (if tag =? 2 then 0 else 1) then 2 else 3) as Et.
      { apply orb_true_iff in T. rewrite !Z.eqb_eq in T. destruct T as [T|T]; rewrite T; reflexivity. }
      rewrite Et at 2. constructor. repeat split; assumption.
    - destruct buf as [|tag bb]; [cbn [length] in L'; lia|].
      set (bx := firstn (Z.to_nat nb) bb). set (by_ := skipn (Z.to_nat nb) bb).
      assert (Eb : bb = bx ++ by_) by (symmetry; apply firstn_skipn).
      assert (Lb : Z.of_nat (length bb) = 2 * nb) by (cbn [length] in L'; lia).
      assert (Lx : Z.of_nat (length bx) = nb) by (unfold bx; rewrite firstn_length; lia).
      assert (Ly : Z.of_nat (length by_) = nb) by (unfold by_; rewrite skipn_length; lia).
      clearbody bx by_. subst bb. rewrite slice_mid by exact Lx. cbn [bind]. rewrite from_bytes_be_value.
      pose proof (Forall_inv_tail B) as Bb. apply Forall_app in Bb. destruct Bb as [Bx Byy].
      pose proof (be_value_bound _ Bx) as [Hbx _]. pose proof (be_value_bound _ Byy) as [Hby _].
      destruct (Z.leb_spec p (be_value bx)) as [Hx|Hx]; [eexists; reflexivity|].
      destruct (Z.eqb_spec tag 0); [eexists; reflexivity|].
      destruct (Z.eqb_spec tag 4) as [->|].
      + cbn [negb]. fes. rewrite slice_end by exact Lx. cbn [bind]. rewrite from_bytes_be_value.
        destruct (Z.leb_spec p (be_value by_)) as [Hy|Hy]; [eexists; reflexivity|].
        exfalso. apply H. exists false, (be_value bx), (be_value by_).
        split; [split; assumption|]. split; [split; assumption|]. constructor; repeat split; assumption.
      + destruct ((tag =? 2) || (tag =? 3)); eexists; reflexivity.
  Qed.

  Hypothesis Hm : sqrt_modulus p.
  Lemma decode_framed (x y : K) c buf : sec1 nb (zv x) (zv y) c buf ->
    (exists Q (y' : K), decode e buf = Ret (Ok Q) /\ wrep Q (Aff K x y')
       /\ (sec1 nb (zv x) (zv y') c buf \/ (c = true /\ y' = F0)))
    \/ (exists m, decode e buf = Panic m /\ (forall (y' : K), sec1 nb (zv x) (zv y') c buf -> ~ on (Aff K x y'))
       /\ (c = true -> forall y' : K, ~ on (Aff K x y'))).
  Proof.
    intro S. pose proof n_pos as Hn.
    inversion S as [bx Dx Ec Eb|bx by_ Dx Dy Ec Eb]; subst c buf; clear S.
    - set (tag := if Z.even (zv y) then 2 else 3). destruct Dx as (Lx & Bx & Vx).
      assert (Ht : (tag =? 0) = false /\ (tag =? 4) = false /\ (tag =? 2) || (tag =? 3) = true)
        by (unfold tag; destruct (Z.even (zv y)); auto).
      destruct Ht as (T0 & T4 & T23).
      assert (ED : decode e (tag :: bx) =
        bind (sqrt (fe (rhs K a x))) (fun y_sqrt =>
        bind (if negb (tag =? WCurve.sign_tag (sgn0 y_sqrt)) then neg y_sqrt else Ret y_sqrt) (fun y =>
        bind (new_point e (fe x) y) (fun P => Ret (Ok P))))).
      { unfold decode. rewrite ef. cbn [modulus]. cbn [length]. rewrite Nat2Z.inj_succ, Lx.
        replace (Z.succ nb) with (nb + 1) by lia. rewrite Z.eqb_refl, orb_true_r. cbn [orb negb].
        rewrite <- (app_nil_r bx), slice_mid by exact Lx. cbn [bind]. rewrite from_bytes_be_value, Vx, T0, T4, T23.
        pose proof (zv_range p x ltac:(lia)). destruct (Z.leb_spec p (zv x)); [lia|]. fes.
        rewrite of_Z_zv, ea, eb. fes. rewrite b1. reflexivity. }
      destruct (sqrt_fe p Hp (rhs K a x) Hm) as (r & Es & Hs).
      rewrite Es in ED. cbn [bind] in ED. rewrite sign_tag_fe in ED.
      assert (exists s' : K, (if negb (tag =? (if Z.even (zv r) then 2 else 3)) then neg (fe r) else Ret (fe r)) = Ret (fe s')
        /\ Fmul s' s' = Fmul r r /\ (s' <> F0 -> tag = if Z.even (zv s') then 2 else 3)) as (s' & En & Sq & Par).
      { destruct (negb (tag =? (if Z.even (zv r) then 2 else 3))) eqn:Fl.
        - exists (Fopp r). split; [apply neg_fe; lia|]. split; [apply (WeierP.Fopp_sqr K)|]. intro N.
          rewrite WeierP.parity_opp; [|exact Hp2|intro Z0; apply N; rewrite Z0; apply (WeierP.Fopp_0 K)].
          revert Fl. unfold tag. destruct (Z.even (zv y)), (Z.even (zv r)); cbn; congruence.
        - exists r. split; [reflexivity|]. split; [reflexivity|]. intros _.
          revert Fl. unfold tag. destruct (Z.even (zv y)), (Z.even (zv r)); cbn; congruence. }
      rewrite En in ED. cbn [bind] in ED.
      destruct (new_point_mk x s') as (t & Ht & EN). rewrite EN in ED. destruct t; cbn [bind] in ED.
      + left. assert (O : on (Aff K x s')) by (apply Ht; reflexivity).
        exists (mkPoint e (mk x s' F1)), s'. split; [exact ED|]. split; [apply wrep_mk; [apply WeierP.rep_one|exact O]|].
        destruct (Feqd s' F0) as [Z0|Z0]; [right; split; [reflexivity|exact Z0]|left].
        rewrite Par by exact Z0. constructor. repeat split; assumption.
      + right. exists ERR_ECC_NEW. split; [exact ED|].
        assert (N : forall y' : K, ~ on (Aff K x y')).
        { intros y' O. apply (diff_false_true). apply Ht. apply (on_other K a x). rewrite Sq. apply Hs.
          exists y'. apply (on_value K a x y' O). }
        split; [intros y' _; apply N|intros _; exact N].
    - destruct Dx as (Lx & Bx & Vx), Dy as (Ly & Byy & Vy).
      assert (ED : decode e (4 :: bx ++ by_) = bind (new_point e (fe x) (fe y)) (fun P => Ret (Ok P))).
      { unfold decode. rewrite ef. cbn [modulus].
        assert (L : Z.of_nat (length (4 :: bx ++ by_)) = 2 * nb + 1) by (cbn [length]; rewrite app_length; lia).
        rewrite slice_end, L by exact Lx.
        rewrite Z.eqb_refl, !orb_true_r. cbn [negb].
        rewrite slice_mid by exact Lx. cbn [bind]. rewrite !from_bytes_be_value, Vx, Vy. cbn [Z.eqb Pos.eqb].
        pose proof (zv_range p x ltac:(lia)). destruct (Z.leb_spec p (zv x)); [lia|].
        pose proof (zv_range p y ltac:(lia)). destruct (Z.leb_spec p (zv y)); [lia|]. fes.
        rewrite !of_Z_zv. reflexivity. }
      destruct (new_point_mk x y) as (t & Ht & EN). rewrite EN in ED. destruct t; cbn [bind] in ED.
      + left. assert (O : on (Aff K x y)) by (apply Ht; reflexivity).
        exists (mkPoint e (mk x y F1)), y. split; [exact ED|]. split; [apply wrep_mk; [apply WeierP.rep_one|exact O]|].
        left. constructor; repeat split; assumption.
      + right. exists ERR_ECC_NEW. split; [exact ED|]. split; [|discriminate]. intros y' S' O.
        inversion S' as [|bx' by_' Dx' Dy' E0 E].
        assert (y' = y) as ->.
        { apply Zp_eq. destruct Dy' as (Ly' & _ & Vy'), Dx' as (Lx' & _ & _).
          assert (length bx' = length bx) as Lxx by lia.
          rewrite <- Vy, <- Vy'. f_equal.
          apply WeierP.app_inv_len in E; [|exact Lxx]. apply E. }
        apply Ht in O. discriminate O.
  Qed.
End M.
