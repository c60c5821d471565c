(** The addition formulas of the code on any nonsingular curve, through Math/Excep.v. *)
From Coq Require Import ZArith Znumtheory Lia String Bool List Ring Field.
From Verif.Math Require Import Fld Zp Residue Edwards RCB MontAdd ECGroup Excep.
From Verif.Spec Require Import Arith Curve Exceptions.
From Verif.Model Require Import Out BigInt PrimeField Scalar.
From Verif.Model Require WCurve MCurve ECurve.
From Verif.Proofs Require Import FieldP FieldProps BytesP SerialProps ScalarProps CurveP LadderP.
From Verif.Proofs Require WeierP MontP EdwP.
From Verif.Spec Require Import WPoints MPoints EPoints.
Import ListNotations.
Open Scope Z_scope.

Lemma spoils_step (bad : Z -> Prop) n t : spoils bad (Z.of_nat (n + n + (if t : bool then 1 else 0))) <->
  (t = true /\ bad (Z.of_nat (n + n))) \/ spoils bad (Z.of_nat n).
Proof.
  assert (S : forall i, 0 <= i -> Z.of_nat (n + n + (if t then 1 else 0)) / 2 ^ (i + 1) = Z.of_nat n / 2 ^ i).
  { intros i Hi. rewrite Z.pow_add_r, Z.mul_comm by lia. change (2 ^ 1) with 2.
    rewrite <- Z.div_div by lia. f_equal. symmetry. apply Z.div_unique with (if t then 1 else 0); destruct t; lia. }
  split.
  - intros (i & m & Hi & Hm & E & B). destruct (Z.eq_dec i 0) as [->|Hn].
    + rewrite Z.pow_0_r, Z.div_1_r in E. left. destruct t; [|lia]. split; [reflexivity|].
      replace (Z.of_nat (n + n)) with (2 * m) by lia. exact B.
    + right. exists (i - 1), m. split; [lia|]. split; [exact Hm|]. split; [|exact B].
      rewrite <- S by lia. replace (i - 1 + 1) with i by lia. exact E.
  - intros [[-> B]|(i & m & Hi & Hm & E & B)].
    + exists 0, (Z.of_nat n). split; [lia|]. split; [lia|]. rewrite Z.pow_0_r, Z.div_1_r. split; [lia|].
      replace (2 * Z.of_nat n) with (Z.of_nat (n + n)) by lia. exact B.
    + exists (i + 1), m. split; [lia|]. split; [exact Hm|]. rewrite S by lia. auto.
Qed.
Lemma spoils_zero bad : ~ spoils bad 0.
Proof. intros (i & m & Hi & Hm & E & _). rewrite Z.div_0_l in E; [lia|]. pose proof (Z.pow_pos_nonneg 2 i); lia. Qed.
Lemma spoils_ext (f g : Z -> Prop) k : (forall m, 0 <= m -> (f m <-> g m)) -> (spoils f k <-> spoils g k).
Proof. intro H. split; intros (i & m & Hi & Hm & E & B); exists i, m; (split; [exact Hi|]); (split; [exact Hm|]); (split; [exact E|]); apply H; (lia || exact B). Qed.

Section Code.
  Variable K : Fld.
  Add Field KF : (Fth K).
  Open Scope fld_scope.
  Lemma w_zero_on (a b : K) : 0 * 0 * 0 = 0 * 0 * 0 + a * 0 * (0 * 0) + b * (0 * 0 * 0) :> K. Proof. ring. Qed.
  Lemma m_zero_on (a : K) : 0 * 0 * 0 = 0 * (0 * 0 + a * 0 * 0 + 0 * 0) :> K. Proof. ring. Qed.
  Lemma opp_zero : - 0 = (0 : K). Proof. ring. Qed.
  Lemma mul_zero_l (x : K) : 0 * x = 0. Proof. ring. Qed.
  Lemma mul_zero_r (x : K) : x * 0 = 0. Proof. ring. Qed.
End Code.

Section W.
  Import WCurve WeierP.
  Variable p : Z.
  Hypothesis Hp : prime p.
  Hypothesis Hp2 : 2 < p.
  Local Notation K := (ZpF p Hp).
  Variables a b : K.
  Variable e : Curve.
  Hypothesis ef : c_f e = mkFp p.
  Hypothesis ea : c_a e = fe a.
  Hypothesis eb : c_b e = fe b.
  Local Notation on := (on K F0 a b).
  Local Notation padd := (padd K F0 a).
  Local Notation two := (two_K p Hp Hp2).
  Local Notation wrep := (wrep p Hp a b e).
  Local Notation mk := (mk p Hp).
  Hypothesis disc : Fadd (Fmul (Fmul (Fadd F1 F1) (Fadd F1 F1)) (Fmul (Fmul a a) a))
    (Fmul (Fmul (Fmul (Fadd (Fadd F1 F1) F1) (Fadd (Fadd F1 F1) F1)) (Fadd (Fadd F1 F1) F1)) (Fmul b b)) <> F0 :> K.
  Local Notation ns := (disc_nonsing K a b disc).

  Definition wnull (P : Point) : Prop := P = mkPoint e (mk F0 F0 F0).
  Lemma new_null : new_proy_point e (mk F0 F0 F0) = Ret (mkPoint e (mk F0 F0 F0)).
  Proof.
    unfold new_proy_point. destruct (on_curve_mk p Hp Hp2 a b e ea eb F0 F0 F0) as (t & -> & Ht). cbn [bind].
    assert (t = true) as ->; [|reflexivity]. apply Ht. apply (w_zero_on K).
  Qed.
  Lemma core_add_mk P Q X1 Y1 Z1 X2 Y2 Z2 : pe P = e -> pc P = mk X1 Y1 Z1 -> pc Q = mk X2 Y2 Z2 ->
    core_add P Q = new_proy_point e (mk (rX K a b X1 Y1 Z1 X2 Y2 Z2) (rY K a b X1 Y1 Z1 X2 Y2 Z2) (rZ K a b X1 Y1 Z1 X2 Y2 Z2)).
  Proof.
    intros EP CP CQ. unfold core_add. rewrite EP, CP, CQ, ea, eb. cbn [px py pz WeierP.mk]. fes.
    match goal with |- new_proy_point e ?c = _ =>
      change c with (let '(x, y, z) := code_add K a b X1 Y1 Z1 X2 Y2 Z2 in mk x y z) end.
    rewrite code_add_spec. reflexivity.
  Qed.
  Lemma core_doubling_mk P X Y Z : pe P = e -> pc P = mk X Y Z ->
    core_doubling P = new_proy_point e (mk (rX K a b X Y Z X Y Z) (rY K a b X Y Z X Y Z) (dZ K Y Z)).
  Proof.
    intros EP CP. unfold core_doubling. rewrite EP, CP, ea, eb. cbn [px py pz WeierP.mk]. fes.
    match goal with |- new_proy_point e ?c = _ =>
      change c with (let '(x, y, z) := code_double K a b X Y Z in mk x y z) end.
    rewrite code_double_spec. reflexivity.
  Qed.

  Lemma add_any P Q A B : wrep P A -> wrep Q B -> exists R, pt_add P Q = Ret R
    /\ ((ord K (padd A (popp K B)) F0 /\ wnull R) \/ (~ ord K (padd A (popp K B)) F0 /\ wrep R (padd A B))).
  Proof.
    intros (EP & (X1 & Y1 & Z1 & CP & RP) & OA) (EQ & (X2 & Y2 & Z2 & CQ & RQ) & OB).
    unfold pt_add. rewrite EP, EQ, curve_eqb_refl. cbn [do_if_eq]. rewrite (core_add_mk P Q _ _ _ _ _ _ EP CP CQ).
    destruct (rcb_total K a b two disc _ _ _ _ _ _ _ _ RP RQ OA OB) as [H0 H1].
    destruct (ord_dec K (padd A (popp K B)) F0) as [D|D].
    - destruct (H0 D) as (-> & -> & ->). rewrite new_null. eexists. split; [reflexivity|]. left. split; [exact D|reflexivity].
    - specialize (H1 D). pose proof (on_padd K F0 a b two _ _ OA OB) as O.
      rewrite (new_proy_mk p Hp Hp2 a b e ea eb _ _ _ _ H1 O). eexists. split; [reflexivity|]. right. split; [exact D|].
      apply wrep_mk; assumption.
  Qed.
  Lemma double_any P A : wrep P A -> exists R, core_doubling P = Ret R /\ wrep R (padd A A).
  Proof.
    intros (EP & (X1 & Y1 & Z1 & CP & RP) & OA).
    pose proof (rcb_double_total K a b two disc _ _ _ _ RP OA) as R.
    pose proof (on_padd K F0 a b two _ _ OA OA) as O.
    rewrite (core_doubling_mk P _ _ _ EP CP), (new_proy_mk p Hp Hp2 a b e ea eb _ _ _ _ R O).
    eexists. split; [reflexivity|apply wrep_mk; assumption].
  Qed.
  Lemma add_null_l P Q A : wnull P -> wrep Q A \/ wnull Q -> pt_add P Q = Ret P.
  Proof.
    intros -> HQ. assert (exists X Y Z, pe Q = e /\ pc Q = mk X Y Z) as (X & Y & Z & EQ & CQ).
    { destruct HQ as [(EQ & (X & Y & Z & CQ & _) & _)| ->]; [eauto|]. repeat eexists. }
    unfold pt_add. rewrite EQ. cbn [pe]. rewrite curve_eqb_refl. cbn [do_if_eq].
    rewrite (core_add_mk (mkPoint e (mk F0 F0 F0)) Q F0 F0 F0 X Y Z eq_refl eq_refl CQ).
    destruct (r_zero_l K a b X Y Z) as (-> & -> & ->). apply new_null.
  Qed.
  Lemma add_null_r P Q A : wnull Q -> wrep P A -> pt_add P Q = Ret Q.
  Proof.
    intros -> (EP & (X & Y & Z & CP & _) & _).
    unfold pt_add. rewrite EP. cbn [pe]. rewrite curve_eqb_refl. cbn [do_if_eq].
    rewrite (core_add_mk P (mkPoint e (mk F0 F0 F0)) X Y Z F0 F0 F0 EP CP eq_refl).
    destruct (r_zero_r K a b X Y Z) as (-> & -> & ->). apply new_null.
  Qed.
  Lemma double_null P : wnull P -> core_doubling P = Ret P.
  Proof.
    intros ->. rewrite (core_doubling_mk (mkPoint e (mk F0 F0 F0)) F0 F0 F0 eq_refl eq_refl).
    destruct (r_zero_l K a b F0 F0 F0) as (-> & -> & _). rewrite (d_zero K). apply new_null.
  Qed.
  Lemma neg_null P : wnull P -> pt_neg P = Ret P.
  Proof.
    intros ->. unfold pt_neg, core_neg. cbn [pe pc px py pz WeierP.mk]. fes.
    exact (eq_trans (f_equal (fun y => new_proy_point e (mk F0 y F0)) (opp_zero K)) new_null).
  Qed.

  Definition wbad (A : pt K) (m : Z) : Prop := ord K (padd (nmul p Hp F0 a (Z.to_nat m) A) (popp K A)) F0.
  Lemma mul_any oc P A k : wrep P A -> sr k = c_r e -> 0 < sk k -> bits (sk k) < 2 ^ 64 ->
    exists R, pt_mul oc P k = Ret R
      /\ ((spoils (wbad A) (sk k) /\ wnull R) \/ (~ spoils (wbad A) (sk k) /\ wrep R (nmul p Hp F0 a (Z.to_nat (sk k)) A))).
  Proof.
    intros HP Er Hk H64. unfold pt_mul. rewrite (proj1 HP), Er, Z.eqb_refl. cbn [do_if_eq]. unfold core_mul.
    rewrite (proj1 HP). destruct (identity_wrep p Hp Hp2 a b e ef ea eb) as (I0 & -> & HI). cbn [bind].
    assert (EK : Z.of_nat (Z.to_nat (sk k)) = sk k) by lia.
    set (Inv := (fun n q => (spoils (wbad A) (Z.of_nat n) /\ wnull q) \/ (~ spoils (wbad A) (Z.of_nat n) /\ wrep q (nmul p Hp F0 a n A)))).
    match goal with |- exists R, ?X = Ret R /\ _ => cut (exists R, X = Ret R /\ Inv (Z.to_nat (sk k)) R) end.
    { intros (R & E & H). exists R. split; [exact E|]. unfold Inv in H. rewrite EK in H. exact H. }
    apply (scalar_loop Inv); unfold Inv; clear Inv;
      [|right; split; [apply spoils_zero|exact HI]|exact Hk|exact H64].
    intros n q t Hq. setoid_rewrite spoils_step.
    destruct Hq as [[HS N]|[HS Hq]].
    - rewrite (double_null q N). cbn [bind]. exists q. split; [|left; split; [right; exact HS|exact N]].
      destruct t; [|reflexivity]. exact (add_null_l q P A N (or_introl HP)).
    - destruct (double_any q _ Hq) as (D & -> & HD). cbn [bind].
      rewrite (nmul_add p Hp Hp2 F0 a b ns n n A (proj2 (proj2 HP))) in HD. destruct t.
      + destruct (add_any D P _ A HD HP) as (R & -> & HR). exists R. split; [reflexivity|].
        assert (W : wbad A (Z.of_nat (n + n)) <-> ord K (padd (nmul p Hp F0 a (n + n) A) (popp K A)) F0)
          by (unfold wbad; rewrite Nat2Z.id; reflexivity).
        destruct HR as [[O N]|[O HR]].
        * left. split; [left; split; [reflexivity|apply W, O]|exact N].
        * right. split; [intros [[_ B]|B]; [apply O, W, B|exact (HS B)]|]. rewrite Nat.add_1_r. exact HR.
      + exists D. split; [reflexivity|]. right. split; [intros [[B _]|B]; [discriminate B|exact (HS B)]|].
        rewrite Nat.add_0_r. exact HD.
  Qed.
  Lemma mul_null oc P k : wnull P -> sr k = c_r e -> 0 < sk k -> bits (sk k) < 2 ^ 64 -> pt_mul oc P k = Ret P.
  Proof.
    intros N Er Hk H64. unfold pt_mul. rewrite (f_equal pe N : pe P = e), Er, Z.eqb_refl. cbn [do_if_eq]. unfold core_mul.
    rewrite (f_equal pe N : pe P = e). destruct (identity_wrep p Hp Hp2 a b e ef ea eb) as (I0 & -> & HI). cbn [bind].
    match goal with |- ?X = _ => cut (exists R, X = Ret R /\ (fun n q => (n = O /\ wrep q (Inf K)) \/ (n <> O /\ wnull q)) (Z.to_nat (sk k)) R) end.
    { intros (R & E & [[H _]|[_ H]]); [lia|]. rewrite E, (H : R = _), (N : P = _). reflexivity. }
    apply scalar_loop; [|left; split; [reflexivity|exact HI]|exact Hk|exact H64].
    intros n q t [[-> Hq]|[Hn Hq]].
    - destruct (double_any q _ Hq) as (D & -> & HD). cbn [bind]. destruct t.
      + rewrite (add_null_r D P _ N HD). exists P. split; [reflexivity|]. right. split; [discriminate|exact N].
      + exists D. split; [reflexivity|]. left. split; [reflexivity|exact HD].
    - rewrite (double_null q Hq). cbn [bind]. exists q. split; [|right; split; [lia|exact Hq]].
      destruct t; [|reflexivity]. apply (add_null_l q P (Inf K) Hq). right. exact N.
  Qed.
  Lemma eqb_null_l P Q A : wnull P -> wrep Q A \/ wnull Q -> pt_eqb P Q = Ret true /\ pt_eqb Q P = Ret true.
  Proof.
    intros -> HQ. assert (exists X Y Z, pe Q = e /\ pc Q = mk X Y Z) as (X & Y & Z & EQ & CQ).
    { destruct HQ as [(EQ & (X & Y & Z & CQ & _) & _)| ->]; [eauto|]. repeat eexists. }
    unfold pt_eqb. rewrite EQ, CQ. cbn [pe pc px py pz WeierP.mk]. rewrite curve_eqb_refl. fes. cbn [andb].
    split; apply (f_equal Ret); rewrite andb_true_iff, !fpelt_eqb_fe by lia; split;
      change zmul with (fun x y : Zp p => Fmul (x : K) y); cbv beta; rewrite ?(mul_zero_l K), ?(mul_zero_r K); reflexivity.
  Qed.
  Lemma is_zero_null P : wnull P -> pt_is_zero P = false.
  Proof. intros ->. reflexivity. Qed.
  Lemma null_no P A : wnull P -> ~ wrep P A.
  Proof.
    intros -> (_ & (X & Y & Z & E & R) & _). cbn [pc] in E.
    assert (EY : F0 = Y) by (apply (fe_inj p); exact (f_equal py E)).
    assert (EZ : F0 = Z) by (apply (fe_inj p); exact (f_equal pz E)). subst.
    destruct A as [|x y]; cbn in R; [destruct R as (_ & R & _)|destruct R as (R & _)]; apply R; reflexivity.
  Qed.
End W.

Section M.
  Import MCurve MontP.
  Variable p : Z.
  Hypothesis Hp : prime p.
  Hypothesis Hp2 : 2 < p.
  Local Notation K := (ZpF p Hp).
  Variables a b s : K.
  Variable e : Curve.
  Hypothesis ef : c_f e = mkFp p.
  Hypothesis ea : c_a e = fe a.
  Hypothesis eb : c_b e = fe b.
  Hypothesis es : c_s e = fe s.
  Hypothesis b1 : b = F1.
  Local Notation on := (on K a F1 F0).
  Local Notation padd := (padd K a F1).
  Local Notation two := (two_K p Hp Hp2).
  Local Notation wrep := (wrep p Hp a e).
  Local Notation mk := (mk p Hp).
  Hypothesis nonsing : Fmul a a <> Fmul (Fadd F1 F1) (Fadd F1 F1) :> K.
  Local Notation ns := (t_nonsing K a nonsing).

  Definition mnull (P : Point) : Prop := P = mkPoint e (mk F0 F0 F0).
  Lemma m_new_null : new_proy_point e (mk F0 F0 F0) = Ret (mkPoint e (mk F0 F0 F0)).
  Proof.
    unfold new_proy_point. destruct (on_curve_mk p Hp Hp2 a b e ea eb b1 F0 F0 F0) as (t & -> & Ht). cbn [bind].
    assert (t = true) as ->; [|reflexivity]. apply Ht. apply (m_zero_on K).
  Qed.
  Lemma m_core_add_mk P Q X1 Y1 Z1 X2 Y2 Z2 : pe P = e -> pc P = mk X1 Y1 Z1 -> pc Q = mk X2 Y2 Z2 ->
    core_add P Q = new_proy_point e (mk (mX K a s X1 Y1 Z1 X2 Y2 Z2) (mY K a s X1 Y1 Z1 X2 Y2 Z2) (mZ K a s X1 Y1 Z1 X2 Y2 Z2)).
  Proof.
    intros EP CP CQ. unfold core_add. rewrite EP, CP, CQ, ea, es. cbn [px py pz MontP.mk]. fes.
    match goal with |- new_proy_point e ?c = _ =>
      change c with (let '(x, y, z) := code_add K a s X1 Y1 Z1 X2 Y2 Z2 in mk x y z) end.
    rewrite code_add_spec. reflexivity.
  Qed.
  Lemma m_add_any P Q A B : wrep P A -> wrep Q B -> exists R, pt_add P Q = Ret R
    /\ ((ord K (padd A (popp K B)) s /\ mnull R) \/ (~ ord K (padd A (popp K B)) s /\ wrep R (padd A B))).
  Proof.
    intros (EP & (X1 & Y1 & Z1 & CP & RP) & OA) (EQ & (X2 & Y2 & Z2 & CQ & RQ) & OB).
    unfold pt_add. rewrite EP, EQ, curve_eqb_refl. cbn [do_if_eq]. rewrite (m_core_add_mk P Q _ _ _ _ _ _ EP CP CQ).
    destruct (mont_total K a s two nonsing _ _ _ _ _ _ _ _ RP RQ OA OB) as [H0 H1].
    destruct (ord_dec K (padd A (popp K B)) s) as [D|D].
    - destruct (H0 D) as (-> & -> & ->). rewrite m_new_null. eexists. split; [reflexivity|]. left. split; [exact D|reflexivity].
    - specialize (H1 D). pose proof (on_padd K a F1 F0 two _ _ OA OB) as O.
      rewrite (new_proy_mk p Hp Hp2 a b e ea eb b1 _ _ _ _ H1 O). eexists. split; [reflexivity|]. right. split; [exact D|].
      apply wrep_mk; assumption.
  Qed.
  Lemma m_double_any P A : wrep P A -> exists R, pt_add P P = Ret R /\ wrep R (padd A A).
  Proof.
    intro HP. destruct (m_add_any P P A A HP HP) as (R & E & [[O _]|[_ HR]]); [|eauto].
    rewrite padd_opp_r in O. destruct O.
  Qed.
  Lemma m_add_null_l P Q A : mnull P -> wrep Q A \/ mnull Q -> pt_add P Q = Ret P.
  Proof.
    intros -> HQ. assert (exists X Y Z, pe Q = e /\ pc Q = mk X Y Z) as (X & Y & Z & EQ & CQ).
    { destruct HQ as [(EQ & (X & Y & Z & CQ & _) & _)| ->]; [eauto|]. repeat eexists. }
    unfold pt_add. rewrite EQ. cbn [pe]. rewrite curve_eqb_refl. cbn [do_if_eq].
    rewrite (m_core_add_mk (mkPoint e (mk F0 F0 F0)) Q F0 F0 F0 X Y Z eq_refl eq_refl CQ).
    destruct (m_zero_l K a s X Y Z) as (-> & -> & ->). apply m_new_null.
  Qed.
  Lemma m_add_null_r P Q A : mnull Q -> wrep P A -> pt_add P Q = Ret Q.
  Proof.
    intros -> (EP & (X & Y & Z & CP & _) & _).
    unfold pt_add. rewrite EP. cbn [pe]. rewrite curve_eqb_refl. cbn [do_if_eq].
    rewrite (m_core_add_mk P (mkPoint e (mk F0 F0 F0)) X Y Z F0 F0 F0 EP CP eq_refl).
    destruct (m_zero_r K a s X Y Z) as (-> & -> & ->). apply m_new_null.
  Qed.
  Lemma m_neg_null P : mnull P -> pt_neg P = Ret P.
  Proof.
    intros ->. unfold pt_neg, core_neg. cbn [pe pc px py pz MontP.mk]. fes.
    exact (eq_trans (f_equal (fun y => new_proy_point e (mk F0 y F0)) (opp_zero K)) m_new_null).
  Qed.

  Definition mbad (A : pt K) (m : Z) : Prop := ord K (padd (nmul p Hp a F1 (Z.to_nat m) A) (popp K A)) s.
  Lemma m_mul_any oc P A k : wrep P A -> sr k = c_r e -> 0 < sk k -> bits (sk k) < 2 ^ 64 ->
    exists R, pt_mul oc P k = Ret R
      /\ ((spoils (mbad A) (sk k) /\ mnull R) \/ (~ spoils (mbad A) (sk k) /\ wrep R (nmul p Hp a F1 (Z.to_nat (sk k)) A))).
  Proof.
    intros HP Er Hk H64. unfold pt_mul. rewrite (proj1 HP), Er, Z.eqb_refl. cbn [do_if_eq]. unfold core_mul.
    rewrite (proj1 HP). destruct (identity_wrep p Hp Hp2 a b e ef ea eb b1) as (I0 & -> & HI). cbn [bind].
    assert (EK : Z.of_nat (Z.to_nat (sk k)) = sk k) by lia.
    set (Inv := (fun n q => (spoils (mbad A) (Z.of_nat n) /\ mnull q) \/ (~ spoils (mbad A) (Z.of_nat n) /\ wrep q (nmul p Hp a F1 n A)))).
    match goal with |- exists R, ?X = Ret R /\ _ => cut (exists R, X = Ret R /\ Inv (Z.to_nat (sk k)) R) end.
    { intros (R & E & H). exists R. split; [exact E|]. unfold Inv in H. rewrite EK in H. exact H. }
    apply (scalar_loop Inv); unfold Inv; clear Inv;
      [|right; split; [apply spoils_zero|exact HI]|exact Hk|exact H64].
    intros n q t Hq. setoid_rewrite spoils_step.
    destruct Hq as [[HS N]|[HS Hq]].
    - rewrite (m_add_null_l q q A N (or_intror N)). cbn [bind]. exists q. split; [|left; split; [right; exact HS|exact N]].
      destruct t; [|reflexivity]. exact (m_add_null_l q P A N (or_introl HP)).
    - destruct (m_double_any q _ Hq) as (D & -> & HD). cbn [bind].
      rewrite (nmul_add p Hp Hp2 a F1 F0 ns n n A (proj2 (proj2 HP))) in HD. destruct t.
      + destruct (m_add_any D P _ A HD HP) as (R & -> & HR). exists R. split; [reflexivity|].
        assert (W : mbad A (Z.of_nat (n + n)) <-> ord K (padd (nmul p Hp a F1 (n + n) A) (popp K A)) s)
          by (unfold mbad; rewrite Nat2Z.id; reflexivity).
        destruct HR as [[O N]|[O HR]].
        * left. split; [left; split; [reflexivity|apply W, O]|exact N].
        * right. split; [intros [[_ B]|B]; [apply O, W, B|exact (HS B)]|]. rewrite Nat.add_1_r. exact HR.
      + exists D. split; [reflexivity|]. right. split; [intros [[B _]|B]; [discriminate B|exact (HS B)]|].
        rewrite Nat.add_0_r. exact HD.
  Qed.
  Lemma m_mul_null oc P k : mnull P -> sr k = c_r e -> 0 < sk k -> bits (sk k) < 2 ^ 64 -> pt_mul oc P k = Ret P.
  Proof.
    intros N Er Hk H64. unfold pt_mul. rewrite (f_equal pe N : pe P = e), Er, Z.eqb_refl. cbn [do_if_eq]. unfold core_mul.
    rewrite (f_equal pe N : pe P = e). destruct (identity_wrep p Hp Hp2 a b e ef ea eb b1) as (I0 & -> & HI). cbn [bind].
    match goal with |- ?X = _ => cut (exists R, X = Ret R /\ (fun n q => (n = O /\ wrep q (Inf K)) \/ (n <> O /\ mnull q)) (Z.to_nat (sk k)) R) end.
    { intros (R & E & [[H _]|[_ H]]); [lia|]. rewrite E, (H : R = _), (N : P = _). reflexivity. }
    apply scalar_loop; [|left; split; [reflexivity|exact HI]|exact Hk|exact H64].
    intros n q t [[-> Hq]|[Hn Hq]].
    - destruct (m_double_any q _ Hq) as (D & -> & HD). cbn [bind]. destruct t.
      + rewrite (m_add_null_r D P _ N HD). exists P. split; [reflexivity|]. right. split; [discriminate|exact N].
      + exists D. split; [reflexivity|]. left. split; [reflexivity|exact HD].
    - rewrite (m_add_null_l q q (Inf K) Hq (or_intror Hq)). cbn [bind]. exists q. split; [|right; split; [lia|exact Hq]].
      destruct t; [|reflexivity]. apply (m_add_null_l q P (Inf K) Hq). right. exact N.
  Qed.
  Lemma m_eqb_null_l P Q A : mnull P -> wrep Q A \/ mnull Q -> pt_eqb P Q = Ret true /\ pt_eqb Q P = Ret true.
  Proof.
    intros -> HQ. assert (exists X Y Z, pe Q = e /\ pc Q = mk X Y Z) as (X & Y & Z & EQ & CQ).
    { destruct HQ as [(EQ & (X & Y & Z & CQ & _) & _)| ->]; [eauto|]. repeat eexists. }
    unfold pt_eqb. rewrite EQ, CQ. cbn [pe pc px py pz MontP.mk]. rewrite curve_eqb_refl. fes. cbn [andb].
    split; apply (f_equal Ret); rewrite andb_true_iff, !fpelt_eqb_fe by lia; split;
      change zmul with (fun x y : Zp p => Fmul (x : K) y); cbv beta; rewrite ?(mul_zero_l K), ?(mul_zero_r K); reflexivity.
  Qed.
  Lemma m_is_zero_null P : mnull P -> pt_is_zero P = false.
  Proof. intros ->. reflexivity. Qed.
  Lemma m_null_no P A : mnull P -> ~ wrep P A.
  Proof.
    intros -> (_ & (X & Y & Z & E & R) & _). cbn [pc] in E.
    assert (EY : F0 = Y) by (apply (fe_inj p); exact (f_equal py E)).
    assert (EZ : F0 = Z) by (apply (fe_inj p); exact (f_equal pz E)). subst.
    destruct A as [|x y]; cbn in R; [destruct R as (_ & R & _)|destruct R as (R & _)]; apply R; reflexivity.
  Qed.
End M.

(** a point of odd order has no multiple of order 2 *)
Section Odd.
  Variable p : Z.
  Hypothesis Hp : prime p.
  Hypothesis Hp2 : 2 < p.
  Local Notation K := (ZpF p Hp).
  Variables a2 a4 a6 : K.
  Hypothesis ns : forall x : K, cubic K a2 a4 a6 x = F0 -> dcubic K a2 a4 x <> F0.
  Local Notation nm := (nmul p Hp a2 a4).
  Lemma nm_inf n : nm n (Inf K) = Inf K.
  Proof. induction n as [|n IH]; [reflexivity|]. cbn. rewrite IH. reflexivity. Qed.
  Lemma odd_no2 D n : on K a2 a4 a6 D -> Nat.Odd n -> nm n D = Inf K -> padd K a2 a4 D D = Inf K -> D = Inf K.
  Proof.
    intros O [j ->] N T.
    replace (2 * j + 1)%nat with (j * 2 + 1)%nat in N by lia.
    rewrite <- (nmul_add p Hp Hp2 a2 a4 a6 ns _ _ D O), <- (nmul_mul p Hp Hp2 a2 a4 a6 ns _ _ D O) in N.
    assert (E2 : nm 2 D = Inf K) by exact T. rewrite E2, nm_inf in N. exact N.
  Qed.
  Lemma odd_diff A n m : on K a2 a4 a6 A -> Nat.Odd n -> nm n A = Inf K -> ~ ord K (padd K a2 a4 (nm m A) (popp K A)) F0.
  Proof.
    intros O Hn N H. set (D := padd K a2 a4 (nm m A) (popp K A)) in *.
    assert (OD : on K a2 a4 a6 D) by (apply on_padd; [exact (two_K p Hp Hp2)|apply (on_nmul p Hp Hp2), O|apply on_popp, O]).
    assert (DD : padd K a2 a4 D D = Inf K).
    { destruct D as [|x y]; [reflexivity|]. cbn in H. rewrite H.
      pose proof (padd_opp_r K a2 a4 (Aff K x F0)) as Z. cbn [popp] in Z. rewrite (opp_zero K) in Z. exact Z. }
    assert (ND : nm n D = Inf K).
    { unfold D. destruct m as [|m].
      - change (nm 0 A) with (Inf K). change (padd K a2 a4 (Inf K) (popp K A)) with (popp K A).
        destruct A as [|x y]; [apply nm_inf|]. unfold D in H. change (Fopp (y : K) = F0) in H.
        assert (Y : y = F0) by (transitivity (Fopp (Fopp (y : K))); [symmetry; apply (Fopp_opp K)|rewrite H; apply (opp_zero K)]). rewrite Y in *.
        cbn [popp]. rewrite (opp_zero K). exact N.
      - change (nm (S m) A) with (padd K a2 a4 (nm m A) A).
        rewrite (padd_assoc K a2 a4 a6 (two_K p Hp Hp2) ns); [|apply (on_nmul p Hp Hp2), O|exact O|apply on_popp, O].
        rewrite padd_opp_r, padd_inf_r, (nmul_mul p Hp Hp2 a2 a4 a6 ns _ _ A O), Nat.mul_comm,
          <- (nmul_mul p Hp Hp2 a2 a4 a6 ns _ _ A O), N. apply nm_inf. }
    rewrite (odd_no2 D n OD Hn ND DD) in H. destruct H.
  Qed.
End Odd.

(** *** any curve, opened *)
Lemma weier_any_open e : weier_any e -> exists p (Hp : prime p) (Hp2 : 2 < p) (a b : ZpF p Hp),
  WCurve.c_f e = mkFp p /\ WCurve.c_a e = fe a /\ WCurve.c_b e = fe b
  /\ Fadd (Fmul (Fmul (Fadd F1 F1) (Fadd F1 F1)) (Fmul (Fmul a a) a))
       (Fmul (Fmul (Fmul (Fadd (Fadd F1 F1) F1) (Fadd (Fadd F1 F1) F1)) (Fadd (Fadd F1 F1) F1)) (Fmul b b)) <> F0
  /\ (forall P A, wpoint e P A <-> exists A', A = ap p Hp A' /\ WeierP.wrep p Hp a b e P A')
  /\ (forall A B C, on (ZpF p Hp) F0 a b A -> on (ZpF p Hp) F0 a b B ->
        (wsum e (ap p Hp A) (ap p Hp B) C <-> C = ap p Hp (padd (ZpF p Hp) F0 a A B)))
  /\ (forall A n C, on (ZpF p Hp) F0 a b A ->
        (multiple (wsum e) Infinity (ap p Hp A) n C <-> C = ap p Hp (nmul p Hp F0 a n A)))
  /\ (weier e <-> forall x : ZpF p Hp, Fadd (Fadd (Fmul (Fmul x x) x) (Fmul a x)) b <> F0).
Proof.
  intros (Hp & Hp2 & Va & Vb & NR). set (p := modulus (WCurve.c_f e)) in *.
  assert (ef : WCurve.c_f e = mkFp p) by (unfold p; destruct (WCurve.c_f e); reflexivity).
  destruct (valid_ex _ _ Va) as [a ea], (valid_ex _ _ Vb) as [b eb].
  exists p, Hp, Hp2, a, b.
  assert (R : forall P A, wpoint e P A <-> exists A', A = ap p Hp A' /\ WeierP.wrep p Hp a b e P A').
  { intros P A. unfold wpoint, WeierP.wrep. rewrite ea, eb. fold p. cbn [val fe]. split.
    - intros (EP & Vx & Vy & Vz & R & O).
      destruct (on_cubic_unap p Hp Hp2 F0 a b A O) as (A' & -> & O').
      exists A'. split; [reflexivity|]. split; [exact EP|]. split; [|exact O'].
      destruct (valid_ex _ _ Vx) as [X EX], (valid_ex _ _ Vy) as [Y EY], (valid_ex _ _ Vz) as [Z EZ].
      exists X, Y, Z. split; [unfold WeierP.mk; rewrite <- EX, <- EY, <- EZ; destruct (WCurve.pc P); reflexivity|].
      apply (rep_ap p Hp Hp2). rewrite EX, EY, EZ in R. exact R.
    - intros (A' & -> & EP & (X & Y & Z & EC & R) & O). rewrite EC. cbn [WeierP.mk WCurve.px WCurve.py WCurve.pz val fe].
      split; [exact EP|]. repeat (split; [apply valid_fe; lia|]). split; [apply (rep_ap p Hp Hp2), R|].
      apply (on_ap p Hp Hp2 F0 a b). exact O. }
  split; [exact ef|]. split; [exact ea|]. split; [exact eb|]. split.
  { intro E. apply NR. rewrite ea, eb. cbn [val fe]. apply of_Z_zero; [lia|].
    change 4 with ((1 + 1) * (1 + 1)). change 27 with ((1 + 1 + 1) * (1 + 1 + 1) * (1 + 1 + 1)). pushZ. exact E. }
  split; [exact R|]. unfold wsum, weier. rewrite ea, eb. fold p. cbn [val fe]. split; [|split].
  - intros A B C OA OB. apply (ct_padd p Hp Hp2 F0 a b A B OA OB C).
  - intros A n C OA. apply (multiple_ap p Hp Hp2 F0 a b n A OA C).
  - split.
    + intros (_ & _ & _ & _ & N) x E. apply (N (zv x)). apply of_Z_zero; [lia|].
      rewrite !of_Z_add, !of_Z_mul, !of_Z_zv. exact E.
    + intro N. rewrite <- ea, <- eb. split; [exact Hp|]. split; [exact Hp2|]. split; [exact Va|]. split; [exact Vb|]. intros x E. apply (N (of_Z p x)).
      apply of_Z_zero in E; [|lia]. rewrite !of_Z_add, !of_Z_mul, !of_Z_zv in E. exact E.
Qed.

Lemma mont_any_open e : mont_any e -> exists p (Hp : prime p) (Hp2 : 2 < p) (a b s : ZpF p Hp),
  MCurve.c_f e = mkFp p /\ MCurve.c_a e = fe a /\ MCurve.c_b e = fe b /\ MCurve.c_s e = fe s /\ b = F1
  /\ Fmul a a <> Fmul (Fadd F1 F1) (Fadd F1 F1)
  /\ (forall P A, mpoint e P A <-> exists A', A = ap p Hp A' /\ MontP.wrep p Hp a e P A')
  /\ (forall A B C, on (ZpF p Hp) a F1 F0 A -> on (ZpF p Hp) a F1 F0 B ->
        (msum e (ap p Hp A) (ap p Hp B) C <-> C = ap p Hp (padd (ZpF p Hp) a F1 A B)))
  /\ (forall A n C, on (ZpF p Hp) a F1 F0 A ->
        (multiple (msum e) Infinity (ap p Hp A) n C <-> C = ap p Hp (nmul p Hp a F1 n A)))
  /\ (mont e <-> forall x : ZpF p Hp, Fadd (Fadd (Fmul (Fmul x x) x) (Fmul a (Fmul x x))) x <> Fmul s s).
Proof.
  intros (Hp & Hp2 & Va & Vb & Vs & B1 & NS). set (p := modulus (MCurve.c_f e)) in *.
  assert (ef : MCurve.c_f e = mkFp p) by (unfold p; destruct (MCurve.c_f e); reflexivity).
  destruct (valid_ex _ _ Va) as [a ea], (valid_ex _ _ Vb) as [b eb], (valid_ex _ _ Vs) as [s es].
  exists p, Hp, Hp2, a, b, s.
  assert (Z1 : zv (F1 : ZpF p Hp) = 1) by (change (1 mod p = 1); apply Z.mod_small; lia).
  assert (Z0 : zv (F0 : ZpF p Hp) = 0) by reflexivity.
  pose proof (on_ap p Hp Hp2 a F1 F0) as OA. rewrite Z1, Z0 in OA.
  pose proof (on_cubic_unap p Hp Hp2 a F1 F0) as OU. rewrite Z1, Z0 in OU.
  pose proof (ct_padd p Hp Hp2 a F1 F0) as CT. rewrite Z1 in CT.
  pose proof (multiple_ap p Hp Hp2 a F1 F0) as MA. rewrite Z1 in MA.
  assert (R : forall P A, mpoint e P A <-> exists A', A = ap p Hp A' /\ MontP.wrep p Hp a e P A').
  { intros P A. unfold mpoint, MontP.wrep. rewrite B1, ea. fold p. cbn [val fe]. split.
    - intros (EP & Vx & Vy & Vz & R & O).
      destruct (OU A O) as (A' & -> & O').
      exists A'. split; [reflexivity|]. split; [exact EP|]. split; [|exact O'].
      destruct (valid_ex _ _ Vx) as [X EX], (valid_ex _ _ Vy) as [Y EY], (valid_ex _ _ Vz) as [Z EZ].
      exists X, Y, Z. split; [unfold MontP.mk; rewrite <- EX, <- EY, <- EZ; destruct (MCurve.pc P); reflexivity|].
      apply (rep_ap p Hp Hp2). rewrite EX, EY, EZ in R. exact R.
    - intros (A' & -> & EP & (X & Y & Z & EC & R) & O). rewrite EC. cbn [MontP.mk MCurve.px MCurve.py MCurve.pz val fe].
      split; [exact EP|]. repeat (split; [apply valid_fe; lia|]). split; [apply (rep_ap p Hp Hp2), R|].
      apply OA. exact O. }
  split; [exact ef|]. split; [exact ea|]. split; [exact eb|]. split; [exact es|]. split.
  { apply Zp_eq. rewrite Z1. rewrite eb in B1. exact B1. }
  split.
  { intro E. apply NS. rewrite ea. cbn [val fe]. apply of_Z_div; [lia|]. change 4 with ((1 + 1) * (1 + 1)). pushZ. exact E. }
  split; [exact R|]. unfold msum. rewrite B1, ea. fold p. cbn [val fe]. split; [|split].
  - intros A B C HA HB. apply (CT A B HA HB C).
  - intros A n C HA. apply (MA n A HA C).
  - split.
    + intros (_ & _ & _ & _ & _ & _ & _ & N) x E. apply (N (zv x)). rewrite ea, es. cbn [val fe].
      apply of_Z_div; [lia|]. pushZ. exact E.
    + intro N. repeat (split; [assumption|]). intros x E. apply (N (of_Z p x)).
      rewrite ea, es in E. cbn [val fe] in E. fold p in E.
      apply of_Z_div in E; [|lia]. revert E. pushZ. intro E. exact E.
Qed.

(** *** Edwards *)
Section Eds.
  Variable K : Fld.
  Add Field KE : (Fth K).
  Open Scope fld_scope.
  Variables a d : K.
  (** whatever the denominators, the formulas give a tuple that satisfies the equations *)
  Lemma ed_closed X1 Y1 T1 Z1 X2 Y2 T2 Z2 P Q : EdwP.erep K X1 Y1 T1 Z1 P -> EdwP.erep K X2 Y2 T2 Z2 Q ->
    Edwards.eon K a d P -> Edwards.eon K a d Q ->
    let '(x, y, t, z) := EdwP.code_add K a d X1 Y1 T1 Z1 X2 Y2 T2 Z2 in EdwP.etest K a d x y t z.
  Proof.
    destruct P as [x1 y1], Q as [x2 y2]. unfold EdwP.erep, EdwP.code_add, EdwP.etest, Edwards.eon. cbn [fst snd].
    intros (H1 & -> & -> & ->) (H2 & -> & -> & ->) E1 E2. split; [|ring].
    set (c := d * (x1 * x2 * (y1 * y2))).
    assert (S1 : a * (x1 * x1) + y1 * y1 - (a * (x2 * x2) + y2 * y2) * (d * (x1 * x1) * (y1 * y1)) = 1 - c * c)
      by (rewrite E1, E2; unfold c; ring).
    assert (S2 : a * (x2 * x2) + y2 * y2 - (a * (x1 * x1) + y1 * y1) * (d * (x2 * x2) * (y2 * y2)) = 1 - c * c)
      by (rewrite E1, E2; unfold c; ring).
    transitivity (Z1 * Z1 * Z1 * Z1 * (Z2 * Z2 * Z2 * Z2)
      * ((a * (x1 * x1) + y1 * y1 - (a * (x2 * x2) + y2 * y2) * (d * (x1 * x1) * (y1 * y1)))
       * (a * (x2 * x2) + y2 * y2 - (a * (x1 * x1) + y1 * y1) * (d * (x2 * x2) * (y2 * y2))) - (1 - c * c) * (1 - c * c)));
      [unfold c; ring|]. rewrite S1, S2. ring.
  Qed.
  (** the third coordinate vanishes exactly when a denominator does *)
  Lemma ed_z X1 Y1 T1 Z1 X2 Y2 T2 Z2 P Q : EdwP.erep K X1 Y1 T1 Z1 P -> EdwP.erep K X2 Y2 T2 Z2 Q ->
    1 + d * exy K P Q = 0 \/ 1 - d * exy K P Q = 0 ->
    let '(x, y, t, z) := EdwP.code_add K a d X1 Y1 T1 Z1 X2 Y2 T2 Z2 in z = 0.
  Proof.
    destruct P as [x1 y1], Q as [x2 y2]. unfold EdwP.erep, EdwP.code_add, exy. cbn [fst snd].
    intros (H1 & -> & -> & ->) (H2 & -> & -> & ->) D.
    transitivity (Z1 * Z2 * (Z1 * Z2) * ((1 + d * (x1 * x2 * (y1 * y2))) * (1 - d * (x1 * x2 * (y1 * y2))))); [ring|].
    destruct D as [-> | ->]; ring.
  Qed.
End Eds.
Section E.
  Import ECurve EdwP.
  Variable p : Z.
  Hypothesis Hp : prime p.
  Hypothesis Hp2 : 2 < p.
  Local Notation K := (ZpF p Hp).
  Variables a d : K.
  Variable e : Curve.
  Hypothesis ef : c_f e = mkFp p.
  Hypothesis ea : c_a e = fe a.
  Hypothesis ed : c_d e = fe d.
  Definition edu (A B : K * K) : Prop :=
    Fadd F1 (Fmul d (exy K A B)) = F0 \/ Fsub F1 (Fmul d (exy K A B)) = F0.
  Lemma edu_dec A B : edu A B \/ ~ edu A B.
  Proof.
    unfold edu. destruct (Feqd (Fadd F1 (Fmul d (exy K A B))) (F0 : K)); [tauto|].
    destruct (Feqd (Fsub F1 (Fmul d (exy K A B))) (F0 : K)); tauto.
  Qed.
  Lemma e_add_any P Q A B : wrep p Hp a d e P A -> wrep p Hp a d e Q B -> exists R, pt_add P Q = Ret R
    /\ (edu A B -> exists X Y T, R = mkPoint e (mk p Hp X Y T F0))
    /\ (~ edu A B -> wrep p Hp a d e R (eadd K a d A B)).
  Proof.
    intros (EP & (X1 & Y1 & T1 & Z1 & CP & RP) & OA) (EQ & (X2 & Y2 & T2 & Z2 & CQ & RQ) & OB).
    unfold pt_add. rewrite EP, EQ, curve_eqb_refl. cbn [do_if_eq].
    pose proof (ed_closed K a d _ _ _ _ _ _ _ _ _ _ RP RQ OA OB) as T.
    pose proof (ed_z K a d _ _ _ _ _ _ _ _ _ _ RP RQ) as Z.
    pose proof (code_add_rep K a d _ _ _ _ _ _ _ _ _ _ RP RQ) as R.
    unfold core_add. rewrite EP, CP, CQ, ea, ed. cbn [px py ptt pz mk]. fes.
    match goal with |- context [new_proy_point e ?c] =>
      change c with (let '(x, y, t, z) := code_add K a d X1 Y1 T1 Z1 X2 Y2 T2 Z2 in mk p Hp x y t z) end.
    destruct (code_add K a d X1 Y1 T1 Z1 X2 Y2 T2 Z2) as [[[x y] t] z].
    unfold new_proy_point. destruct (on_curve_mk p Hp Hp2 a d e ea ed x y t z) as (b & -> & Hb). cbn [bind].
    apply Hb in T as E. rewrite E. cbn [do_if_eq]. eexists. split; [reflexivity|]. split; intro U.
    - rewrite (Z U). eauto.
    - assert (W : erep K x y t z (eadd K a d A B)) by (apply R; intro; apply U; [left|right]; assumption).
      apply wrep_mk; [exact W|]. apply (erep_on K a d _ _ _ _ _ W). exact T.
  Qed.
  Lemma e_sum_any A B : ~ edu A B ->
    forall C, edwards_sum p (zv a) (zv d) (zz p Hp A) (zz p Hp B) C <-> C = zz p Hp (eadd K a d A B).
  Proof.
    intros U [x3 y3].
    assert (Dp : Fadd F1 (Fmul d (exy K A B)) <> F0) by (intro; apply U; left; assumption).
    assert (Dm : Fsub F1 (Fmul d (exy K A B)) <> F0) by (intro; apply U; right; assumption). clear U.
    destruct A as [x1 y1], B as [x2 y2]. unfold edwards_sum, zz, Edwards.eadd, exy in *. cbn [fst snd] in *.
    assert (Ep : of_Z p (1 + zv d * (zv x1 * zv x2 * zv y1 * zv y2)) = Fadd F1 (Fmul d (Fmul (Fmul x1 x2) (Fmul y1 y2))) :> K).
    { pushZ. change (zmul (zmul (zmul x1 x2) y1) y2) with (Fmul (Fmul (Fmul x1 x2) y1) y2 : K). rewrite (exy_assoc K). reflexivity. }
    assert (Em : of_Z p (1 - zv d * (zv x1 * zv x2 * zv y1 * zv y2)) = Fsub F1 (Fmul d (Fmul (Fmul x1 x2) (Fmul y1 y2))) :> K).
    { pushZ. change (zmul (zmul (zmul x1 x2) y1) y2) with (Fmul (Fmul (Fmul x1 x2) y1) y2 : K). rewrite (exy_assoc K). reflexivity. }
    rewrite !(nz_div p Hp Hp2), Ep, Em.
    rewrite (div_prod_Z p Hp Hp2 x3 _ (Fadd (Fmul x1 y2) (Fmul y1 x2)) _ _ (eq_sym Ep)) by (pushZ; reflexivity).
    rewrite (div_prod_Z p Hp Hp2 y3 _ (Fsub (Fmul y1 y2) (Fmul a (Fmul x1 x2))) _ _ (eq_sym Em)) by (pushZ; reflexivity).
    rewrite (es_alg K _ _ _ Dp), (es_alg K _ _ _ Dm). split.
    - intros (C1 & C2 & _ & _ & E1 & E2). apply (f_equal zv) in E1. apply (f_equal zv) in E2.
      rewrite (coord_of p) in E1 by exact C1. rewrite (coord_of p) in E2 by exact C2. rewrite E1, E2. reflexivity.
    - intro E. pose proof (f_equal fst E) as E1. pose proof (f_equal snd E) as E2. cbn [fst snd] in E1, E2. clear E.
      rewrite E1, E2, !of_Z_zv. pose proof (coord_zv p Hp Hp2). auto 10.
  Qed.
  Lemma edu_zz A B : e_undefined e (zz p Hp A) (zz p Hp B) <-> edu A B.
  Proof.
    unfold e_undefined, edu. rewrite ef, ed. cbn [modulus val fe]. destruct A as [x1 y1], B as [x2 y2].
    unfold zz, exy. cbn [fst snd].
    assert (Ep : of_Z p (1 + zv d * (zv x1 * zv x2 * zv y1 * zv y2)) = Fadd F1 (Fmul d (Fmul (Fmul x1 x2) (Fmul y1 y2))) :> K).
    { pushZ. change (zmul (zmul (zmul x1 x2) y1) y2) with (Fmul (Fmul (Fmul x1 x2) y1) y2 : K). rewrite (exy_assoc K). reflexivity. }
    assert (Em : of_Z p (1 - zv d * (zv x1 * zv x2 * zv y1 * zv y2)) = Fsub F1 (Fmul d (Fmul (Fmul x1 x2) (Fmul y1 y2))) :> K).
    { pushZ. change (zmul (zmul (zmul x1 x2) y1) y2) with (Fmul (Fmul (Fmul x1 x2) y1) y2 : K). rewrite (exy_assoc K). reflexivity. }
    assert (Q : forall z, (p | z) <-> of_Z p z = F0 :> K)
      by (intro z; split; [intro E; apply of_Z_zero in E; [exact E|lia]|intro E; apply of_Z_zero; [lia|exact E]]).
    rewrite !Q, Ep, Em. reflexivity.
  Qed.
End E.
Lemma edw_any_open e : edw_any e -> exists p (Hp : prime p) (Hp2 : 2 < p) (a d : ZpF p Hp),
  ECurve.c_f e = mkFp p /\ ECurve.c_a e = fe a /\ ECurve.c_d e = fe d
  /\ (forall P A, epoint e P A <-> exists A', A = EdwP.zz p Hp A' /\ EdwP.wrep p Hp a d e P A').
Proof.
  intros (Hp & Hp2 & Va & Vd). set (p := modulus (ECurve.c_f e)) in *.
  assert (ef : ECurve.c_f e = mkFp p) by (unfold p; destruct (ECurve.c_f e); reflexivity).
  destruct (valid_ex _ _ Va) as [a ea], (valid_ex _ _ Vd) as [d ed].
  exists p, Hp, Hp2, a, d. do 3 (split; [assumption|]).
  intros P A. unfold epoint, EdwP.wrep. rewrite ea, ed. fold p. cbn [val fe]. split.
  + intros (EP & Vx & Vy & Vt & Vz & R & O).
    destruct (EdwP.on_unzz p Hp Hp2 a d A O) as (A' & -> & O').
    exists A'. split; [reflexivity|]. split; [exact EP|]. split; [|exact O'].
    destruct (valid_ex _ _ Vx) as [X EX], (valid_ex _ _ Vy) as [Y EY], (valid_ex _ _ Vt) as [T ET], (valid_ex _ _ Vz) as [Z EZ].
    exists X, Y, T, Z. split; [unfold EdwP.mk; rewrite <- EX, <- EY, <- ET, <- EZ; destruct (ECurve.pc P); reflexivity|].
    apply (EdwP.rep_zz p Hp Hp2). rewrite EX, EY, ET, EZ in R. exact R.
  + intros (A' & -> & EP & (X & Y & T & Z & EC & R) & O). rewrite EC. cbn [EdwP.mk ECurve.px ECurve.py ECurve.ptt ECurve.pz val fe].
    split; [exact EP|]. repeat (split; [apply valid_fe; lia|]). split; [apply (EdwP.rep_zz p Hp Hp2), R|].
    apply EdwP.eon_zz; assumption.
Qed.
