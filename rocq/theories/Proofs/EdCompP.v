(** Edwards points as points of the companion curve, over Z/p: what the model computes for them. *)
From Coq Require Import ZArith Znumtheory Lia String Bool List Arith Ring Field.
From Verif.Math Require Import Fld Zp Residue Edwards EdOdd EdComp ECGroup.
From Verif.Spec Require Import Arith Curve Elements Exceptions.
From Verif.Model Require Import Out BigInt PrimeField Scalar ECurve.
From Verif.Proofs Require Import FieldP FieldProps BytesP CurveP LadderP EdwP ExcepP EdOddP.
Import ListNotations.
Open Scope Z_scope.

Section Alg.
  Variable K : Fld.
  Add Field KF : (Fth K).
  Open Scope fld_scope.
  Variables a d : K.
  Lemma code_add4 X1 Y1 T1 Z1 X2 Y2 T2 Z2 :
    code_add K a d X1 Y1 T1 Z1 X2 Y2 T2 Z2 = add4 K a d (X1, Y1, T1, Z1) (X2, Y2, T2, Z2).
  Proof. unfold code_add, add4, fE, fF, fG, fH. apply q_eq; ring. Qed.
  Lemma on4_etest X Y T Z : on4 K a d (X, Y, T, Z) <-> etest K a d X Y T Z.
  Proof. rewrite (etest_iff K). reflexivity. Qed.
  Lemma scale_one (P : quad K) : scale K 1 P = P.
  Proof. destruct P as [[[x y] t] z]. unfold scale. apply q_eq; ring. Qed.
  Lemma scale_neg l (x y t z : K) : scale K l (- x, y, - t, z) = (- (l * x), l * y, - (l * t), l * z).
  Proof. unfold scale. apply q_eq; ring. Qed.
  Lemma inv_nz (l : K) : l <> 0 -> exists m : K, m <> 0 /\ m * l = 1.
  Proof.
    intro N. exists (1 / l). split; [|apply Fdiv_mul, N]. apply (Fdiv_nonzero K); [exact (F_1_neq_0 K)|exact N].
  Qed.
  Lemma neg_zero4 : ((- (0) : K), (0 : K), (- (0) : K), (0 : K)) = zero4 K. Proof. unfold zero4. apply q_eq; ring. Qed.
  Lemma opp_mul (l x : K) : - (l * x) = l * - x. Proof. ring. Qed.
  Lemma FmulR1 (x : K) : x * 1 = x. Proof. ring. Qed.
  Lemma FmulRm1 (x : K) : x * - (1) = - x. Proof. ring. Qed.
  Lemma etest_rep X Y T Z : Z <> 0 -> etest K a d X Y T Z -> exists A, erep K X Y T Z A /\ eon K a d A.
  Proof.
    intros N H. assert (R : erep K X Y T Z (X / Z, Y / Z)).
    { unfold erep. cbn [fst snd]. apply etest_iff in H. destruct H as [H _].
      split; [exact N|]. split; [field; exact N|]. split; [field; exact N|].
      apply (Fcancel_l K Z _ _ N). transitivity (T * Z); [ring|]. rewrite <- H. field. exact N. }
    exists (X / Z, Y / Z). split; [exact R|]. apply (erep_on K a d _ _ _ _ _ R), H.
  Qed.
End Alg.

Section P.
  Variable p : Z.
  Hypothesis Hp : prime p.
  Hypothesis Hp2 : 2 < p.
  Local Notation K := (ZpF p Hp).
  Variables a d : K.
  Hypothesis a_nz : a <> F0.
  Hypothesis d_nz : d <> F0.
  Hypothesis ad : a <> d.
  Variable e : Curve.
  Hypothesis ef : c_f e = mkFp p.
  Hypothesis ea : c_a e = fe a.
  Hypothesis ed : c_d e = fe d.
  Local Notation mk := (mk p Hp).
  Local Notation two := (two_K p Hp Hp2).
  Local Notation mC := (Fadd F1 F1 : K).
  Local Notation mA := (Fmul (Fadd F1 F1) (Fadd a d) : K).
  Local Notation mE := (Fsub a d : K).
  Local Notation on := (on K mA (Fmul mE mE) F0).
  Local Notation padd := (padd K mA (Fmul mE mE)).
  Local Notation nmul := (nmul p Hp mA (Fmul mE mE)).
  Local Notation fin := (fin K mE).
  Local Notation tau := (tau K mC mE).
  Local Notation e_nz := (sub_nz K a d ad).
  Local Notation Ha := (o_Ha K a d).
  Local Notation Hd := (o_Hd K a d).
  Local Notation onadd := (o_on p Hp Hp2 a d).

  Definition mkq (q : quad K) : ProyCoordinates := let '(x, y, t, z) := q in mk x y t z.
  Definition qpt (q : quad K) : Point := mkPoint e (mkq q).
  Definition crep (P : Point) (M : pt K) : Prop := on M /\ exists l, l <> F0 /\ P = qpt (scale K l (tau M)).
  Definition cnull (P : Point) : Prop := P = qpt (zero4 K).

  Lemma new_q q : on4 K a d q -> new_proy_point e (mkq q) = Ret (qpt q).
  Proof. destruct q as [[[x y] t] z]. intro H. apply on4_etest in H. exact (new_tup p Hp Hp2 a d e ea ed x y t z H). Qed.
  Lemma add_q q r : on4 K a d (add4 K a d q r) -> pt_add (qpt q) (qpt r) = Ret (qpt (add4 K a d q r)).
  Proof.
    destruct q as [[[X1 Y1] T1] Z1], r as [[[X2 Y2] T2] Z2]. intro H.
    unfold pt_add, qpt. cbn [pe]. rewrite curve_eqb_refl. cbn [do_if_eq].
    unfold core_add. cbn [pe pc]. rewrite ea, ed. cbn [px py ptt pz EdwP.mk mkq]. fes.
    match goal with |- context [new_proy_point e ?c] =>
      change c with (mkq (code_add K a d X1 Y1 T1 Z1 X2 Y2 T2 Z2)) end.
    rewrite code_add4. apply new_q, H.
  Qed.
  Lemma zero_on4 : on4 K a d (zero4 K).
  Proof. apply on4_etest. unfold etest. rewrite !(EdOddP.mul_0_l K). split; reflexivity. Qed.
  Lemma q_neg q : on4 K a d q -> pt_neg (qpt q) = Ret (qpt (let '(x, y, t, z) := q in (Fopp x, y, Fopp t, z))).
  Proof.
    destruct q as [[[x y] t] z]. intro H. apply on4_etest in H. unfold pt_neg, core_neg, qpt. cbn [pe pc px py ptt pz EdwP.mk mkq]. fes.
    exact (new_tup p Hp Hp2 a d e ea ed _ _ _ _ (etest_opp K a d _ _ _ _ H)).
  Qed.
  Lemma crep_on4 l M : on M -> on4 K a d (scale K l (tau M)).
  Proof. intro H. apply on4_scale. exact (on4_tau K a d mA mC mE Ha Hd M H). Qed.

  Lemma c_add P Q M N : crep P M -> crep Q N -> exists R, pt_add P Q = Ret R
    /\ ((~ fin (padd M (popp K N)) /\ cnull R) \/ (fin (padd M (popp K N)) /\ crep R (padd M N))).
  Proof.
    intros (HM & l & Nl & ->) (HN & m & Nm & ->).
    destruct (comp_add K a d mA mC mE two e_nz a_nz d_nz Ha Hd M N HM HN) as [D1 D2].
    destruct (fin_dec p Hp a d (padd M (popp K N))) as [F|F].
    - destruct (D2 F) as (n & Nn & E). rewrite add_q; rewrite add4_scale, E, scale_scale.
      + eexists. split; [reflexivity|]. right. split; [exact F|]. split; [apply onadd; assumption|].
        eexists. split; [|reflexivity]. repeat apply Fmul_nonzero; assumption.
      + apply crep_on4. apply onadd; assumption.
    - rewrite add_q; rewrite add4_scale, (D1 F), scale_zero; [|apply zero_on4].
      eexists. split; [reflexivity|]. left. split; [exact F|reflexivity].
  Qed.
  Lemma c_double P M : crep P M -> exists R, pt_add P P = Ret R /\ crep R (padd M M).
  Proof.
    intro H. destruct (c_add P P M M H H) as (R & E & [[F _]|[_ HR]]); [|eauto].
    destruct F. rewrite padd_opp_r. exact I.
  Qed.
  Lemma c_neg P M : crep P M -> exists R, pt_neg P = Ret R /\ crep R (popp K M).
  Proof.
    intros (HM & l & Nl & ->). rewrite q_neg by (apply crep_on4, HM).
    destruct (tau_neg K mA mC mE M HM) as (n & Nn & E). eexists. split; [reflexivity|].
    split; [apply on_popp, HM|]. destruct (inv_nz K n Nn) as (k & Nk & Ek). exists (Fmul l k). split; [apply Fmul_nonzero; assumption|].
    rewrite E, <- (scale_scale K l k), (scale_scale K k n), Ek, scale_one. f_equal.
    destruct (tau M) as [[[x y] t] z]. rewrite scale_neg. reflexivity.
  Qed.
  Definition shape (P : Point) : Prop := exists q, P = qpt q.
  Lemma crep_shape P M : crep P M -> shape P. Proof. intros (_ & l & _ & ->). eexists. reflexivity. Qed.
  Lemma null_add_l P Q : cnull P -> shape Q -> pt_add P Q = Ret P.
  Proof. intros -> (q & ->). rewrite add_q; rewrite add4_zero; [reflexivity|apply zero_on4]. Qed.
  Lemma null_add_r P Q : cnull P -> shape Q -> pt_add Q P = Ret P.
  Proof. intros -> (q & ->). rewrite add_q; rewrite add4_comm, add4_zero; [reflexivity|apply zero_on4]. Qed.
  Lemma null_neg P : cnull P -> pt_neg P = Ret P.
  Proof. intros ->. rewrite q_neg by apply zero_on4. unfold zero4 at 1. rewrite (neg_zero4 K). reflexivity. Qed.
  Lemma c_identity : exists I0, identity e = Ret I0 /\ crep I0 (Inf K).
  Proof.
    assert (E : identity e = Ret (qpt (tau (Inf K)))).
    { unfold identity. rewrite ef. fes. exact (new_tup p Hp Hp2 a d e ea ed _ _ _ _ (etest_zero K a d)). }
    eexists. split; [exact E|]. split; [exact I|]. exists F1. split; [exact (F_1_neq_0 K)|]. rewrite scale_one. reflexivity.
  Qed.

  Definition cbad (M : pt K) (m : Z) : Prop := ~ fin (padd (nmul (Z.to_nat m) M) (popp K M)).
  Lemma c_mul oc P M k : crep P M -> sr k = c_r e -> 0 < sk k -> bits (sk k) < 2 ^ 64 ->
    exists R, pt_mul oc P k = Ret R
      /\ ((spoils (cbad M) (sk k) /\ cnull R) \/ (~ spoils (cbad M) (sk k) /\ crep R (nmul (Z.to_nat (sk k)) M))).
  Proof.
    intros HP Er Hk H64. assert (EP : pe P = e) by (destruct HP as (_ & l & _ & ->); reflexivity).
    unfold pt_mul. rewrite EP, Er, Z.eqb_refl. cbn [do_if_eq]. unfold core_mul. rewrite EP.
    destruct c_identity as (I0 & -> & HI). cbn [bind].
    assert (EK : Z.of_nat (Z.to_nat (sk k)) = sk k) by lia.
    set (Inv := (fun n q => (spoils (cbad M) (Z.of_nat n) /\ cnull q) \/ (~ spoils (cbad M) (Z.of_nat n) /\ crep q (nmul n M)))).
    match goal with |- exists R, ?X = Ret R /\ _ => cut (exists R, X = Ret R /\ Inv (Z.to_nat (sk k)) R) end.
    { intros (R & E & H). exists R. split; [exact E|]. unfold Inv in H. rewrite EK in H. exact H. }
    apply (scalar_loop Inv); unfold Inv; clear Inv;
      [|right; split; [apply spoils_zero|exact HI]|exact Hk|exact H64].
    intros n q t Hq. setoid_rewrite spoils_step.
    destruct Hq as [[HS N]|[HS Hq]].
    - rewrite (null_add_l q q N) by (rewrite N; eexists; reflexivity). cbn [bind]. exists q. split; [|left; split; [right; exact HS|exact N]].
      destruct t; [|reflexivity]. exact (null_add_l q P N (crep_shape P M HP)).
    - destruct (c_double q _ Hq) as (D & -> & HD). cbn [bind].
      rewrite (o_add p Hp Hp2 a d a_nz d_nz ad n n M (proj1 HP)) in HD. destruct t.
      + destruct (c_add D P _ M HD HP) as (R & -> & HR). exists R. split; [reflexivity|].
        assert (W : cbad M (Z.of_nat (n + n)) <-> ~ fin (padd (nmul (n + n) M) (popp K M)))
          by (unfold cbad; rewrite Nat2Z.id; reflexivity).
        destruct HR as [[O N]|[O HR]].
        * left. split; [left; split; [reflexivity|apply W, O]|exact N].
        * right. split; [intros [[_ B]|B]; [apply W in B; exact (B O)|exact (HS B)]|]. rewrite Nat.add_1_r. exact HR.
      + exists D. split; [reflexivity|]. right. split; [intros [[B _]|B]; [discriminate B|exact (HS B)]|].
        rewrite Nat.add_0_r. exact HD.
  Qed.
  Lemma null_mul oc P k : cnull P -> sr k = c_r e -> 0 < sk k -> bits (sk k) < 2 ^ 64 -> pt_mul oc P k = Ret P.
  Proof.
    intros N Er Hk H64. unfold pt_mul. rewrite (f_equal pe N : pe P = e), Er, Z.eqb_refl. cbn [do_if_eq]. unfold core_mul.
    rewrite (f_equal pe N : pe P = e). destruct c_identity as (I0 & -> & HI). cbn [bind].
    match goal with |- ?X = _ => cut (exists R, X = Ret R /\ (fun n q => (n = O /\ crep q (Inf K)) \/ (n <> O /\ cnull q)) (Z.to_nat (sk k)) R) end.
    { intros (R & E & [[H _]|[_ H]]); [lia|]. rewrite E, (H : R = _), (N : P = _). reflexivity. }
    apply scalar_loop; [|left; split; [reflexivity|exact HI]|exact Hk|exact H64].
    intros n q t [[-> Hq]|[Hn Hq]].
    - destruct (c_double q _ Hq) as (D & -> & HD). cbn [bind]. destruct t.
      + rewrite (null_add_r P D N (crep_shape _ _ HD)). exists P. split; [reflexivity|]. right. split; [discriminate|exact N].
      + exists D. split; [reflexivity|]. left. split; [reflexivity|exact HD].
    - rewrite (null_add_l q q Hq) by (rewrite Hq; eexists; reflexivity). cbn [bind]. exists q. split; [|right; split; [lia|exact Hq]].
      destruct t; [|reflexivity]. apply (null_add_l q P Hq). rewrite N. eexists. reflexivity.
  Qed.
  Lemma null_eqb P Q : cnull P -> shape Q -> pt_eqb P Q = Ret true /\ pt_eqb Q P = Ret true.
  Proof.
    intros -> ([[[X Y] T] Z] & ->). unfold pt_eqb, qpt, zero4. cbn [pe pc px py ptt pz EdwP.mk mkq]. rewrite curve_eqb_refl. fes. cbn [andb].
    split; apply (f_equal Ret); rewrite ?andb_true_iff, !fpelt_eqb_fe by lia; repeat split;
      change zmul with (fun x y : Zp p => Fmul (x : K) y); cbv beta; rewrite ?(mul_0_l K), ?(mul_0_r K); reflexivity.
  Qed.
  Lemma fe_eq (x y : K) : fe x = fe y -> x = y. Proof. apply (fe_inj p). Qed.
  Lemma qpt_inj q r : qpt q = qpt r -> q = r.
  Proof.
    destruct q as [[[x y] t] z], r as [[[x' y'] t'] z']. unfold qpt, mkq. intro E.
    assert (E1 : pc (mkPoint e (mk x y t z)) = pc (mkPoint e (mk x' y' t' z'))) by (rewrite E; reflexivity). cbn [pc] in E1.
    apply (q_eq K); apply fe_eq; [exact (f_equal px E1)|exact (f_equal py E1)|exact (f_equal ptt E1)|exact (f_equal pz E1)].
  Qed.
  Lemma crep_fun P M N : crep P M -> crep P N -> M = N.
  Proof.
    intros (HM & l & Nl & ->) (HN & m & Nm & E). apply qpt_inj in E. destruct (inv_nz K l Nl) as (k & Nk & Ek).
    apply (tau_inj K a d mA mC mE two e_nz Ha Hd (Fmul k m)); try assumption; [apply Fmul_nonzero; assumption|].
    rewrite <- scale_scale, <- E, scale_scale, Ek, scale_one. reflexivity.
  Qed.
  Lemma null_no_crep P M : cnull P -> ~ crep P M.
  Proof.
    intros -> (HM & l & Nl & E). apply qpt_inj in E. symmetry in E. revert E. apply scale_nz; [exact Nl|].
    exact (tau_nz K a d mA mC mE two e_nz Ha Hd M).
  Qed.
  Lemma tup_crep P : tup p Hp a d e P <-> cnull P \/ exists M, crep P M.
  Proof.
    split.
    - intros (X & Y & T & Z & -> & H). apply on4_etest in H. change (mkPoint e (mk X Y T Z)) with (qpt (X, Y, T, Z)).
      set (q := (X, Y, T, Z)) in *. clearbody q.
      assert (DQ : {q = zero4 K} + {q <> zero4 K}) by (unfold zero4; repeat decide equality; apply Feqd).
      destruct DQ as [-> |N]; [left; reflexivity|right].
      destruct (tau_onto K a d mA mC mE two e_nz Ha Hd q H N) as (M & l & HM & Nl & ->). exists M. split; [exact HM|]. exists l. split; [exact Nl|reflexivity].
    - assert (Q : forall q, on4 K a d q -> tup p Hp a d e (qpt q)).
      { intros [[[x y] t] z] H. apply on4_etest in H. exists x, y, t, z. split; [reflexivity|exact H]. }
      intros [-> |(M & HM & l & Nl & ->)]; apply Q; [apply zero_on4|apply crep_on4, HM].
  Qed.
End P.

(** the specification's companion curve is this one *)
Section B.
  Variable p : Z.
  Hypothesis Hp : prime p.
  Hypothesis Hp2 : 2 < p.
  Local Notation K := (ZpF p Hp).
  Variables a d : K.
  Hypothesis a_nz : a <> F0.
  Hypothesis d_nz : d <> F0.
  Hypothesis ad : a <> d.
  Variable e : Curve.
  Hypothesis ef : c_f e = mkFp p.
  Hypothesis ea : c_a e = fe a.
  Hypothesis ed : c_d e = fe d.
  Local Notation mC := (Fadd F1 F1 : K).
  Local Notation mA := (Fmul (Fadd F1 F1) (Fadd a d) : K).
  Local Notation mE := (Fsub a d : K).
  Local Notation on := (on K mA (Fmul mE mE) F0).
  Local Notation padd := (padd K mA (Fmul mE mE)).
  Local Notation nmul := (nmul p Hp mA (Fmul mE mE)).
  Local Notation fin := (fin K mE).
  Local Notation tau := (tau K mC mE).
  Local Notation ap := (ap p Hp).
  Local Notation crep := (crep p Hp a d e).
  Local Notation cnull := (cnull p Hp e).

  Lemma zv_A : (2 * (zv a + zv d)) mod p = zv mA.
  Proof. rewrite <- zv_of_Z. f_equal. change 2 with (1 + 1). pushZ. reflexivity. Qed.
  Lemma zv_E : ((zv a - zv d) * (zv a - zv d)) mod p = zv (Fmul mE mE : K).
  Proof. rewrite <- zv_of_Z. f_equal. pushZ. reflexivity. Qed.
  Lemma comp_on M : e_comp e M <-> on_cubic p 1 (zv mA) (zv (Fmul mE mE : K)) (zv (F0 : K)) M.
  Proof. unfold e_comp. rewrite ef, ea, ed. cbn [modulus val fe]. rewrite zv_A, zv_E. reflexivity. Qed.
  Lemma csum_ap A B : on A -> on B -> forall C, e_csum e (ap A) (ap B) C <-> C = ap (padd A B).
  Proof.
    intros HA HB C. unfold e_csum. rewrite ef, ea, ed. cbn [modulus val fe]. rewrite zv_A, zv_E. exact (ct_padd p Hp Hp2 _ _ _ A B HA HB C).
  Qed.
  Lemma cmul_ap A n : on A -> forall C, multiple (e_csum e) Infinity (ap A) n C <-> C = ap (nmul n A).
  Proof.
    intros HA C. unfold e_csum. rewrite ef, ea, ed. cbn [modulus val fe]. rewrite zv_A, zv_E. exact (multiple_ap p Hp Hp2 _ _ _ n A HA C).
  Qed.
  Lemma zv0 (x : K) : zv x = 0 <-> x = F0.
  Proof. split; [intro E; apply Zp_eq; exact E|intros ->; reflexivity]. Qed.
  Lemma finite_ap M : e_finite e (ap M) <-> fin M.
  Proof.
    destruct M as [|u v]; cbn; [tauto|]. rewrite ef, ea, ed. cbn [modulus val fe]. rewrite !zv0.
    assert (E : (p | zv u + (zv a - zv d)) <-> (Fadd u mE : K) = F0).
    { rewrite <- (of_Z_zero p) by lia. pushZ. reflexivity. }
    rewrite E. tauto.
  Qed.
  Lemma eqz (x y : Z) (X Y : K) : of_Z p x = X -> of_Z p y = Y -> ((p | x - y) <-> X = Y).
  Proof. intros <- <-. rewrite <- of_Z_div by lia. reflexivity. Qed.
  Lemma scal (l : Z) : ~ (p | l) <-> (of_Z p l : K) <> F0.
  Proof. rewrite <- (of_Z_zero p) by lia. reflexivity. Qed.
  Lemma comp_ap (X Y T Z : K) M : comp_of p (zv a - zv d) (zv X) (zv Y) (zv T) (zv Z) (ap M) <->
    exists l, l <> F0 /\ (X, Y, T, Z) = scale K l (tau M).
  Proof.
    assert (Q : forall x y t z x' y' t' z' : K, (x, y, t, z) = (x', y', t', z') <-> x = x' /\ y = y' /\ t = t' /\ z = z').
    { intros. split; [intro E; injection E as -> -> -> ->; auto|intros (-> & -> & -> & ->); reflexivity]. }
    assert (S : forall l, match M with
      | Inf _ => zv X = 0 /\ (p | zv Y - l) /\ zv T = 0 /\ (p | zv Z - l)
      | Aff _ u v => (zv u = 0 /\ zv X = 0 /\ (p | zv Y + l) /\ zv T = 0 /\ (p | zv Z - l))
        \/ (zv u <> 0 /\ (p | zv X - l * (2 * zv u * (zv u + (zv a - zv d)))) /\ (p | zv Y - l * (zv v * (zv u - (zv a - zv d))))
            /\ (p | zv T - l * (2 * zv u * (zv u - (zv a - zv d)))) /\ (p | zv Z - l * (zv v * (zv u + (zv a - zv d)))))
      end <-> (X, Y, T, Z) = scale K (of_Z p l) (tau M)).
    { intro l. destruct M as [|u v].
      - cbn [EdComp.tau scale]. rewrite Q, !zv0.
        rewrite !(eqz _ l _ (of_Z p l) (of_Z_zv p _) eq_refl).
        rewrite (mul_0_r K), (FmulR1 K). tauto.
      - unfold EdComp.tau. destruct (Feqd u (F0 : K)) as [U|U].
        + cbn [scale]. rewrite Q, !zv0.
          replace (zv Y + l) with (zv Y - (- l)) by ring.
          rewrite (eqz _ (- l) _ (Fopp (of_Z p l : K)) (of_Z_zv p _) (of_Z_opp p l)), (eqz _ l _ (of_Z p l) (of_Z_zv p _) eq_refl).
          rewrite !(mul_0_r K), (FmulR1 K), (FmulRm1 K). tauto.
        + cbn [scale]. rewrite Q, !zv0. change 2 with (1 + 1).
          rewrite <- !of_Z_div by lia. pushZ. tauto. }
    unfold comp_of. split.
    - intros (l & Nl & H). exists (of_Z p l). split; [apply scal, Nl|]. apply S. destruct M; exact H.
    - intros (l & Nl & H). exists (zv l). rewrite <- (of_Z_zv p l) in Nl, H. split; [apply scal, Nl|]. apply S in H. destruct M; exact H.
  Qed.
  Lemma stands_ap P M : e_stands e P M <-> exists M', M = ap M' /\ crep P M'.
  Proof.
    unfold e_stands. rewrite comp_on, ef, ea, ed. cbn [modulus val fe]. split.
    - intros (EP & VX & VY & VT & VZ & E & H). apply (on_cubic_unap p Hp Hp2) in H as (M' & -> & HM). exists M'. split; [reflexivity|].
      split; [exact HM|].
      destruct P as [e' [x y t z]]. cbn [pe pc px py ptt pz] in *. subst e'.
      destruct (valid_ex _ _ VX) as [X ->], (valid_ex _ _ VY) as [Y ->], (valid_ex _ _ VT) as [T ->], (valid_ex _ _ VZ) as [Z ->].
      apply comp_ap in E. destruct E as (l & Nl & E). exists l. split; [exact Nl|]. rewrite <- E. reflexivity.
    - intros (M' & -> & HM & l & Nl & ->). destruct (scale K l (tau M')) as [[[X Y] T] Z] eqn:E. cbn [pe pc px py ptt pz EdwP.mk val fe qpt mkq].
      split; [reflexivity|]. repeat (split; [apply valid_fe; lia|]). split; [|apply (on_ap p Hp Hp2), HM].
      apply comp_ap. exists l. split; [exact Nl|symmetry; exact E].
  Qed.
  Lemma null_ap P : e_null e P <-> cnull P.
  Proof. unfold e_null. rewrite ef. reflexivity. Qed.
  Lemma spoiled_ap A k : on A -> (e_spoiled e (ap A) k <-> spoils (cbad p Hp a d A) k).
  Proof.
    intro O. unfold e_spoiled. apply spoils_ext. intros m Hm. unfold cbad.
    rewrite <- finite_ap. rewrite ef. cbn [modulus]. rewrite <- (neg_ap p Hp). split.
    - intros (M & D & HM & HD & HO). apply cmul_ap in HM; [|exact O]. subst M.
      apply csum_ap in HD; [|apply (on_nmul p Hp Hp2), O|apply on_popp, O]. subst D. exact HO.
    - intro HO. eexists _, _. split; [apply cmul_ap; [exact O|reflexivity]|].
      split; [apply csum_ap; [apply (on_nmul p Hp Hp2), O|apply on_popp, O|reflexivity]|exact HO].
  Qed.
  (** the points of the Edwards curve are the finite ones *)
  Lemma crep_wrep P M : crep P M -> ((exists A, wrep p Hp a d e P A) <-> fin M).
  Proof.
    intros HP. pose proof HP as (HM & l & Nl & EP).
    assert (TU : tup p Hp a d e P) by (apply (tup_crep p Hp Hp2 a d ad e); right; eauto).
    rewrite (fin_q4 K mA mC mE M HM).
    destruct (tau M) as [[[x y] t] z] eqn:ET. cbn [q4]. rewrite EP. split.
    - intros (A & _ & (X & Y & T & Z & EC & R) & _) Z0. cbn [pc qpt mkq scale] in EC.
      assert (EZ : (Fmul l z : K) = Z) by (apply (fe_inj p); exact (f_equal pz EC)). apply (proj1 R). rewrite <- EZ, Z0. apply (mul_0_r K).
    - intro Nz. rewrite EP in TU. destruct TU as (X & Y & T & Z & E & H).
      change (mkPoint e (mk p Hp X Y T Z)) with (qpt p Hp e (X, Y, T, Z)) in E. pose proof (qpt_inj p Hp e _ _ E) as E2.
      cbn [scale] in E2. assert (EZ : (Fmul l z : K) = Z) by (pose proof (f_equal (q4 K) E2) as G; exact G).
      assert (NZ : Z <> F0) by (rewrite <- EZ; apply Fmul_nonzero; assumption).
      destruct (etest_rep K a d X Y T Z NZ H) as (A & RA & OA).
      exists A. rewrite E. apply wrep_mk; assumption.
  Qed.
End B.
