(** The maps of the model computed over Z/p, and the specification of the maps over Z/p. *)
From Coq Require Import ZArith Znumtheory Lia String Bool List Ring Field.
From Verif.Math Require Import Fld Zp Residue MapAlg.
From Verif.Math Require ECGroup.
From Verif.Spec Require Import Arith Curve Maps.
From Verif.Model Require Import Out BigInt PrimeField Maps.
From Verif.Model Require WCurve MCurve.
From Verif.Proofs Require Import FieldP FieldProps CurveP.
From Verif.Proofs Require WeierP WeierProps MontProps.
Import WeierProps(coord_K).
Import ListNotations.
Open Scope Z_scope.

Lemma cmov_fe p (x y : Zp p) t : cmov (fe x) (fe y) t = fe (if t then y else x).
Proof. destruct t; reflexivity. Qed.
Lemma sgn_eq p (u y : Zp p) : 0 < p -> (sgn0 (fe u) =? sgn0 (fe y)) = Bool.eqb (Z.even (zv u)) (Z.even (zv y)).
Proof.
  intro H. rewrite !(sgn0_val p) by (apply valid_fe; exact H). cbn [val fe].
  destruct (Z.even (zv u)), (Z.even (zv y)); reflexivity.
Qed.

Section Forms.
  Variable K : Fld.
  Add Field KFf : (Fth K).
  Open Scope fld_scope.
  Lemma g_form (A B x : K) : x * x * x + A * x + B = g K A B x. Proof. unfold g. ring. Qed.
  Lemma g_form2 (A B x : K) : x * (x * x + A) + B = g K A B x. Proof. unfold g. ring. Qed.
  Lemma curve_form (A B x y : K) : y * y = g K A B x -> ECGroup.on K 0 A B (ECGroup.Aff K x y).
  Proof. unfold g. cbn. unfold ECGroup.cubic. intros ->. ring. Qed.
  Lemma opp_sq (y : K) : (- y) * (- y) = y * y. Proof. ring. Qed.
  Lemma opp_zero : - (0 : K) = 0. Proof. ring. Qed.
  Lemma sub_zero_r (x : K) : x - 0 = x. Proof. ring. Qed.
  Lemma add_opp1_zero (x : K) : x + 1 = 0 <-> x = - (1).
  Proof. split; intro H; [transitivity (x + 1 - 1); [ring|]; rewrite H; ring|rewrite H; ring]. Qed.
  Lemma times_nz (z a x b : K) : z <> 0 -> a <> 0 -> (x * (z * a) = b <-> x = b * Finv (z * a)).
  Proof.
    intros Hz Ha. assert (N : z * a <> 0) by (apply Fmul_nonzero; assumption). split; [intros <-|intros ->]; field; split; assumption.
  Qed.
  Lemma Finv_zero_iff (x : K) : Finv (0 : K) = 0 -> (Finv x = 0 <-> x = 0).
  Proof.
    intro I0. split; [|intros ->; exact I0]. intro E. destruct (Feqd x 0) as [?|N]; [assumption|]. exfalso.
    exact (Finv_zero K x N E).
  Qed.
  Lemma solve_lin (m h v : K) : m <> 0 -> (v * m + h = 0 <-> v = - h * Finv m).
  Proof.
    intro N. split; intro H.
    - apply (Fcancel_l K m _ _ N). transitivity ((v * m + h) - h); [ring|]. rewrite H. field. exact N.
    - rewrite H. field. exact N.
  Qed.
  Lemma solve_lin2 (m h v : K) : m <> 0 -> (m * v + h = 0 <-> v = - h * Finv m).
  Proof. intro N. rewrite <- (solve_lin m h v N). replace (m * v) with (v * m) by ring. reflexivity. Qed.
  Lemma frac_nz (m h : K) : m <> 0 -> (- h * Finv m <> 0 <-> h <> 0).
  Proof.
    intro N. split; intros H E; apply H.
    - rewrite E. field. exact N.
    - transitivity (- (- h * Finv m) * m); [field; exact N|]. rewrite E. ring.
  Qed.
  Lemma sum_zero (c m h : K) : c * c + m * h = 0 <-> c * c = - m * h.
  Proof. split; intro H; [transitivity (c * c + m * h - m * h); [ring|]; rewrite H; ring|rewrite H; ring]. Qed.
  (** Elligator 2: from y^2 = x^3 + ab x^2 + x/b^2 to b y^2 = x^3 + a x^2 + x *)
  Definition mc (a x : K) : K := x * x * x + a * (x * x) + x.
  Lemma el_curve (a b x y : K) : b * b = 1 -> (b * (b * y * (b * y)) = mc a (b * x) <-> y * y = el_g K (a * b) (Finv b * Finv b) x).
  Proof.
    intro B. assert (Nb : b <> 0). { intro E. apply (F_1_neq_0 K). rewrite <- B, E. ring. }
    assert (Ei : Finv b = b). { apply (Fcancel_l K b _ _ Nb). rewrite B. field. exact Nb. }
    rewrite Ei, B. unfold mc, el_g. split; intro H.
    - apply (Fcancel_l K b _ _ Nb). transitivity (b * (b * y * (b * y))); [ring [B]|]. rewrite H. ring [B].
    - transitivity (b * (y * y)); [ring [B]|]. rewrite H. ring [B].
  Qed.
  Lemma el_curve_wrong (a b x y : K) : b <> 0 -> b * (b * y * (b * y)) = mc a (b * x) ->
    y * y = el_g K (a * b) (Finv b * Finv b) x -> a <> 0 -> b * b <> 1 -> x = 0 /\ y = 0.
  Proof.
    intros Nb C E Na Nb1. unfold mc, el_g in *.
    assert (X : x * x = 0).
    { assert (W : a * (b * b) * (x * x) * (b * b - 1) = 0).
      { transitivity (b * b * b * (((x + a * b) * x + Finv b * Finv b) * x) - (b * x * (b * x) * (b * x) + a * (b * x * (b * x)) + b * x)); [field; exact Nb|].
        rewrite <- E, <- C. ring. }
      destruct (Feqd (x * x) 0) as [|N]; [assumption|exfalso]. revert W. apply Fmul_nonzero; [|apply Fsub_nonzero; exact Nb1].
      repeat apply Fmul_nonzero; try assumption; intro O; apply N; rewrite O; ring. }
    assert (X0 : x = 0) by (apply (Fsqr_zero K); exact X). split; [exact X0|]. apply (Fsqr_zero K). rewrite E, X0. ring.
  Qed.
  Lemma el_x1_spec (a b z u x1 : K) : b * b = 1 -> (x1 = b * el_x1 K (a * b) z u <-> b * x1 = el_x1 K (a * b) z u).
  Proof.
    intro B. split; [intros ->|intros <-].
    - transitivity (b * b * el_x1 K (a * b) z u); [ring|]. rewrite B. ring.
    - transitivity (b * b * x1); [rewrite B|]; ring.
  Qed.
  Lemma el_scale_0 (a b c x1 : K) : b * b = 1 -> (b * x1 * c + a * b = 0 <-> x1 * c + a = 0).
  Proof.
    intro B. split; intro H.
    - transitivity (b * (b * x1 * c + a * b)); [transitivity (b * b * (x1 * c + a)); [rewrite B|]; ring|]. rewrite H. ring.
    - transitivity (b * (x1 * c + a)); [ring|]. rewrite H. ring.
  Qed.
  Lemma el_scale_1 (a b x1 : K) : b * b = 1 -> (b * x1 + a * b = 0 <-> x1 + a = 0).
  Proof.
    intro B. pose proof (el_scale_0 a b 1 x1 B) as E. replace (b * x1 * 1) with (b * x1) in E by ring.
    replace (x1 * 1) with x1 in E by ring. exact E.
  Qed.
  Lemma mul_zero (b : K) : b * 0 = 0. Proof. ring. Qed.
  Lemma mont_affine (a b x y : K) : b * (y * y) * 1 - x * (x * x + a * x * 1 + 1 * 1) = 0 <-> b * (y * y) = mc a x.
  Proof. unfold mc. rewrite <- (Fsub_zero K (b * (y * y))). split; intro H; rewrite <- H; ring. Qed.
  Lemma el_x2 (a b k X : K) : b * b = 1 -> (X + b * k + a = 0 <-> X = b * (- k - a * b)).
  Proof.
    intro B. assert (E : b * (- k - a * b) = - (b * k) - a * (b * b)) by ring. rewrite E, B. split; [intro H|intros ->; ring].
    transitivity ((X + b * k + a) - b * k - a); [ring|]. rewrite H. ring.
  Qed.
  Lemma bb_inv (b : K) : b * b = 1 -> Finv b * Finv b = 1.
  Proof.
    intro B. assert (Nb : b <> 0). { intro E. apply (F_1_neq_0 K). rewrite <- B, E. ring. }
    transitivity (b * b * (Finv b * Finv b)); [rewrite B; ring|]. field. exact Nb.
  Qed.
  Lemma div_inv (a b : K) : b <> 0 -> Fdiv a (Finv b) = a * b.
  Proof. intro N. field. repeat split; first [exact N|apply F_1_neq_0]. Qed.
  Lemma bmul_swap (b x y : K) : b * b = 1 -> (y = b * x <-> b * y = x).
  Proof. intro B. split; [intros ->|intros <-]; [transitivity (b * b * x)|transitivity (b * b * y)]; try ring; rewrite B; ring. Qed.
  Lemma bmc (a b x : K) : b * b = 1 -> b * mc a (b * x) = el_g K (a * b) (Finv b * Finv b) x.
  Proof.
    intro B. rewrite (bb_inv b B). unfold mc, el_g.
    transitivity (b * b * (b * b) * (x * x * x) + b * b * (a * b) * (x * x) + b * b * x); [ring|]. rewrite B. ring.
  Qed.
End Forms.

Section W.
  Variables (p : Z) (Hp : prime p) (Hp2 : 2 < p) (Hm : sqrt_modulus p).
  Local Notation K := (ZpF p Hp).

  Lemma NN : forall x y : K, ~ sq K x -> ~ sq K y -> sq K (Fmul x y).
  Proof. intros x y. apply (nonsq_mul_nonsq p Hp ltac:(lia)). Qed.
  Lemma sqd : forall x : K, {sq K x} + {~ sq K x}.
  Proof. intro x. apply (is_sq_dec p Hp ltac:(lia)). Qed.
  Lemma sq_Z z : square_mod p z <-> sq K (of_Z p z).
  Proof. apply square_mod_is_sq. Qed.
  Lemma dvd0 z : (p | z) <-> of_Z p z = (F0 : K).
  Proof.
    change (F0 : K) with (of_Z p 0). rewrite of_Z_div by lia. rewrite Z.sub_0_r. reflexivity.
  Qed.
  Lemma ndvd0 z : ~ (p | z) <-> of_Z p z <> (F0 : K).
  Proof. rewrite dvd0. reflexivity. Qed.
  Lemma of_Z_2 : of_Z p 2 = zadd (of_Z p 1) (of_Z p 1). Proof. apply (of_Z_add p 1 1). Qed.
  Lemma of_Z_3 : of_Z p 3 = zadd (zadd (of_Z p 1) (of_Z p 1)) (of_Z p 1).
  Proof. rewrite <- of_Z_2. apply (of_Z_add p 2 1). Qed.
  Lemma of_Z_4 : of_Z p 4 = zmul (zadd (of_Z p 1) (of_Z p 1)) (zadd (of_Z p 1) (of_Z p 1)).
  Proof. rewrite <- of_Z_2. apply (of_Z_mul p 2 2). Qed.
  Lemma inv_0 : Finv (F0 : K) = F0. Proof. exact (zinv_0 p Hp2). Qed.

  (** the sign step *)
  Definition follow (u y : K) : K := if Bool.eqb (Z.even (zv u)) (Z.even (zv y)) then y else Fopp y.
  Lemma follow_sq u y : Fmul (follow u y) (follow u y) = Fmul y y.
  Proof. unfold follow. destruct (Bool.eqb _ _); [reflexivity|apply opp_sq]. Qed.
  Lemma follow_sign u y : sign_follows (zv u) (zv (follow u y)).
  Proof.
    unfold follow, sign_follows. destruct (Feqd y F0) as [->|N].
    - left. destruct (Bool.eqb _ _); [reflexivity|]. rewrite (opp_zero K). reflexivity.
    - right. destruct (Bool.eqb _ _) eqn:E; [apply eqb_prop in E; auto|].
      rewrite (WeierP.parity_opp p Hp Hp2 y N). apply eqb_false_iff in E. destruct (Z.even (zv u)), (Z.even (zv y)); try reflexivity; destruct E; reflexivity.
  Qed.
  (** a root is determined by its sign *)
  Lemma root_unique (u y y' : K) : Fmul y y = Fmul y' y' -> sign_follows (zv u) (zv y) -> sign_follows (zv u) (zv y') -> y = y'.
  Proof.
    intros E S S'. destruct (Fsqr_eq _ _ _ E) as [?|E']; [assumption|].
    destruct (Feqd y' F0) as [->|N]; [rewrite E'; apply opp_zero|]. exfalso. subst y.
    assert (N0 : zv y' <> 0). { intro H. apply N, Zp_eq. rewrite H. reflexivity. }
    pose proof (WeierP.parity_opp p Hp Hp2 y' N) as P.
    destruct S' as [S'|S']; [contradiction|]. destruct S as [S|S].
    - apply N0. assert (Z0 : (Fopp y' : K) = F0) by (apply Zp_eq; exact S).
      assert (Y0 : y' = F0) by (rewrite <- (Fopp_opp K y'), Z0; apply opp_zero). rewrite Y0. reflexivity.
    - rewrite P, <- S' in S. destruct (Z.even (zv y')); discriminate S.
  Qed.

  Section Weier.
    Variables (a b : K) (e : WCurve.Curve).
    Hypotheses (ef : WCurve.c_f e = mkFp p) (ea : WCurve.c_a e = fe a) (eb : WCurve.c_b e = fe b).
    Local Notation gg := (g K a b).

    Lemma cubic_K (x : K) : of_Z p (Maps.cubic (zv a) (zv b) (zv x)) = gg x.
    Proof. unfold Maps.cubic. pushZ. apply (g_form K). Qed.
    Lemma cubic_of x : of_Z p (Maps.cubic (zv a) (zv b) x) = gg (of_Z p x).
    Proof. unfold Maps.cubic. pushZ. apply (g_form K). Qed.
    Lemma new_ok (x y : K) : Fmul y y = gg x ->
      exists P, WCurve.new_point e (fe x) (fe y) = Ret P /\ forall C, WPoints.wpoint e P C <-> C = Affine (zv x) (zv y).
    Proof.
      intro H. destruct (WeierP.new_point_mk p Hp Hp2 a b e ef ea eb x y) as (t & Ht & ->).
      pose proof (curve_form K a b x y H) as O. rewrite (proj2 Ht O). eexists. split; [reflexivity|].
      assert (WP : forall P A, WPoints.wpoint e P A <-> exists A', A = ap p Hp A' /\ WeierP.wrep p Hp a b e P A').
      { intros P A. unfold WPoints.wpoint, WeierP.wrep. rewrite ef, ea, eb. cbn [val fe modulus]. split.
        - intros (EP & Vx & Vy & Vz & R & O').
          destruct (on_cubic_unap p Hp Hp2 F0 a b A O') as (A' & -> & O'').
          exists A'. split; [reflexivity|]. split; [exact EP|]. split; [|exact O''].
          destruct (valid_ex _ _ Vx) as [X EX], (valid_ex _ _ Vy) as [Y EY], (valid_ex _ _ Vz) as [Z EZ].
          exists X, Y, Z. split; [unfold WeierP.mk; rewrite <- EX, <- EY, <- EZ; destruct (WCurve.pc P); reflexivity|].
          apply (rep_ap p Hp Hp2). rewrite EX, EY, EZ in R. exact R.
        - intros (A' & -> & EP & (X & Y & Z & EC & R) & O'). rewrite EC. cbn [WeierP.mk WCurve.px WCurve.py WCurve.pz val fe].
          split; [exact EP|]. repeat (split; [apply valid_fe; lia|]). split; [apply (rep_ap p Hp Hp2), R|].
          apply (on_ap p Hp Hp2 F0 a b). exact O'. }
      intro C. rewrite (WeierProps.wrep_iff p Hp a b e _ (ECGroup.Aff K x y) WP).
      - reflexivity.
      - apply WeierP.wrep_mk; [apply WeierP.rep_one|exact O].
    Qed.

    (** *** simplified SWU *)
    Variable z : K.
    Definition sw_ok : Prop := a <> F0 /\ b <> F0 /\ ~ sq K z /\ z <> Fopp F1 /\ sq K (gg (Fmul b (Finv (Fmul z a)))).
    Lemma sswu_params_K : sswu_params p (zv a) (zv b) (zv z) <-> sw_ok.
    Proof.
      unfold sswu_params, sw_ok. rewrite !ndvd0, sq_Z. rewrite of_Z_add, !of_Z_zv.
      assert (E1 : zadd z (of_Z p 1) <> (F0 : K) <-> z <> Fopp F1) by (rewrite <- (add_opp1_zero K z); reflexivity).
      rewrite E1. 
      assert (E2 : z <> F0 -> a <> F0 -> ((forall x, (p | x * (zv z * zv a) - zv b) -> square_mod p (Maps.cubic (zv a) (zv b) x))
         <-> sq K (gg (Fmul b (Finv (Fmul z a)))))).
      { intros Hz Ha. assert (X : forall x, (p | x * (zv z * zv a) - zv b) <-> of_Z p x = Fmul b (Finv (Fmul z a))).
        { intro x. rewrite <- of_Z_div by lia. pushZ. apply (times_nz K); assumption. }
        split.
        - intro H. specialize (H (zv (Fmul b (Finv (Fmul z a)) : K))).
          rewrite X, of_Z_zv, sq_Z, cubic_K in H. apply H. reflexivity.
        - intros H x Hx. apply X in Hx. rewrite sq_Z, cubic_of, Hx. exact H. }
      split; intros (H1 & H2 & H3 & H4 & H5); repeat (split; [assumption|]);
        apply E2; try assumption; intro Z0; apply H3; rewrite Z0; apply sq_0.
    Qed.
    Lemma sswu_verify_K : exists t, sswu_verify e (fe z) = Ret t /\ (t = true <-> sw_ok).
    Proof.
      unfold sswu_verify. rewrite ef, ea, eb. destruct (is_square_fe p Hp z ltac:(lia)) as (s1 & -> & H1). cbn [bind]. fes.
      match goal with |- context [is_square (fe ?v)] => destruct (is_square_fe p Hp v ltac:(lia)) as (s2 & -> & H2) end. cbn [bind].
      eexists. split; [reflexivity|]. rewrite !andb_true_iff, !negb_true_iff. rewrite H2. unfold sw_ok.
      assert (G : forall x : K, zadd (zmul x (zadd (zmul x x) a)) b = gg x) by (intro x; exact (g_form2 K a b x)). rewrite G.
      assert (B0 : forall x : K, is_zero (fe x) = false <-> x <> F0).
      { intro x. destruct (is_zero (fe x)) eqn:E.
        - apply is_zero_fe in E. split; [discriminate|]. intro N. destruct (N E).
        - split; [|reflexivity]. intros _ N. rewrite (proj2 (is_zero_fe p x)) in E by (lia || exact N). discriminate. }
      rewrite !B0.
      assert (M1 : fpelt_eqb (fe z) (fe (of_Z p (-1))) = false <-> z <> Fopp F1).
      { assert (EM : of_Z p (-1) = (Fopp F1 : K)) by exact (of_Z_opp p 1). rewrite EM.
        destruct (fpelt_eqb (fe z) (fe (Fopp F1 : K))) eqn:E.
        - apply fpelt_eqb_fe in E. split; [discriminate|]. intro N. destruct (N E).
        - split; [|reflexivity]. intros _ N. rewrite (proj2 (fpelt_eqb_fe p z (Fopp F1 : K))) in E by exact N. discriminate. }
      rewrite M1. assert (N1 : s1 = false <-> ~ sq K z).
      { change (sq K z) with (is_sq p Hp z). rewrite <- H1. destruct s1; split; congruence. }
      rewrite N1. change (is_sq p Hp) with (sq K). tauto.
    Qed.
    Definition sw_K : SSWU := mkSSWU e (fe (Fmul (Fopp b) (Finv a) : K)) (fe (Fopp (Finv z) : K)) (fe z).
    Lemma sswu_new_K : (sw_ok -> sswu_new e (fe z) = Ret sw_K) /\ (~ sw_ok -> sswu_new e (fe z) = Panic ERR_PARAMS).
    Proof.
      unfold sswu_new. destruct sswu_verify_K as (t & -> & Ht). cbn [bind]. split; intro H.
      - apply Ht in H. subst t. cbn [negb]. rewrite ea, eb. fes. reflexivity.
      - destruct t; [destruct H; apply Ht; reflexivity|reflexivity].
    Qed.
    Definition sw_x (u : K) : K :=
      if sqd (gg (sw_x1 K a b z u)) then sw_x1 K a b z u else Fmul (sw_t K z u) (sw_x1 K a b z u).
    Lemma sswu_map_K u : sw_ok -> exists y : K, Fmul y y = gg (sw_x u) /\ sign_follows (zv u) (zv y)
      /\ sswu_map sw_K (fe u) = WCurve.new_point e (fe (sw_x u)) (fe y).
    Proof.
      intros (Ha & Hb & Hz & Hz1 & He). unfold sswu_map, sw_K. cbn [sw_e sw_c1 sw_c2 sw_z]. rewrite ef, ea, eb. fes.
      rewrite is_zero_fe_b by lia. rewrite cmov_fe. fes.
      set (x1 := zmul _ (Fmul (Fopp b) (Finv a))).
      assert (E1 : x1 = sw_x1 K a b z u).
      { unfold x1, sw_x1, sw_c1, sw_c2. f_equal. change (zadd (zmul z (zmul u u)) (zmul (zmul z (zmul u u)) (zmul z (zmul u u)))) with (sw_n K z u).
        pose proof (Finv_zero_iff K (sw_n K z u) inv_0) as FI. change (zinv (sw_n K z u)) with (Finv (sw_n K z u)). 
        destruct (zp_eqd p (Finv (sw_n K z u)) (of_Z p 0)) as [E|N], (Feqd (sw_n K z u) F0) as [E'|N']; try reflexivity; exfalso.
        - apply N', FI, E.
        - apply N, FI, E'. }
      rewrite E1. clear E1 x1. set (x1 := sw_x1 K a b z u).
      change (zadd (zmul (zadd (zmul x1 x1) a) x1) b) with (gg x1).
      destruct (is_square_fe p Hp (gg x1) ltac:(lia)) as (s1 & -> & H1). cbn [bind]. rewrite !cmov_fe.
      set (y2 := if s1 then _ else _).
      destruct (sqrt_fe p Hp y2 Hm) as (y & -> & Hy). cbn [bind]. fes. rewrite cmov_fe.
      set (x := if s1 then _ else _). rewrite sgn_eq by lia.
      assert (Ex : x = sw_x u /\ sq K (gg x) /\ y2 = gg x).
      { unfold x, y2, sw_x. fold x1. destruct (sqd (gg x1)) as [S|S]; [rewrite (proj2 H1 S); auto|].
        assert (s1 = false) as -> by (destruct s1; [destruct S; apply H1; reflexivity|reflexivity]).
        split; [reflexivity|].
        destruct (sw_other K NN sqd a b z Ha Hz u) as [O|[(_ & O & E)|O]].
        - destruct (S O).
        - split; [exact O|]. symmetry. exact E.
        - exfalso. apply S. pose proof (sw_x1_exc K a b z Ha Hz u O) as E. fold x1 in E.
          assert (X : x1 = Fmul b (Finv (Fmul z a))).
          { apply (proj1 (times_nz K z a x1 b (Z_nz K z Hz) Ha)). rewrite <- E. exact (Rmul_assoc (F_R (Fth K)) x1 z a). }
          rewrite X. exact He. }
      destruct Ex as (Ex & Sx & Ey). exists (follow u y). split; [|split; [apply follow_sign|]].
      - rewrite follow_sq, <- Ex, <- Ey. apply Hy. rewrite Ey. exact Sx.
      - rewrite <- Ex. reflexivity.
    Qed.
    Lemma sswu_point_K (u : K) x y : sw_ok -> sswu_point p (zv a) (zv b) (zv z) (zv u) x y <->
      exists Y : K, x = zv (sw_x u) /\ y = zv Y /\ Fmul Y Y = gg (sw_x u) /\ sign_follows (zv u) (zv Y).
    Proof.
      intros (Ha & Hb & Hz & Hz1 & He).
      assert (X1 : forall x1, sswu_x1 p (zv a) (zv b) (zv z) (zv u) x1 <-> x1 = zv (sw_x1 K a b z u)).
      { intro x1. unfold sswu_x1. split.
        - intros (C & H1 & H2). destruct (coord_K p Hp x1 C) as [k ->]. f_equal. apply (sw_x1_iff K a b z Ha Hz u k).
          split; intro N.
          + apply dvd0 in H1; [revert H1; pushZ; exact (fun h => h)|]. apply dvd0. revert N. pushZ. exact (fun h => h).
          + assert (ND : ~ (p | zv z * (zv u * zv u) * (zv z * (zv u * zv u)) + zv z * (zv u * zv u))).
            { apply ndvd0. revert N. pushZ. exact (fun h => h). }
            specialize (H2 ND). apply dvd0 in H2. revert H2. pushZ. exact (fun h => h).
        - intros ->. split; [apply zv_range; lia|].
          destruct (proj2 (sw_x1_iff K a b z Ha Hz u (sw_x1 K a b z u)) eq_refl) as [H1 H2]. split; intro D.
          + apply dvd0. apply dvd0 in D. revert D. pushZ. exact H1.
          + apply dvd0. apply ndvd0 in D. revert D. pushZ. exact H2. }
      assert (SX : forall x1, square_mod p (Maps.cubic (zv a) (zv b) (zv x1)) <-> sq K (gg x1)).
      { intro x1. rewrite sq_Z, cubic_K. reflexivity. }
      unfold sswu_point. split.
      - intros (x1 & H1 & Cx & Cy & E & S & Q & NQ). apply X1 in H1. subst x1.
        destruct (coord_K p Hp x Cx) as [X ->], (coord_K p Hp y Cy) as [Y ->]. rewrite SX in Q, NQ.
        assert (EX : X = sw_x u).
        { unfold sw_x. destruct (sqd (gg (sw_x1 K a b z u))) as [T|T].
          - apply Zp_eq. apply Q, T.
          - specialize (NQ T). apply of_Z_div in NQ; [|lia]. revert NQ. pushZ. exact (fun h => h). }
        exists Y. split; [f_equal; exact EX|]. split; [reflexivity|]. split; [|exact S].
        rewrite <- EX. apply of_Z_div in E; [|lia]. revert E. rewrite cubic_K. pushZ. exact (fun h => h).
      - intros (Y & -> & -> & E & S). exists (zv (sw_x1 K a b z u)). split; [apply X1; reflexivity|].
        split; [apply zv_range; lia|]. split; [apply zv_range; lia|]. split.
        { apply of_Z_div; [lia|]. rewrite cubic_K. pushZ. exact E. }
        split; [exact S|]. rewrite SX. unfold sw_x. destruct (sqd (gg (sw_x1 K a b z u))) as [T|T]; split; intro T'.
        + reflexivity.
        + destruct (T' T).
        + destruct (T T').
        + apply of_Z_div; [lia|]. pushZ. reflexivity.
    Qed.
    Lemma sswu_result (u : K) : sw_ok -> exists P, sswu_map sw_K (fe u) = Ret P
      /\ forall x y, WPoints.wpoint e P (Affine x y) <-> sswu_point p (zv a) (zv b) (zv z) (zv u) x y.
    Proof.
      intro H. destruct (sswu_map_K u H) as (y & E & S & ->). destruct (new_ok _ _ E) as (P & -> & HP). exists P. split; [reflexivity|].
      intros x' y'. rewrite HP, (sswu_point_K u x' y' H). split.
      - intro EA. exists y. pose proof (f_equal (fun A => match A with Affine x _ => x | _ => 0 end) EA).
        pose proof (f_equal (fun A => match A with Affine _ y => y | _ => 0 end) EA). cbv beta iota in *. auto.
      - intros (Y & -> & -> & EY & SY). f_equal. f_equal. apply (root_unique u); [congruence|exact SY|exact S].
    Qed.

    (** *** Shallue-van de Woestijne *)
    Local Notation hh := (sv_h K a z).
    Definition sv_ok : Prop := gg z <> F0 /\ hh <> F0
      /\ sq K (Fmul (Fopp hh) (Finv (Fmul (Fmul (Fadd F1 F1) (Fadd F1 F1)) (gg z)))) /\ (sq K (gg z) \/ sq K (gg (sk_c2 K z))).
    Lemma h_K : of_Z p (3 * (zv z * zv z) + 4 * zv a) = hh.
    Proof. pushZ. rewrite of_Z_3, of_Z_4. reflexivity. Qed.
    Lemma svdw_params_K : svdw_params p (zv a) (zv b) (zv z) <-> sv_ok.
    Proof.
      unfold svdw_params, sv_ok. rewrite !ndvd0, h_K, cubic_K.
      assert (A3 : gg z <> F0 -> ((forall v, (p | v * (4 * Maps.cubic (zv a) (zv b) (zv z)) + (3 * (zv z * zv z) + 4 * zv a)) -> square_mod p v)
        <-> sq K (Fmul (Fopp hh) (Finv (Fmul (Fmul (Fadd F1 F1) (Fadd F1 F1)) (gg z)))))).
      { intro Hg. pose proof (solve_lin K (Fmul (Fmul (Fadd F1 F1) (Fadd F1 F1)) (gg z)) hh) as SL.
        assert (X : forall v, (p | v * (4 * Maps.cubic (zv a) (zv b) (zv z)) + (3 * (zv z * zv z) + 4 * zv a)) <->
          of_Z p v = Fmul (Fopp hh) (Finv (Fmul (Fmul (Fadd F1 F1) (Fadd F1 F1)) (gg z)))).
        { intro v. rewrite dvd0, of_Z_add, h_K, !of_Z_mul, cubic_K, of_Z_4. apply SL.
          apply Fmul_nonzero; [|exact Hg]. apply Fmul_nonzero; apply (two_K p Hp Hp2). }
        split.
        - intro H. match goal with |- sq K ?v => specialize (H (zv v)) end. rewrite X, of_Z_zv, sq_Z, of_Z_zv in H. apply H. reflexivity.
        - intros H v Hv. apply X in Hv. rewrite sq_Z, Hv. exact H. }
      assert (A4 : (forall x, (p | 2 * x + zv z) -> square_mod p (Maps.cubic (zv a) (zv b) x)) <-> sq K (gg (sk_c2 K z))).
      { assert (X : forall x, (p | 2 * x + zv z) <-> of_Z p x = sk_c2 K z).
        { intro x. rewrite dvd0. pushZ. rewrite of_Z_2. unfold sv_c2. exact (solve_lin2 K (Fadd F1 F1) z (of_Z p x) (two_K p Hp Hp2)). }
        split.
        - intro H. specialize (H (zv (sk_c2 K z))). rewrite X, of_Z_zv, sq_Z, cubic_K in H. apply H. reflexivity.
        - intros H x Hx. apply X in Hx. rewrite sq_Z, cubic_of, Hx. exact H. }
      rewrite A4, (sq_Z (Maps.cubic _ _ _)), cubic_K.
      split; intros (H1 & H2 & H3 & H4); (split; [exact H1|]; split; [exact H2|]; split; [|exact H4]); apply A3; assumption.
    Qed.
    Lemma gx_fe (x : K) : svdw_gx e (fe x) = Ret (fe (gg x)).
    Proof. unfold svdw_gx. rewrite ea, eb. fes. rewrite <- (g_form2 K a b x). reflexivity. Qed.
    Lemma svdw_verify_K : exists t, svdw_verify e (fe z) = Ret t /\ (t = true <-> sv_ok).
    Proof.
      unfold svdw_verify. rewrite ef, ea. fes. rewrite gx_fe. fes. rewrite gx_fe. fes.
      match goal with |- context [is_square (fe ?v)] => destruct (is_square_fe p Hp v ltac:(lia)) as (s1 & -> & H1) end. cbn [bind].
      match goal with |- context [is_square (fe ?v)] => destruct (is_square_fe p Hp v ltac:(lia)) as (s2 & -> & H2) end. cbn [bind].
      match goal with |- context [is_square (fe ?v)] => destruct (is_square_fe p Hp v ltac:(lia)) as (s3 & -> & H3) end. cbn [bind].
      eexists. split; [reflexivity|]. rewrite !andb_true_iff, !negb_true_iff, orb_true_iff, H1, H2, H3. clear H1 H2 H3 s1 s2 s3.
      rewrite of_Z_2, of_Z_3, of_Z_4.
      assert (B0 : forall x : K, is_zero (fe x) = false <-> x <> F0).
      { intro x. destruct (is_zero (fe x)) eqn:E.
        - apply is_zero_fe in E. split; [discriminate|]. intro N. destruct (N E).
        - split; [|reflexivity]. intros _ N. rewrite (proj2 (is_zero_fe p x)) in E by (lia || exact N). discriminate. }
      rewrite !B0. unfold sv_ok. change (is_sq p Hp) with (sq K).
      assert (N2 : gg z <> F0 -> (Fmul (Fopp hh) (Finv (Fmul (Fmul (Fadd F1 F1) (Fadd F1 F1)) (gg z))) <> F0 <-> hh <> F0)).
      { intro Hg. apply (frac_nz K). apply Fmul_nonzero; [|exact Hg]. apply Fmul_nonzero; apply (two_K p Hp Hp2). }
      split.
      - intros (((H1 & H2) & H3) & H4). split; [exact H1|]. split; [apply (N2 H1), H2|]. split; [exact H3|exact H4].
      - intros (H1 & H2 & H3 & H4). split; [|exact H4]. split; [|exact H3]. split; [exact H1|apply (N2 H1), H2].
    Qed.
    Definition sv_K (c3 : K) : SVDW := mkSVDW e (fe (gg z)) (fe (sk_c2 K z)) (fe c3) (fe (sk_c4 K a b z)) (fe z).
    Lemma even_root (y : K) : Z.even (zv (if (sgn0 (fe y) =? -1) then Fopp y else y : K)) = true \/ y = F0.
    Proof.
      rewrite (sgn0_val p) by (apply valid_fe; lia). cbn [val fe]. destruct (Feqd y F0) as [?|N]; [right; assumption|left].
      destruct (Z.even (zv y)) eqn:E; [exact E|]. change (-1 =? -1) with true. cbv iota.
      rewrite (WeierP.parity_opp p Hp Hp2 y N), E. reflexivity.
    Qed.
    Lemma svdw_new_K : (sv_ok -> exists c3 : K, svdw_new e (fe z) = Ret (sv_K c3) /\ Fmul c3 c3 = Fmul (Fopp (gg z)) hh /\ Z.even (zv c3) = true)
      /\ (~ sv_ok -> svdw_new e (fe z) = Panic ERR_PARAMS).
    Proof.
      unfold svdw_new. destruct svdw_verify_K as (t & -> & Ht). cbn [bind]. split; intro H.
      - rewrite (proj2 Ht H). cbn [negb]. rewrite ef, ea. fes. rewrite gx_fe. fes. rewrite of_Z_2, of_Z_3, of_Z_4.
        match goal with |- context [sqrt (fe ?v)] => destruct (sqrt_fe p Hp v Hm) as (c & -> & Hc) end. cbn [bind].
        destruct H as (H1 & H2 & H3 & H4).
        assert (Sc : Fmul c c = Fmul (Fopp (gg z)) hh) by (apply Hc, (sv_c3_exists K a b z (two_K p Hp Hp2) H1 H3)).
        assert (Nc : c <> F0).
        { intro C0. rewrite C0 in Sc. apply (Fmul_nonzero K (Fopp (gg z)) hh); [|exact H2|].
          - intro O. apply H1. rewrite <- (Fopp_opp K (gg z)), O. apply opp_zero.
          - rewrite <- Sc. apply Zp_eq. reflexivity. }
        exists (if sgn0 (fe c) =? -1 then Fopp c else c). split; [|split].
        + assert (EO : zopp (zopp (gg z)) = gg z) by exact (Fopp_opp K (gg z)). rewrite EO.
          destruct (sgn0 (fe c) =? -1); fes; reflexivity.
        + destruct (sgn0 (fe c) =? -1); [rewrite (opp_sq K)|]; exact Sc.
        + destruct (even_root c) as [E|E]; [exact E|contradiction].
      - destruct t; [destruct H; apply Ht; reflexivity|reflexivity].
    Qed.
    Variable c3 : K.
    Hypotheses (c3_sq : Fmul c3 c3 = Fmul (Fopp (gg z)) hh) (c3_even : Z.even (zv c3) = true).
    Local Notation y1 u := (sv_x1 K a b z c3 u).
    Local Notation y2 u := (sv_x2 K a b z c3 u).
    Local Notation y3 u := (sv_x3 K a b z u).
    Definition sv_x (u : K) : K := if sqd (gg (y1 u)) then y1 u else if sqd (gg (y2 u)) then y2 u else y3 u.
    Lemma svdw_map_K u : sv_ok -> exists y : K, Fmul y y = gg (sv_x u) /\ sign_follows (zv u) (zv y)
      /\ svdw_map (sv_K c3) (fe u) = WCurve.new_point e (fe (sv_x u)) (fe y).
    Proof.
      intros (Hg & Hh & Hc & Hz). unfold svdw_map, sv_K. cbn [sv_e sv_c1 sv_c2 sv_c3 sv_c4 sv_z]. rewrite ef, ea, eb. fes.
      assert (EI : zinv (zmul (zsub (of_Z p 1) (zmul (zmul u u) (gg z))) (zadd (of_Z p 1) (zmul (zmul u u) (gg z)))) = sv_i K a b z u).
      { unfold sv_i. destruct (Feqd (sv_d K a b z u) F0) as [E|N]; [|reflexivity].
        change (zmul (zsub (of_Z p 1) (zmul (zmul u u) (gg z))) (zadd (of_Z p 1) (zmul (zmul u u) (gg z)))) with (sv_d K a b z u).
        rewrite E. apply inv_0. }
      rewrite !EI. clear EI.
      match goal with |- context [is_square (fe ?v)] => change v with (gg (y1 u)) end.
      destruct (is_square_fe p Hp (gg (y1 u)) ltac:(lia)) as (s1 & -> & H1). fes.
      match goal with |- context [is_square (fe ?v)] => change v with (gg (y2 u)) end.
      destruct (is_square_fe p Hp (gg (y2 u)) ltac:(lia)) as (s2 & -> & H2). fes.
      rewrite !cmov_fe. set (x := if s2 && negb s1 then _ else _). fes.
      match goal with |- context [sqrt (fe ?v)] => change v with (gg x) end.
      assert (Ex : x = sv_x u).
      { unfold x, sv_x. destruct (sqd (gg (y1 u))) as [S1|S1].
        - rewrite (proj2 H1 S1). rewrite andb_false_r. reflexivity.
        - assert (s1 = false) as -> by (destruct s1; [destruct S1; apply H1; reflexivity|reflexivity]).
          destruct (sqd (gg (y2 u))) as [S2|S2]; [rewrite (proj2 H2 S2); reflexivity|].
          assert (s2 = false) as -> by (destruct s2; [destruct S2; apply H2; reflexivity|reflexivity]). reflexivity. }
      rewrite Ex. clear Ex x.
      assert (Sx : sq K (gg (sv_x u))).
      { unfold sv_x. destruct (sqd (gg (y1 u))) as [S1|S1]; [exact S1|]. destruct (sqd (gg (y2 u))) as [S2|S2]; [exact S2|].
        destruct (sv_one K NN sqd a b z c3 (two_K p Hp Hp2) Hg Hh c3_sq Hc u Hz) as [O|[O|O]]; [destruct (S1 O)|destruct (S2 O)|exact O]. }
      destruct (sqrt_fe p Hp (gg (sv_x u)) Hm) as (y & -> & Hy). fes. rewrite cmov_fe, sgn_eq by lia.
      exists (follow u y). split; [|split; [apply follow_sign|reflexivity]]. rewrite follow_sq. apply Hy, Sx.
    Qed.
    Lemma svdw_point_K (u : K) x y : sv_ok -> svdw_point p (zv a) (zv b) (zv z) (zv u) x y <->
      exists Y : K, x = zv (sv_x u) /\ y = zv Y /\ Fmul Y Y = gg (sv_x u) /\ sign_follows (zv u) (zv Y).
    Proof.
      intros (Hg & Hh & Hc & Hz).
      assert (IT : (Fopp (gg z) : K) <> F0).
      { intro O. apply Hg. rewrite <- (Fopp_opp K (gg z)), O. apply opp_zero. }
      assert (CC : forall c, coord p c /\ Z.even c = true /\ (p | c * c + Maps.cubic (zv a) (zv b) (zv z) * (3 * (zv z * zv z) + 4 * zv a)) <-> c = zv c3).
      { intro c. split.
        - intros (C & Ev & D). destruct (coord_K p Hp c C) as [k ->]. f_equal.
          apply dvd0 in D. rewrite of_Z_add, !of_Z_mul, cubic_K, h_K, of_Z_zv in D. apply (sum_zero K) in D.
          apply (root_unique F0).
          + rewrite c3_sq. exact D.
          + right. rewrite Ev. reflexivity.
          + right. rewrite c3_even. reflexivity.
        - intros ->. split; [apply zv_range; lia|]. split; [exact c3_even|]. apply dvd0.
          rewrite of_Z_add, !of_Z_mul, cubic_K, h_K, of_Z_zv. apply (sum_zero K). exact c3_sq. }
      assert (C3 : forall (x1 x2 x3 : K),
        ((p | zv x2 + zv x1 + zv z)
        /\ (~ (p | 1 - zv u * zv u * Maps.cubic (zv a) (zv b) (zv z) * (zv u * zv u * Maps.cubic (zv a) (zv b) (zv z))) ->
              (p | 2 * zv x1 * (1 + zv u * zv u * Maps.cubic (zv a) (zv b) (zv z))
                   + (zv z * (1 + zv u * zv u * Maps.cubic (zv a) (zv b) (zv z)) + 2 * zv u * zv c3))
              /\ (p | (zv x3 - zv z) * (3 * (zv z * zv z) + 4 * zv a) * ((1 - zv u * zv u * Maps.cubic (zv a) (zv b) (zv z)) * (1 - zv u * zv u * Maps.cubic (zv a) (zv b) (zv z)))
                   + 4 * Maps.cubic (zv a) (zv b) (zv z) * ((1 + zv u * zv u * Maps.cubic (zv a) (zv b) (zv z)) * (1 + zv u * zv u * Maps.cubic (zv a) (zv b) (zv z)))))
        /\ ((p | 1 - zv u * zv u * Maps.cubic (zv a) (zv b) (zv z) * (zv u * zv u * Maps.cubic (zv a) (zv b) (zv z))) ->
              (p | 2 * zv x1 + zv z) /\ (p | zv x3 - zv z)))
        <-> x1 = y1 u /\ x2 = y2 u /\ x3 = y3 u).
      { intros x1 x2 x3. rewrite <- (sv_candidates_iff K a b z c3 (two_K p Hp Hp2) Hh u x1 x2 x3). rewrite !dvd0. cbv zeta.
        set (G := Maps.cubic (zv a) (zv b) (zv z)). assert (EG : of_Z p G = gg z) by apply cubic_K.
        set (H := 3 * (zv z * zv z) + 4 * zv a). assert (EH : of_Z p H = hh) by apply h_K. clearbody G H.
        pushZ. rewrite EG, EH, of_Z_2, of_Z_4. reflexivity. }
      assert (SX : forall x1, square_mod p (Maps.cubic (zv a) (zv b) (zv x1)) <-> sq K (gg x1)).
      { intro x1. rewrite sq_Z, cubic_K. reflexivity. }
      unfold svdw_point, svdw_candidates. cbv zeta. split.
      - intros (c & x1 & x2 & x3 & (A1 & A2 & A3 & B1 & B2 & B3 & CN) & Cx & Cy & E & S & Q1 & Q2 & Q3).
        pose proof (proj1 (CC c) (conj A1 (conj A2 A3))) as ->.
        destruct (coord_K p Hp x1 B1) as [k1 ->], (coord_K p Hp x2 B2) as [k2 ->], (coord_K p Hp x3 B3) as [k3 ->].
        apply C3 in CN. destruct CN as (-> & -> & ->). rewrite !SX in *.
        destruct (coord_K p Hp x Cx) as [X ->], (coord_K p Hp y Cy) as [Y ->].
        assert (EX : X = sv_x u).
        { apply Zp_eq. unfold sv_x. destruct (sqd (gg (y1 u))) as [S1|S1]; [apply Q1, S1|].
          destruct (sqd (gg (y2 u))) as [S2|S2]; [apply Q2; assumption|apply Q3; assumption]. }
        exists Y. split; [f_equal; exact EX|]. split; [reflexivity|]. split; [|exact S].
        rewrite <- EX. apply of_Z_div in E; [|lia]. revert E. rewrite cubic_K. pushZ. exact (fun h => h).
      - intros (Y & -> & -> & E & S). exists (zv c3), (zv (y1 u)), (zv (y2 u)), (zv (y3 u)).
        destruct (proj2 (CC (zv c3)) eq_refl) as (A1 & A2 & A3). split.
        { split; [exact A1|]. split; [exact A2|]. split; [exact A3|]. do 3 (split; [apply zv_range; lia|]). apply C3. auto. }
        split; [apply zv_range; lia|]. split; [apply zv_range; lia|]. split.
        { apply of_Z_div; [lia|]. rewrite cubic_K. pushZ. exact E. }
        split; [exact S|]. rewrite !SX. unfold sv_x. destruct (sqd (gg (y1 u))) as [S1|S1]; [|destruct (sqd (gg (y2 u))) as [S2|S2]];
          (split; [|split]); intros; tauto || reflexivity.
    Qed.
    Lemma svdw_result (u : K) : sv_ok -> exists P, svdw_map (sv_K c3) (fe u) = Ret P
      /\ forall x y, WPoints.wpoint e P (Affine x y) <-> svdw_point p (zv a) (zv b) (zv z) (zv u) x y.
    Proof.
      intro H. destruct (svdw_map_K u H) as (y & E & S & ->). destruct (new_ok _ _ E) as (P & -> & HP). exists P. split; [reflexivity|].
      intros x' y'. rewrite HP, (svdw_point_K u x' y' H). split.
      - intro EA. exists y. pose proof (f_equal (fun A => match A with Affine x _ => x | _ => 0 end) EA).
        pose proof (f_equal (fun A => match A with Affine _ y => y | _ => 0 end) EA). cbv beta iota in *. auto.
      - intros (Y & -> & -> & EY & SY). f_equal. f_equal. apply (root_unique u); [congruence|exact SY|exact S].
    Qed.
  End Weier.

  (** *** Elligator 2 *)
  Section Mont.
    Variables (a b : K) (e : MCurve.Curve).
    Hypotheses (ef : MCurve.c_f e = mkFp p) (ea : MCurve.c_a e = fe a) (eb : MCurve.c_b e = fe b).
    Lemma mc_K (x : K) : of_Z p (mont_cubic (zv a) (zv x)) = mc K a x.
    Proof. unfold mont_cubic. pushZ. reflexivity. Qed.
    Lemma m_on_curve (x y : K) : exists t, (t = true <-> Fmul b (Fmul y y) = mc K a x)
      /\ MCurve.new_point e (fe x) (fe y) = if t then Ret (MCurve.mkPoint e (MCurve.mkProy (fe x) (fe y) (fe (F1 : K)))) else Panic MCurve.ERR_ECC_NEW.
    Proof.
      unfold MCurve.new_point. rewrite ef. fes. unfold MCurve.is_on_curve. cbn [MCurve.px MCurve.py MCurve.pz]. rewrite ea, eb. fes.
      eexists. split; [|unfold do_if_eq; reflexivity].
      rewrite is_zero_fe by lia. apply (mont_affine K).
    Qed.
    Lemma m_point (x y : K) : Fmul b (Fmul y y) = mc K a x -> forall C,
      MPoints.mpoint e (MCurve.mkPoint e (MCurve.mkProy (fe x) (fe y) (fe (F1 : K)))) C <-> C = Affine (zv x) (zv y).
    Proof.
      intros H C. unfold MPoints.mpoint. cbn [MCurve.pe MCurve.pc MCurve.px MCurve.py MCurve.pz]. rewrite ef, ea, eb. cbn [val fe modulus].
      assert (Cx := zv_range p x ltac:(lia)). assert (Cy := zv_range p y ltac:(lia)).
      assert (D : (p | zv b * (zv y * zv y) - (zv x * zv x * zv x + zv a * (zv x * zv x) + 1 * zv x + 0))).
      { replace (1 * zv x + 0) with (zv x) by ring. replace (zv x * zv x * zv x + zv a * (zv x * zv x) + 1 * zv x + 0) with (mont_cubic (zv a) (zv x)) by (unfold mont_cubic; ring).
        apply of_Z_div; [lia|]. rewrite mc_K. pushZ. exact H. }
      split.
      - intros (_ & _ & _ & _ & R & O). destruct C as [|x' y'].
        + destruct R as (_ & _ & R). exfalso. apply (F_1_neq_0 K), Zp_eq. exact R.
        + destruct O as (Cx' & Cy' & _). change (Affine x' y') with (Affine x' y') in R.
          destruct (coord_K p Hp x' Cx') as [X ->], (coord_K p Hp y' Cy') as [Y ->].
          change (Affine (zv X) (zv Y)) with (ap p Hp (ECGroup.Aff K X Y)) in R. apply (rep_ap p Hp Hp2) in R.
          change (Affine (zv X) (zv Y)) with (ap p Hp (ECGroup.Aff K X Y)). change (Affine (zv x) (zv y)) with (ap p Hp (ECGroup.Aff K x y)).
          f_equal. apply (WeierP.rep_cross _ _ _ _ _ _ _ _ _ R (WeierP.rep_one K x y)). split; apply WeierProps.Fcomm.
      - intros ->. split; [reflexivity|]. repeat (split; [apply valid_fe; lia|]). split; [|exact (conj Cx (conj Cy D))].
        change (Affine (zv x) (zv y)) with (ap p Hp (ECGroup.Aff K x y)). apply (rep_ap p Hp Hp2). apply (WeierP.rep_one K).
    Qed.
    Variable z : K.
    Local Notation J := (Fmul a b : K).
    Local Notation L := (Fmul (Finv b) (Finv b) : K).
    Local Notation eg := (el_g K J L).
    Local Notation x1 u := (el_x1 K J z u).
    Definition el_K : Ell2 := mkEll2 e (fe z) (fe J) (fe L).
    Lemma ell2_new_K : (a <> F0 /\ b <> F0 -> ell2_new e (fe z) = Ret el_K)
      /\ (~ (a <> F0 /\ b <> F0) -> ell2_new e (fe z) = Panic ERR_PARAMS).
    Proof.
      unfold ell2_new. rewrite ea, eb.
      destruct (is_zero (fe a)) eqn:Ea; [apply is_zero_fe in Ea; cbn [negb andb]; split; [intros [N _]; destruct (N Ea)|reflexivity]|].
      destruct (is_zero (fe b)) eqn:Eb; [apply is_zero_fe in Eb; cbn [negb andb]; split; [intros [_ N]; destruct (N Eb)|reflexivity]|].
      cbn [negb andb].
      assert (Na : a <> F0). { intro H. rewrite (proj2 (is_zero_fe p a)) in Ea by (lia || exact H). discriminate. }
      assert (Nb : b <> F0). { intro H. rewrite (proj2 (is_zero_fe p b)) in Eb by (lia || exact H). discriminate. }
      split; [intros _|intros []; auto]. fes. unfold el_K. f_equal. f_equal. f_equal. exact (div_inv K a b Nb).
    Qed.
    Definition el_x (u : K) : K := if sqd (eg (x1 u)) then x1 u else Fsub (Fopp (x1 u)) J.
    Definition el_sign (u w : K) : Prop := (sq K (eg (x1 u)) -> zv w = 0 \/ Z.even (zv w) = false) /\ (~ sq K (eg (x1 u)) -> Z.even (zv w) = true).
    Lemma ell2_map_K u : exists w : K, (sq K (eg (el_x u)) -> Fmul w w = eg (el_x u)) /\ el_sign u w
      /\ ell2_map el_K (fe u) = MCurve.new_point e (fe (Fmul (el_x u) b : K)) (fe (Fmul w b : K)).
    Proof.
      unfold ell2_map, el_K. cbn [el_e el_z el_ca el_cb]. rewrite ef, eb. fes.
      rewrite (fpelt_eqb_fe_b p) by lia. rewrite cmov_fe.
      match goal with |- context [add (fe ?t) (fe (of_Z p 1))] => assert (ET : t = el_t K z u) end.
      { unfold el_t. assert (M1 : of_Z p (-1) = (Fopp F1 : K)) by (change (-1) with (- (1)); apply of_Z_opp). rewrite M1.
        change (zp_eqd p (zmul z (zmul u u)) (Fopp (F1 : K))) with (Feqd (Fmul z (Fmul u u)) (Fopp F1 : K)).
        destruct (Feqd _ _); reflexivity. }
      rewrite ET. clear ET. fes.
      match goal with |- context [is_square (fe ?v)] => change v with (eg (x1 u)) end.
      destruct (is_square_fe p Hp (eg (x1 u)) ltac:(lia)) as (s1 & -> & H1). fes. rewrite !cmov_fe.
      match goal with |- context [sqrt (fe ?v)] => destruct (sqrt_fe p Hp v Hm) as (y & -> & Hy) end. fes. rewrite cmov_fe. fes.
      rewrite (sgn0_val p) by (apply valid_fe; lia). cbn [val fe].
      exists (if xorb s1 ((if Z.even (zv y) then 1 else -1) =? 1) then y else Fopp y).
      assert (SY : forall t : bool, Fmul (if t then y else Fopp y) (if t then y else Fopp y) = Fmul y y :> K) by (intros [|]; [reflexivity|apply opp_sq]).
      assert (X : (if s1 then x1 u else Fsub (Fopp (x1 u)) J) = el_x u).
      { unfold el_x. destruct (sqd (eg (x1 u))) as [S|S]; [rewrite (proj2 H1 S); reflexivity|].
        destruct s1; [destruct S; apply H1|]; reflexivity. }
      split; [|split].
      - rewrite SY. intro S. rewrite <- X. rewrite <- X in S. destruct s1; [apply Hy, S|].
        rewrite (el_second K). apply Hy. rewrite (el_second K) in S. exact S.
      - split; intro S.
        + rewrite (proj2 H1 S). destruct (Z.even (zv y)) eqn:E; cbn [xorb Z.eqb Pos.eqb]; [|right; exact E].
          destruct (Feqd y F0) as [Y0|N]; [left; rewrite Y0; rewrite (opp_zero K); reflexivity|].
          right. rewrite (WeierP.parity_opp p Hp Hp2 y N), E. reflexivity.
        + assert (s1 = false) as -> by (destruct s1; [destruct S; apply H1; reflexivity|reflexivity]).
          destruct (Z.even (zv y)) eqn:E; cbn [xorb Z.eqb Pos.eqb]; [exact E|].
          destruct (Feqd y F0) as [Y0|N]; [rewrite Y0 in E; discriminate E|].
          rewrite (WeierP.parity_opp p Hp Hp2 y N), E. reflexivity.
      - rewrite <- X. f_equal.
    Qed.
    Section Unit.
      Hypothesis b2 : Fmul b b = (F1 : K).
      Lemma ell2_point_K (u : K) x y : ell2_point p (zv a) (zv b) (zv z) (zv u) x y <->
        exists w : K, x = zv (Fmul b (el_x u) : K) /\ y = zv (Fmul b w : K) /\ Fmul w w = eg (el_x u) /\ el_sign u w.
      Proof.
        assert (AX : forall k : K, ell2_x1 p (zv a) (zv z) (zv u) (zv k) <-> k = Fmul b (x1 u)).
        { intro k. rewrite (el_x1_spec K a b z u k b2). rewrite <- (el_x1_iff K J z u (Fmul b k)).
          unfold ell2_x1. rewrite !dvd0. pushZ. 
          rewrite <- (el_scale_1 K a b k b2). rewrite <- (el_scale_0 K a b (Fadd F1 (Fmul z (Fmul u u))) k b2).
          split; [intros (_ & H); exact H|]. intro H. split; [apply zv_range; lia|exact H]. }
        assert (SQ : forall k : K, square_mod p (zv b * mont_cubic (zv a) (zv (Fmul b k : K))) <-> sq K (eg k)).
        { intro k. rewrite sq_Z, of_Z_mul, mc_K, of_Z_zv. rewrite <- (bmc K a b k b2). reflexivity. }
        unfold ell2_point. split.
        - intros (k & w & A1 & Cx & Cy & Cw & D & E & Q1 & Q2).
          assert (Ck : coord p k) by apply A1. destruct (coord_K p Hp k Ck) as [k' ->]. apply AX in A1. subst k'.
          destruct (coord_K p Hp x Cx) as [X ->], (coord_K p Hp y Cy) as [Y ->], (coord_K p Hp w Cw) as [w' ->].
          rewrite SQ in Q1, Q2.
          assert (EY : Y = Fmul b w'). { apply of_Z_div in D; [|lia]. revert D. pushZ. exact (fun h => h). }
          assert (EX : X = Fmul b (el_x u)).
          { unfold el_x. destruct (sqd (eg (x1 u))) as [S|S].
            - apply Zp_eq. apply Q1, S.
            - destruct (Q2 S) as [D2 _]. apply dvd0 in D2. revert D2. pushZ. intro D2. apply (el_x2 K a b _ _ b2). exact D2. }
          subst X Y. exists w'. split; [reflexivity|]. split; [reflexivity|]. split.
          + apply (el_curve K a b _ _ b2). apply of_Z_div in E; [|lia]. revert E. rewrite mc_K. pushZ. exact (fun h => h).
          + split; intro S; [apply Q1, S|apply Q2, S].
        - intros (w & -> & -> & E & S1 & S2). exists (zv (Fmul b (x1 u) : K)), (zv w).
          split; [apply AX; reflexivity|]. do 3 (split; [apply zv_range; lia|]). split.
          { apply of_Z_div; [lia|]. pushZ. reflexivity. }
          split. { apply of_Z_div; [lia|]. rewrite mc_K. pushZ. apply (el_curve K a b _ _ b2), E. }
          rewrite SQ. split; intro S.
          + split; [|apply S1, S]. unfold el_x. destruct (sqd (eg (x1 u))); [reflexivity|contradiction].
          + split; [|apply S2, S]. unfold el_x. destruct (sqd (eg (x1 u))); [contradiction|].
            apply dvd0. pushZ. apply (el_x2 K a b _ _ b2). reflexivity.
      Qed.
      Lemma ell2_result (u : K) :
        (forall x0 y0, ell2_point p (zv a) (zv b) (zv z) (zv u) x0 y0 -> exists P, ell2_map el_K (fe u) = Ret P
           /\ forall x y, MPoints.mpoint e P (Affine x y) <-> ell2_point p (zv a) (zv b) (zv z) (zv u) x y)
        /\ ((forall x y, ~ ell2_point p (zv a) (zv b) (zv z) (zv u) x y) -> ell2_map el_K (fe u) = Panic MCurve.ERR_ECC_NEW).
      Proof.
        destruct (ell2_map_K u) as (w & E & S & ->).
        destruct (m_on_curve (Fmul (el_x u) b) (Fmul w b)) as (t & Ht & ->).
        rewrite (WeierProps.Fcomm (el_x u : K) b), (WeierProps.Fcomm (w : K) b), (el_curve K a b _ _ b2) in Ht. split.
        - intros x0 y0 H. apply ell2_point_K in H. destruct H as (w' & _ & _ & E' & S').
          assert (Ew : Fmul w w = eg (el_x u)) by (apply E; exists w'; exact E').
          rewrite (proj2 Ht Ew). eexists. split; [reflexivity|]. intros x y.
          rewrite m_point by (rewrite (WeierProps.Fcomm (el_x u : K) b), (WeierProps.Fcomm (w : K) b); apply (el_curve K a b _ _ b2), Ew).
          rewrite ell2_point_K. rewrite (WeierProps.Fcomm (el_x u : K) b), (WeierProps.Fcomm (w : K) b). split.
          + intro EA. exists w. pose proof (f_equal (fun A => match A with Affine x _ => x | _ => 0 end) EA).
            pose proof (f_equal (fun A => match A with Affine _ y => y | _ => 0 end) EA). cbv beta iota in *. auto.
          + intros (W & -> & -> & EW & SW). f_equal. f_equal. f_equal.
            destruct (sqd (eg (x1 u))) as [Q|Q].
            * destruct (proj1 S Q) as [O|O], (proj1 SW Q) as [O'|O']; apply (root_unique F1); try congruence; unfold sign_follows;
                rewrite ?O, ?O'; replace (zv (F1 : K)) with 1 by (symmetry; apply Z.mod_small; lia); auto.
            * pose proof (proj2 S Q) as O. pose proof (proj2 SW Q) as O'. apply (root_unique F0); [congruence| |]; unfold sign_follows; rewrite ?O, ?O'; auto.
        - intro N. destruct t; [|reflexivity]. exfalso. assert (Ew : Fmul w w = eg (el_x u)) by (apply Ht; reflexivity).
          apply (N (zv (Fmul b (el_x u) : K)) (zv (Fmul b w : K))). apply ell2_point_K. exists w. auto.
      Qed.
      Lemma ell2_exists (u : K) : ~ sq K z -> exists x y, ell2_point p (zv a) (zv b) (zv z) (zv u) x y.
      Proof.
        intro Nz. destruct (ell2_map_K u) as (w & E & S & _).
        exists (zv (Fmul b (el_x u) : K)), (zv (Fmul b w : K)). apply ell2_point_K. exists w.
        split; [reflexivity|]. split; [reflexivity|]. split; [|exact S]. apply E. unfold el_x.
        destruct (sqd (eg (x1 u))) as [Q|Q]; [exact Q|].
        destruct (el_other K NN sqd J L z Nz u); [contradiction|assumption].
      Qed.
    End Unit.
    Lemma ell2_wrong_b (u : K) : ~ sq K z -> a <> F0 -> b <> F0 -> Fmul b b <> (F1 : K) ->
      ell2_map el_K (fe u) = Panic MCurve.ERR_ECC_NEW \/ exists P, ell2_map el_K (fe u) = Ret P /\ forall A, MPoints.mpoint e P A <-> A = Affine 0 0.
    Proof.
      intros Nz Na Nb Nb1. destruct (ell2_map_K u) as (w & E & _ & ->).
      destruct (m_on_curve (Fmul (el_x u) b) (Fmul w b)) as (t & Ht & ->). destruct t; [right|left; reflexivity].
      eexists. split; [reflexivity|]. pose proof (proj1 Ht eq_refl) as C.
      assert (S : sq K (eg (el_x u))).
      { unfold el_x. destruct (sqd (eg (x1 u))) as [Q|Q]; [exact Q|]. destruct (el_other K NN sqd J L z Nz u); [contradiction|assumption]. }
      specialize (E S). intro A. rewrite m_point by exact C.
      rewrite (WeierProps.Fcomm (el_x u : K) b), (WeierProps.Fcomm (w : K) b) in C |- *.
      destruct (el_curve_wrong K a b _ _ Nb C E Na Nb1) as [-> ->].
      assert (B0 : Fmul b F0 = (F0 : K)) by apply (mul_zero K). rewrite B0. reflexivity.
    Qed.
  End Mont.
End W.
