(** Bridge between the specification over integers and the group of Math.ECGroup over Z/p. *)
From Coq Require Import ZArith Znumtheory Lia Bool List Ring Field.
From Verif.Math Require Import Fld Zp Residue ECGroup RCB.
From Verif.Spec Require Import Arith Curve.
From Verif.Proofs Require Import FieldP FieldProps.
Import ListNotations.
Open Scope Z_scope.

(** equality in Z/p as divisibility *)
Lemma of_Z_div p u v : 0 < p -> (of_Z p u = of_Z p v <-> (p | u - v)).
Proof. intro H. rewrite of_Z_eq, divide_mod_eq by exact H. reflexivity. Qed.

(** the residue of an integer polynomial is the polynomial of the residues *)
Ltac pushZ := repeat (rewrite of_Z_add || rewrite of_Z_sub || rewrite of_Z_mul || rewrite of_Z_opp); rewrite ?of_Z_zv.

Section EqDiv.
  Variable k : Fld.
  Add Field kf : (Fth k).
  Lemma Fopp_opp (x : k) : Fopp (Fopp x) = x. Proof. ring. Qed.
  Lemma eq_div (l u v : k) : u <> F0 -> Fmul l u = v -> l = Fdiv v u.
  Proof. intros Hu <-. field. exact Hu. Qed.
End EqDiv.

Section Bridge.
  Variable p : Z.
  Hypothesis Hp : prime p.
  Hypothesis Hp2 : 2 < p.
  Local Notation K := (ZpF p Hp).
  Local Notation pt := (pt K).

  Lemma kz (x : K) : x = of_Z p (zv x). Proof. symmetry. apply of_Z_zv. Qed.
  Lemma coord_zv (x : K) : coord p (zv x). Proof. apply zv_range. lia. Qed.
  Lemma coord_of z : coord p z -> zv (of_Z p z) = z.
  Proof. intro H. rewrite zv_of_Z. apply Z.mod_small. exact H. Qed.

  Definition ap (P : pt) : apoint := match P with Inf _ => Infinity | Aff _ x y => Affine (zv x) (zv y) end.
  Definition unap (P : apoint) : pt :=
    match P with Infinity => Inf K | Affine x y => Aff K (of_Z p x) (of_Z p y) end.
  Lemma unap_ap P : unap (ap P) = P.
  Proof. destruct P as [|x y]; cbn; [reflexivity|]. f_equal; apply of_Z_zv. Qed.
  Lemma ap_inj P Q : ap P = ap Q -> P = Q.
  Proof. intro E. rewrite <- (unap_ap P), <- (unap_ap Q), E. reflexivity. Qed.

  Variables a2 a4 a6 : K.
  Local Notation on := (on K a2 a4 a6).
  Local Notation padd := (padd K a2 a4).

  Lemma on_ap P : on P <-> on_cubic p 1 (zv a2) (zv a4) (zv a6) (ap P).
  Proof.
    destruct P as [|x y]; cbn [ap on_cubic]; [cbn; tauto|].
    pose proof (coord_zv x). pose proof (coord_zv y). unfold ECGroup.on, cubic.
    assert (E : (Fmul y y : K) = Fadd (Fadd (Fadd (Fmul (Fmul x x) x) (Fmul a2 (Fmul x x))) (Fmul a4 x)) a6
      <-> (p | zv y * zv y - (zv x * zv x * zv x + zv a2 * (zv x * zv x) + zv a4 * zv x + zv a6))).
    { rewrite <- of_Z_div by lia. pushZ. reflexivity. }
    rewrite E. replace (1 * (zv y * zv y)) with (zv y * zv y) by ring. tauto.
  Qed.
  Lemma on_cubic_unap P : on_cubic p 1 (zv a2) (zv a4) (zv a6) P -> exists Q, P = ap Q /\ on Q.
  Proof.
    destruct P as [|x y]; intro H; [exists (Inf K); split; [reflexivity|exact I]|].
    exists (Aff K (of_Z p x) (of_Z p y)). assert (E : Affine x y = ap (Aff K (of_Z p x) (of_Z p y))).
    { cbn [ap]. destruct H as (Hx & Hy & _). rewrite !coord_of by assumption. reflexivity. }
    split; [exact E|]. apply on_ap. rewrite <- E. exact H.
  Qed.

  Lemma two_K : (Fadd F1 F1 : K) <> F0.
  Proof. apply two_nz. lia. Qed.

  Lemma eq_zv (u : K) z w : coord p z -> u = of_Z p w -> ((p | z - w) <-> z = zv u).
  Proof.
    intros Hz ->. rewrite zv_of_Z. rewrite divide_mod_eq, (Z.mod_small z) by (exact Hz || lia). reflexivity.
  Qed.

  Lemma third_ap (l x1 y1 x2 : K) x3 y3 :
    third_point p 1 (zv a2) (zv l) (zv x1) (zv y1) (zv x2) x3 y3 <-> Affine x3 y3 = ap (third K a2 l x1 y1 x2).
  Proof.
    unfold third_point, third. cbn [ap].
    assert (EX : forall z, coord p z -> ((p | z - (1 * (zv l * zv l) - zv a2 - zv x1 - zv x2)) <->
       z = zv (Fsub (Fsub (Fsub (Fmul l l) a2) x1) x2 : K))).
    { intros z Hz. apply eq_zv; [exact Hz|]. rewrite Z.mul_1_l. pushZ. reflexivity. }
    assert (EY : forall (u : K) z, coord p z -> ((p | z - (zv l * (zv x1 - zv u) - zv y1)) <->
       z = zv (Fsub (Fmul l (Fsub x1 u)) y1 : K))).
    { intros u z Hz. apply eq_zv; [exact Hz|]. pushZ. reflexivity. }
    split.
    - intros (Hx & Hy & DX & DY). apply EX in DX; [|exact Hx]. subst x3. apply EY in DY; [|exact Hy].
      subst y3. reflexivity.
    - intro E. pose proof (f_equal (fun P => match P with Affine x _ => x | _ => 0 end) E) as E1.
      pose proof (f_equal (fun P => match P with Affine _ y => y | _ => 0 end) E) as E2. cbv beta iota in E1, E2.
      clear E. subst x3 y3. split; [apply coord_zv|]. split; [apply coord_zv|]. split.
      + apply (proj2 (EX _ (coord_zv _))). reflexivity.
      + apply (proj2 (EY _ _ (coord_zv _))). reflexivity.
  Qed.

  (** divisibility facts as equations in K *)
  Lemma div_opp (y y' : K) : (p | zv y + zv y') <-> y = (Fopp y' : K).
  Proof.
    assert (E : (of_Z p (zv y) = of_Z p (- zv y')) <-> y = (Fopp y' : K)).
    { rewrite of_Z_opp, !of_Z_zv. reflexivity. }
    rewrite <- E, of_Z_div by lia. replace (zv y - - zv y') with (zv y + zv y') by ring. reflexivity.
  Qed.
  Lemma div_prod_K (l u v : K) zu zw : u = of_Z p zu -> v = of_Z p zw -> ((p | zv l * zu - zw) <-> Fmul l u = v).
  Proof.
    intros -> ->. rewrite <- of_Z_div by lia. rewrite of_Z_mul, of_Z_zv. reflexivity.
  Qed.
  Lemma div_prod_Z (l : Z) (u v : K) zu zw : u = of_Z p zu -> v = of_Z p zw -> ((p | l * zu - zw) <-> Fmul (of_Z p l : K) u = v).
  Proof.
    intros -> ->. rewrite <- of_Z_div by lia. rewrite of_Z_mul. reflexivity.
  Qed.
  Lemma third_mod l x1 y1 x2 x3 y3 : third_point p 1 (zv a2) l x1 y1 x2 x3 y3 <->
    third_point p 1 (zv a2) (zv (of_Z p l)) x1 y1 x2 x3 y3.
  Proof.
    unfold third_point. rewrite zv_of_Z.
    assert (E : (p | l - l mod p)) by (apply divide_mod_eq; [lia|]; symmetry; apply Zmod_mod).
    destruct E as [k Ek]. remember (l mod p) as m eqn:Em. clear Em. assert (El : l = m + k * p) by lia. clear Ek. subst l.
    assert (A : (p | x3 - (1 * ((m + k * p) * (m + k * p)) - zv a2 - x1 - x2)) <-> (p | x3 - (1 * (m * m) - zv a2 - x1 - x2))).
    { rewrite !divide_mod_eq by lia.
      replace ((1 * ((m + k * p) * (m + k * p)) - zv a2 - x1 - x2) mod p) with ((1 * (m * m) - zv a2 - x1 - x2) mod p); [reflexivity|].
      apply divide_mod_eq; [lia|]. exists (- k * (m + k * p + m)). ring. }
    assert (B : (p | y3 - ((m + k * p) * (x1 - x3) - y1)) <-> (p | y3 - (m * (x1 - x3) - y1))).
    { rewrite !divide_mod_eq by lia.
      replace (((m + k * p) * (x1 - x3) - y1) mod p) with ((m * (x1 - x3) - y1) mod p); [reflexivity|].
      apply divide_mod_eq; [lia|]. exists (- k * (x1 - x3)). ring. }
    rewrite A, B. reflexivity.
  Qed.

  Lemma neg_ap P : ap (popp K P) = negative p (ap P).
  Proof. destruct P as [|x y]; reflexivity. Qed.

  Lemma tangent_K (l : Z) (x y : K) : (p | l * (2 * 1 * zv y) - (3 * (zv x * zv x) + 2 * zv a2 * zv x + zv a4)) <->
    Fmul (of_Z p l : K) (Fmul (Fadd F1 F1) y) = dcubic K a2 a4 x.
  Proof.
    apply div_prod_Z.
    - change (2 * 1 * zv y) with ((1 + 1) * zv y). pushZ. reflexivity.
    - unfold dcubic. change 3 with (1 + 1 + 1). change 2 with (1 + 1). pushZ. reflexivity.
  Qed.
  Lemma chord_K (l : Z) (x1 y1 x2 y2 : K) : (p | l * (zv x2 - zv x1) - (zv y2 - zv y1)) <->
    Fmul (of_Z p l : K) (Fsub x2 x1) = Fsub y2 y1.
  Proof. apply div_prod_Z; pushZ; reflexivity. Qed.

  Theorem ct_padd A B : on A -> on B -> forall C, chord_tangent p 1 (zv a2) (zv a4) (ap A) (ap B) C <-> C = ap (padd A B).
  Proof.
    intros HA HB C. split.
    - intro H. inversion H as [P E1 E2 E3|P E1 E2 E3|x y y' D E1 E2 E3|x1 y1 x2 y2 l x3 y3 N D T E1 E2 E3|x y l x3 y3 N D T E1 E2 E3]; subst C.
      + destruct A; [reflexivity|discriminate].
      + destruct B; [rewrite padd_inf_r; reflexivity|discriminate].
      + destruct A as [|xa ya], B as [|xb yb]; try discriminate. cbn [ap] in *. injection E1 as -> ->.
        injection E2 as E2 ->. apply Zp_eq in E2. subst xb. apply div_opp in D. subst ya.
        assert (P : Aff K xa yb = popp K (Aff K xa (Fopp yb))) by (cbn; f_equal; symmetry; apply (Fopp_opp K)).
        rewrite P, padd_opp_r. reflexivity.
      + destruct A as [|xa ya], B as [|xb yb]; try discriminate. cbn [ap] in *. injection E1 as -> ->.
        injection E2 as -> ->. assert (N' : xa <> xb) by congruence. rewrite padd_gen by exact N'.
        apply chord_K in D. apply third_mod in T. apply third_ap in T. rewrite T. f_equal. f_equal.
        apply (eq_div K); [|exact D]. apply Fsub_nonzero. congruence.
      + destruct A as [|xa ya], B as [|xb yb]; try discriminate. cbn [ap] in *. injection E1 as -> ->.
        injection E2 as E2 E2'. apply Zp_eq in E2. apply Zp_eq in E2'. subst xb yb.
        assert (Hy : ya <> F0). { intros ->. apply N. cbn. exists 0. reflexivity. }
        rewrite padd_dbl by (exact two_K || exact Hy).
        apply tangent_K in D. apply third_mod in T. apply third_ap in T. rewrite T. f_equal. f_equal.
        apply (eq_div K); [|exact D]. apply Fmul_nonzero; [exact two_K|exact Hy].
    - intros ->. destruct (view_all K a2 a4 a6 A B HA HB) as [Q|P|P|x y Hy|x1 y1 x2 y2 Hx].
      + apply ct_left.
      + rewrite padd_inf_r. apply ct_right.
      + rewrite padd_opp_r. destruct P as [|x y]; [apply ct_left|]. cbn [ap popp]. apply ct_opposite.
        apply div_opp. symmetry. apply (Fopp_opp K).
      + rewrite padd_dbl by (exact two_K || exact Hy).
        set (l := Fdiv (dcubic K a2 a4 x) (Fmul (Fadd F1 F1) y) : K).
        destruct (third K a2 l x y x) as [|x3 y3] eqn:T; [discriminate|]. cbn [ap].
        apply ct_tangent with (zv l).
        * rewrite div_opp. intro E. apply Hy. apply (opp_self_zero K); [exact two_K|exact E].
        * apply tangent_K. rewrite of_Z_zv. unfold l. apply Fdiv_mul. apply Fmul_nonzero; [exact two_K|exact Hy].
        * apply third_ap. rewrite T. reflexivity.
      + rewrite padd_gen by exact Hx.
        set (l := Fdiv (Fsub y2 y1) (Fsub x2 x1) : K).
        destruct (third K a2 l x1 y1 x2) as [|x3 y3] eqn:T; [discriminate|]. cbn [ap].
        apply ct_chord with (zv l).
        * intro E. apply Hx, Zp_eq, E.
        * apply chord_K. rewrite of_Z_zv. unfold l. apply Fdiv_mul. apply Fsub_nonzero. congruence.
        * apply third_ap. rewrite T. reflexivity.
  Qed.

  (** n-fold sums *)
  Fixpoint nmul (n : nat) (A : pt) : pt := match n with O => Inf K | S m => padd (nmul m A) A end.
  Lemma on_nmul n A : on A -> on (nmul n A).
  Proof. intro H. induction n as [|n IH]; [exact I|]. cbn. apply on_padd; [exact two_K|exact IH|exact H]. Qed.
  Lemma multiple_ap n A : on A -> forall C, multiple (chord_tangent p 1 (zv a2) (zv a4)) Infinity (ap A) n C <-> C = ap (nmul n A).
  Proof.
    intro H. induction n as [|n IH]; intro C.
    - split; [intro M; inversion M; reflexivity|intros ->; constructor].
    - split.
      + intro M. inversion M as [|m Q R M1 S E1 E2]; subst. apply IH in M1. subst Q.
        apply ct_padd in S; [exact S|apply on_nmul, H|exact H].
      + intros ->. apply mult_S with (ap (nmul n A)); [apply IH; reflexivity|].
        apply ct_padd; [apply on_nmul, H|exact H|reflexivity].
  Qed.

  Hypothesis nonsing : forall x, cubic K a2 a4 a6 x = F0 -> dcubic K a2 a4 x <> F0.
  Lemma nmul_add m n A : on A -> padd (nmul m A) (nmul n A) = nmul (m + n) A.
  Proof.
    intro H. induction n as [|n IH]; [rewrite Nat.add_0_r; apply padd_inf_r|].
    rewrite Nat.add_succ_r. cbn [nmul]. rewrite <- IH. symmetry.
    apply padd_assoc with a6; try assumption; try apply on_nmul; try exact two_K; assumption.
  Qed.

  Lemma nmul_mul m n A : on A -> nmul m (nmul n A) = nmul (m * n) A.
  Proof.
    intro H. induction m as [|m IH]; [reflexivity|]. cbn [Nat.mul]. rewrite Nat.add_comm, <- nmul_add by exact H.
    rewrite <- IH. reflexivity.
  Qed.

  (** projective representatives *)
  Lemma rep_ap (X Y Z : K) A : rep K X Y Z A <-> proj_of p (zv X) (zv Y) (zv Z) (ap A).
  Proof.
    destruct A as [|x y]; cbn [rep ap proj_of].
    - rewrite <- !(zv_nz p Hp). 
      assert (Z0 : forall u : K, u = F0 <-> zv u = 0).
      { intro u. split; [intros ->; apply Zmod_0_l|]. intro E. apply Zp_eq. rewrite E. symmetry. apply Zmod_0_l. }
      rewrite (Z0 X), (Z0 Z). tauto.
    - rewrite <- (zv_nz p Hp).
      assert (Q : forall u v w : K, (u = Fmul v w) <-> (p | zv u - zv v * zv w)).
      { intros u v w. rewrite <- of_Z_div by lia. rewrite of_Z_mul, !of_Z_zv. reflexivity. }
      rewrite (Q X x Z), (Q Y y Z). tauto.
  Qed.
End Bridge.
