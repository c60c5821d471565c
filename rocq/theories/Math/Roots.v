(** Which of the two square roots the exponentiation formulas pick in Z/p. *)
From Coq Require Import ZArith Znumtheory Zpow_facts Lia List Ring Field.
From Verif.Math Require Import Fld Pow Zp Residue.
Import ListNotations.
Open Scope Z_scope.

Section Roots.
  Variable p : Z.
  Hypothesis Hp : prime p.
  Hypothesis H2 : p <> 2.
  Local Notation K := (ZpF p Hp).
  Add Field KFroots : (Fth K).
  Open Scope fld_scope.

  Lemma zp_int (x y : K) : x * y = 0 -> x = 0 \/ y = 0.
  Proof.
    intro E. destruct (zp_eqd p x (F0 : K)) as [D|D]; [left; exact D|right].
    transitivity (x * y / x); [field; exact D|]. rewrite E. field. exact D.
  Qed.
  Lemma roots_pm (x y : K) : x * x = y * y -> x = y \/ x = - y.
  Proof.
    intro E. destruct (zp_int (x - y) (x + y)) as [A|A].
    - replace ((x - y) * (x + y)) with (x * x - y * y) by ring. rewrite E. ring.
    - left. transitivity (x - y + y); [ring|]. rewrite A. ring.
    - right. transitivity (x + y - y); [ring|]. rewrite A. ring.
  Qed.
  Lemma opp_self (x : K) : x = - x -> x = 0.
  Proof.
    intro E. destruct (zp_int 2 x) as [A|A]; [|exfalso; exact (two_nz p Hp H2 A)|exact A].
    transitivity (x + x); [ring|]. rewrite E at 1. ring.
  Qed.

  (** *** p = 3 mod 4 *)
  Section M3.
    Hypothesis H4 : (p mod 4 = 3)%Z.
    Definition e3 : nat := Z.to_nat ((p + 1) / 4).
    Lemma e3_spec : half p = (2 * e3 - 1)%nat /\ (0 < e3)%nat.
    Proof.
      destruct (half_spec p Hp H2) as (_ & Hh & E). unfold e3.
      pose proof (Z.div_mod p 4 ltac:(lia)) as D. rewrite H4 in D.
      assert (Q : ((p + 1) / 4 = p / 4 + 1)%Z).
      { symmetry. apply Z.div_unique with 0%Z; lia. }
      rewrite Q. pose proof (p_pos p Hp). lia.
    Qed.
    Definition root3 (x : K) : K := fpow x e3.
    Lemma root3_sq (x : K) : root3 x * root3 x = x * fpow x (half p).
    Proof.
      destruct e3_spec as [E0 E1]. unfold root3. rewrite <- fpow_add.
      change (x * fpow x (half p)) with (fpow x (S (half p))). f_equal. lia.
    Qed.
    Lemma root3_square (x : K) : is_sq p Hp x -> is_sq p Hp (root3 x).
    Proof.
      intros [r <-]. exists (root3 r). unfold root3. rewrite fpow_mul_l. reflexivity.
    Qed.
    Lemma root3_nonsq (x : K) : ~ is_sq p Hp x -> root3 x * root3 x = - x.
    Proof. intro N. rewrite root3_sq, (nonsq_half p Hp H2 x N). ring. Qed.
    Lemma root3_mul (x y : K) : root3 (x * y) = root3 x * root3 y.
    Proof. apply fpow_mul_l. Qed.
    Lemma root3_unique (x z : K) : z * z = x -> is_sq p Hp z -> z = root3 x.
    Proof.
      intros E S. assert (Sx : is_sq p Hp x) by (exists z; exact E).
      pose proof (sqrt_3mod4 p Hp H2 x H4 Sx) as R. fold e3 in R. fold (root3 x) in R.
      destruct (roots_pm z (root3 x)) as [A|A]; [rewrite E; symmetry; exact R|exact A|].
      destruct (zp_eqd p (root3 x) (F0 : K)) as [D|D].
      - rewrite A, D. ring.
      - exfalso. apply (neg1_nonsq p Hp H2 H4).
        apply (sq_div_sq p Hp H2 (- (1)) (root3 x)); [|apply root3_square; exact Sx|exact D].
        replace (- (1) * root3 x) with (- root3 x) by ring. rewrite <- A. exact S.
    Qed.
  End M3.

  (** *** p = 5 mod 8 *)
  Section M5.
    Hypothesis H8 : (p mod 8 = 5)%Z.
    Local Notation k := (Z.to_nat ((p - 5) / 8)).
    (** the class of x modulo fourth powers *)
    Definition cls (x : K) : K := fpow x (2 * k + 1).
    Lemma cls_mul x y : cls (x * y) = cls x * cls y. Proof. apply fpow_mul_l. Qed.
    Lemma cls_opp1 : cls (- (1)) = - (1). Proof. apply fpow_opp1_odd. Qed.
    Lemma cls_opp x : cls (- x) = - cls x.
    Proof. replace (- x) with (- (1) * x) by ring. rewrite cls_mul, cls_opp1. ring. Qed.
    Lemma cls_0 : cls 0 = 0. Proof. apply fpow_0_l. lia. Qed.
    Lemma cls_nz x : x <> 0 -> cls x <> 0. Proof. apply fpow_nz. Qed.
    Lemma cls_sq x : cls x * cls x = fpow x (half p).
    Proof.
      unfold cls. rewrite <- fpow_add. f_equal. rewrite (half_k p Hp H2 H8). lia.
    Qed.
    Definition is_4th (x : K) : Prop := exists z : K, z * z * (z * z) = x.
    Lemma cls_4th (x : K) : x <> 0 -> (cls x = 1 <-> is_4th x).
    Proof.
      intro N. split.
      - intro E. assert (P : forall j, fpow x ((2 * k + 1) * j) = 1).
        { intro j. rewrite fpow_mul. fold (cls x). rewrite E. apply fpow_1_l. }
        assert (Q : exists j m, ((2 * k + 1) * j + 1 = m + m + (m + m))%nat).
        { destruct (Nat.Even_or_Odd k) as [[h ->]|[h ->]].
          - exists 3%nat, (3 * h + 1)%nat. lia.
          - exists 1%nat, (h + 1)%nat. lia. }
        destruct Q as (j & m & Q). exists (fpow x m). rewrite <- !fpow_add, <- Q, fpow_add, P, fpow_1_r. ring.
      - intros [z <-]. assert (z <> 0) as Nz by (intros ->; apply N; ring).
        rewrite !cls_mul, cls_sq, <- fpow_mul_l. apply (sq_half p Hp H2); [exists z; reflexivity|].
        intro E. apply N. rewrite E. ring.
    Qed.

    Definition c5 : K := let t := fpow (2 : K) k in (t * t + t * t + 1) * t.
    Lemma c5_sq : c5 * c5 = - (1). Proof. exact (sqrt_m1 p Hp H2 H8). Qed.
    Lemma c5_cls : cls c5 = fpow (- (1)) k * c5.
    Proof.
      unfold cls. rewrite fpow_add, fpow_mul, fpow_2_r, c5_sq, fpow_1_r. reflexivity.
    Qed.
    Definition t5 (x : K) : K := fpow x (k + 1).
    Lemma t5_sq x : t5 x * t5 x = x * cls x.
    Proof.
      unfold t5, cls. rewrite <- fpow_add. change (x * fpow x (2 * k + 1)) with (fpow x (S (2 * k + 1))).
      f_equal. lia.
    Qed.
    Lemma t5_cls x : cls (t5 x) = fpow (cls x) (k + 1).
    Proof. unfold cls, t5. rewrite <- !fpow_mul. f_equal. lia. Qed.
    Lemma opp1_pow n : fpow (- (1) : K) n * fpow (- (1)) n = 1.
    Proof. rewrite <- fpow_mul_l. replace (- (1) * - (1) : K) with (1 : K) by ring. apply fpow_1_l. Qed.

    (** what the formula returns *)
    Definition is_root5 (x y : K) : Prop :=
      (x = t5 x * t5 x /\ y = t5 x) \/ (x <> t5 x * t5 x /\ y = t5 x * c5).

    Lemma root5_4th (x y : K) : is_root5 x y -> x <> 0 -> cls x = 1 -> cls y = 1 /\ y * y = x.
    Proof.
      intros R N C. pose proof (t5_sq x) as T. rewrite C in T.
      destruct R as [[E ->]|[E _]].
      - rewrite t5_cls, C. split; [apply fpow_1_l|]. rewrite <- E. reflexivity.
      - exfalso. apply E. rewrite T. ring.
    Qed.
    Lemma root5_sq (x y : K) : is_root5 x y -> x <> 0 -> cls x = - (1) -> cls y = - c5 /\ y * y = x.
    Proof.
      intros R N C. pose proof (t5_sq x) as T. rewrite C in T.
      assert (T' : t5 x * t5 x = - x) by (rewrite T; ring).
      destruct R as [[E _]|[_ ->]].
      - exfalso. apply N, opp_self. rewrite <- T'. exact E.
      - split.
        + rewrite cls_mul, t5_cls, C, c5_cls, fpow_add, fpow_1_r.
          transitivity (- (fpow (- (1)) k * fpow (- (1)) k) * c5); [ring|]. rewrite opp1_pow. ring.
        + transitivity ((t5 x * t5 x) * (c5 * c5)); [ring|]. rewrite T', c5_sq. ring.
    Qed.
    Lemma root5_nonsq (x y : K) : is_root5 x y -> ~ is_sq p Hp x -> y * y * (y * y) = - (x * x).
    Proof.
      intros R N. pose proof (t5_sq x) as T.
      destruct R as [[E ->]|[_ ->]].
      - exfalso. apply N. exists (t5 x). symmetry. exact E.
      - transitivity ((t5 x * t5 x) * (t5 x * t5 x) * ((c5 * c5) * (c5 * c5))); [ring|].
        rewrite T, c5_sq. transitivity (x * x * (cls x * cls x)); [ring|].
        rewrite cls_sq, (nonsq_half p Hp H2 x N). ring.
    Qed.
    Lemma root5_0 (y : K) : is_root5 0 y -> y = 0.
    Proof.
      assert (T : t5 0 = 0) by (unfold t5; apply fpow_0_l; lia).
      intros [[_ ->]|[_ ->]]; rewrite T; ring.
    Qed.
    Lemma sq_cls (x : K) : x <> 0 -> is_sq p Hp x -> cls x = 1 \/ cls x = - (1).
    Proof.
      intros N S. apply roots_pm. rewrite cls_sq, (sq_half p Hp H2 x S N). ring.
    Qed.
    Lemma four_cls : cls (2 * 2) = - (1).
    Proof.
      rewrite cls_mul, cls_sq. exact (nonsq_half p Hp H2 _ (two_nonsq p Hp H2 H8)).
    Qed.
    Lemma cls_quot (y s : K) : s <> 0 -> cls y = cls s -> y <> 0 -> is_4th (y / s).
    Proof.
      intros N E Ny. apply cls_4th.
      - intro Z. apply Ny. transitivity (y / s * s); [field; exact N|]. rewrite Z. ring.
      - pose proof (cls_nz s N) as Ns.
        assert (Q : cls (y / s) * cls s = cls s).
        { rewrite <- cls_mul, <- E. f_equal. field. exact N. }
        transitivity (cls (y / s) * cls s / cls s); [field; exact Ns|]. rewrite Q. field. exact Ns.
    Qed.
    Lemma c5_not_pm1 : c5 <> 1 /\ c5 <> - (1) /\ c5 <> 0.
    Proof.
      pose proof c5_sq as S.
      assert (O : (1 : K) <> - (1)) by exact (one_neq_opp1 p Hp H2).
      repeat split; intro E; rewrite E in S; apply O.
      - rewrite <- S. ring.
      - rewrite <- S. ring.
      - exfalso. apply O, eq_sym. transitivity (- (1) * 1 : K); [ring|].
        assert (Z : (- (1) : K) = 0) by (rewrite <- S; ring). rewrite Z.
        transitivity (- (- (1)) : K); [rewrite Z; ring|ring].
    Qed.
    (** of z and -z only one lies in {w^4} or in the class of s *)
    Lemma cls_side (y z : K) : y <> 0 -> (cls y = 1 \/ cls y = - c5) -> (cls z = 1 \/ cls z = - c5) ->
      z * z = y * y -> z = y.
    Proof.
      intros N Cy Cz E. destruct (roots_pm z y E) as [A|A]; [exact A|exfalso].
      assert (O : (1 : K) <> - (1)) by exact (one_neq_opp1 p Hp H2).
      destruct c5_not_pm1 as (c1 & cm & c0).
      rewrite A, cls_opp in Cz. destruct Cy as [C|C]; rewrite C in Cz; destruct Cz as [B|B].
      - apply O. symmetry. exact B.
      - apply c1. transitivity (- - c5); [ring|]. rewrite <- B. ring.
      - apply c1. transitivity (- - c5); [ring|exact B].
      - apply c0, opp_self. transitivity (- - c5); [ring|exact B].
    Qed.
  End M5.
End Roots.
