(** Powers and the root bound for polynomials over an abstract field. *)
From Coq Require Import Arith Lia List Ring Field.
From Verif.Math Require Import Fld.
Import ListNotations.

Section Pow.
  Variable K : Fld.
  Add Field KFp : (Fth K).
  Open Scope fld_scope.

  Fixpoint fpow (x : K) (n : nat) : K := match n with O => 1 | S k => x * fpow x k end.

  Lemma fpow_add x m n : fpow x (m + n)%nat = fpow x m * fpow x n.
  Proof. induction m as [|m IH]; cbn; [ring|rewrite IH; ring]. Qed.
  Lemma fpow_1_l n : fpow 1 n = 1.
  Proof. induction n as [|n IH]; cbn; [reflexivity|rewrite IH; ring]. Qed.
  Lemma fpow_0_l n : (0 < n)%nat -> fpow 0 n = 0.
  Proof. destruct n; [lia|]. intros _. cbn. ring. Qed.
  Lemma fpow_mul_l x y n : fpow (x * y) n = fpow x n * fpow y n.
  Proof. induction n as [|n IH]; cbn; [ring|rewrite IH; ring]. Qed.
  Lemma fpow_mul x m n : fpow x (m * n)%nat = fpow (fpow x m) n.
  Proof.
    induction n as [|n IH]; [rewrite Nat.mul_0_r; reflexivity|].
    rewrite Nat.mul_succ_r, Nat.add_comm, fpow_add, IH. reflexivity.
  Qed.
  Lemma fpow_1_r x : fpow x 1 = x. Proof. cbn. ring. Qed.
  Lemma fpow_2_r x : fpow x 2 = x * x. Proof. cbn. ring. Qed.
  Lemma fpow_nz x n : x <> 0 -> fpow x n <> 0.
  Proof.
    intro Hx. induction n as [|n IH]; cbn; [apply F_1_neq_0|apply Fmul_nonzero; assumption].
  Qed.
  Lemma fpow_opp1_odd n : fpow (- (1)) (2 * n + 1)%nat = - (1).
  Proof.
    rewrite fpow_add, fpow_mul, fpow_2_r, fpow_1_r.
    replace (- (1) * - (1) : K) with (1 : K) by ring. rewrite fpow_1_l. ring.
  Qed.

  (** *** polynomials, low coefficient first *)
  Fixpoint peval (c : list K) (x : K) : K :=
    match c with [] => 0 | a :: l => a + x * peval l x end.

  Fixpoint quot (r : K) (c : list K) : list K :=
    match c with
    | [] => []
    | a :: l => match l with [] => [] | _ => peval l r :: quot r l end
    end.

  Lemma quot_length r c : length (quot r c) = pred (length c).
  Proof.
    induction c as [|a l IH]; [reflexivity|]. destruct l as [|b l]; [reflexivity|].
    change (quot r (a :: b :: l)) with (peval (b :: l) r :: quot r (b :: l)).
    cbn [length pred] in *. rewrite IH. reflexivity.
  Qed.

  Lemma quot_eval r c x : peval c x = (x - r) * peval (quot r c) x + peval c r.
  Proof.
    induction c as [|a l IH]; [cbn; ring|]. destruct l as [|b l]; [cbn; ring|].
    change (quot r (a :: b :: l)) with (peval (b :: l) r :: quot r (b :: l)).
    remember (b :: l) as l' eqn:El. cbn [peval]. rewrite IH. ring.
  Qed.

  Definition all0 (c : list K) : Prop := forall a, In a c -> a = 0.

  Lemma quot_all0 r c : all0 (quot r c) -> peval c r = 0 -> all0 c.
  Proof.
    induction c as [|a l IH]; [intros _ _ x []|]. destruct l as [|b l].
    - cbn. intros _ H x [<-|[]]. transitivity (a + r * 0); [ring|exact H].
    - change (quot r (a :: b :: l)) with (peval (b :: l) r :: quot r (b :: l)).
      remember (b :: l) as l' eqn:El. intros Hq H. cbn in H.
      assert (E : peval l' r = 0) by (apply Hq; left; reflexivity).
      intros x [<-|Hx].
      + rewrite E in H. transitivity (a + r * 0); [ring|exact H].
      + apply IH; [|exact E|exact Hx]. intros y Hy. apply Hq. right. exact Hy.
  Qed.

  Theorem root_bound (rs c : list K) : NoDup rs -> (forall r, In r rs -> peval c r = 0) ->
    (length c <= length rs)%nat -> all0 c.
  Proof.
    intro N. revert c. induction N as [|r rs Hr N IH]; intros c Hroot Hlen.
    - destruct c; [intros x []|cbn in Hlen; lia].
    - destruct c as [|a l]; [intros x []|].
      apply (quot_all0 r); [|apply Hroot; left; reflexivity].
      apply IH.
      + intros s Hs.
        assert (E : (s - r) * peval (quot r (a :: l)) s = 0).
        { pose proof (quot_eval r (a :: l) s) as Q.
          rewrite (Hroot s (or_intror Hs)), (Hroot r (or_introl eq_refl)) in Q.
          transitivity ((s - r) * peval (quot r (a :: l)) s + 0); [ring|symmetry; exact Q]. }
        destruct (Fmul_integral K _ _ E) as [E'|E']; [|exact E'].
        exfalso. apply Hr. replace r with s; [exact Hs|]. apply (proj1 (Fsub_zero K s r)), E'.
      + rewrite quot_length. cbn in *. lia.
  Qed.

  (** x^m = 1 has at most m solutions *)
  Definition xm1 (m : nat) : list K := - (1) :: repeat 0 (pred m) ++ [1].

  Lemma peval_zeros n l x : peval (repeat 0 n ++ l) x = fpow x n * peval l x.
  Proof. induction n as [|n IH]; cbn; [ring|rewrite IH; ring]. Qed.

  Lemma peval_xm1 m x : (0 < m)%nat -> peval (xm1 m) x = fpow x m - 1.
  Proof.
    intro. unfold xm1. cbn [peval]. rewrite peval_zeros. destruct m; [lia|]. cbn. ring.
  Qed.

  Theorem roots_of_unity (m : nat) (rs : list K) : (0 < m)%nat -> NoDup rs ->
    (forall r, In r rs -> fpow r m = 1) -> (length rs <= m)%nat.
  Proof.
    intros Hm N H. destruct (Nat.le_gt_cases (length rs) m) as [|G]; [assumption|exfalso].
    assert (A : all0 (xm1 m)).
    { apply (root_bound rs); [exact N| |].
      - intros r Hr. rewrite peval_xm1, (H r Hr) by exact Hm. ring.
      - unfold xm1. cbn. rewrite app_length, repeat_length. cbn. lia. }
    apply (F_1_neq_0 K), A. unfold xm1. right. apply in_or_app. right. left. reflexivity.
  Qed.
End Pow.
Arguments fpow {K}. Arguments peval {K}.
