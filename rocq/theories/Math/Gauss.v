(** Pairs over a field in which -1 is not a square are a field, and the p-th power in it is
    conjugation when p*1 = 0, p = 3 mod 4 and the p-th power is the identity below. *)
From Coq Require Import Ring Field Setoid Arith Lia ZArith Znumtheory.
From Verif.Math Require Import Fld Pow Quad.
Open Scope nat_scope.

(** *** binomial coefficients *)
Fixpoint binom (n k : nat) : nat :=
  match n, k with
  | _, O => 1
  | O, S _ => 0
  | S n', S k' => binom n' k' + binom n' (S k')
  end.
Lemma binom_gt n : forall k, n < k -> binom n k = 0.
Proof. induction n as [|n IH]; intros [|k] H; try lia; cbn; [reflexivity|]. rewrite !IH by lia. reflexivity. Qed.
Lemma binom_diag n : binom n n = 1.
Proof. induction n as [|n IH]; [reflexivity|]. cbn. rewrite IH, binom_gt by lia. reflexivity. Qed.
Lemma binom_0 n : binom n 0 = 1. Proof. destruct n; reflexivity. Qed.
Lemma binom_absorb n : forall k, S k * binom (S n) (S k) = S n * binom n k.
Proof.
  induction n as [|n IH]; intro k.
  - destruct k as [|k]; [reflexivity|]. rewrite (binom_gt 1), (binom_gt 0) by lia. lia.
  - change (binom (S (S n)) (S k)) with (binom (S n) k + binom (S n) (S k)).
    destruct k as [|k].
    + pose proof (IH 0%nat) as E. rewrite !binom_0 in *. lia.
    + pose proof (IH (S k)) as E1. pose proof (IH k) as E0.
      assert (B : binom (S n) (S k) = binom n k + binom n (S k)) by reflexivity. nia.
Qed.
Lemma binom_prime p k : prime (Z.of_nat p) -> 0 < k < p -> exists m, binom p k = m * p.
Proof.
  intros Hp Hk. destruct p as [|n]; [lia|]. destruct k as [|k]; [lia|].
  pose proof (binom_absorb n k) as E.
  assert (D : (Z.of_nat (S n) | Z.of_nat (S k) * Z.of_nat (binom (S n) (S k)))%Z).
  { exists (Z.of_nat (binom n k)). rewrite <- !Nat2Z.inj_mul, E, Nat.mul_comm. reflexivity. }
  apply prime_mult in D; [|exact Hp]. destruct D as [D|D].
  - apply Z.divide_pos_le in D; lia.
  - destruct D as [m Em]. exists (Z.to_nat m). assert (0 <= m)%Z by nia.
    apply Nat2Z.inj. rewrite Nat2Z.inj_mul, Z2Nat.id by assumption. exact Em.
Qed.

Section Frobenius.
  Variable K : Fld.
  Add Field KFfrob : (Fth K).
  Open Scope fld_scope.
  Fixpoint fnat (n : nat) : K := match n with O => 0 | S m => 1 + fnat m end.
  Lemma fnat_add m n : fnat (m + n)%nat = fnat m + fnat n.
  Proof. induction m as [|m IH]; cbn; [ring|]. rewrite IH. ring. Qed.
  Lemma fnat_mul m n : fnat (m * n)%nat = fnat m * fnat n.
  Proof. induction m as [|m IH]; cbn; [ring|]. rewrite fnat_add, IH. ring. Qed.
  Fixpoint fsum (f : nat -> K) (n : nat) : K := match n with O => 0 | S m => fsum f m + f m end.
  Lemma fsum_ext f g n : (forall k, (k < n)%nat -> f k = g k) -> fsum f n = fsum g n.
  Proof. induction n as [|n IH]; intro H; [reflexivity|]. cbn. rewrite IH, H; [reflexivity|lia|intros; apply H; lia]. Qed.
  Lemma fsum_add f g n : fsum (fun k => f k + g k) n = fsum f n + fsum g n.
  Proof. induction n as [|n IH]; cbn; [ring|]. rewrite IH. ring. Qed.
  Lemma fsum_mul c f n : fsum (fun k => c * f k) n = c * fsum f n.
  Proof. induction n as [|n IH]; cbn; [ring|]. rewrite IH. ring. Qed.
  Lemma fsum_shift f n : fsum f (S n) = f O + fsum (fun k => f (S k)) n.
  Proof. induction n as [|n IH]; [cbn; ring|]. cbn [fsum] in *. rewrite IH. ring. Qed.
  Lemma fsum_zero f n : (forall k, (k < n)%nat -> f k = 0) -> fsum f n = 0.
  Proof. induction n as [|n IH]; intro H; [reflexivity|]. cbn. rewrite IH, H; [ring|lia|intros; apply H; lia]. Qed.
  Lemma binomial (x : K) n : forall N, (n < N)%nat -> fpow (1 + x) n = fsum (fun k => fnat (binom n k) * fpow x k) N.
  Proof.
    induction n as [|n IH]; intros [|N] H; try lia; rewrite fsum_shift.
    - rewrite fsum_zero; [cbn; ring|]. intros k _. cbn. ring.
    - rewrite (fsum_ext _ (fun k => x * (fnat (binom n k) * fpow x k) + fnat (binom n (S k)) * fpow x (S k))).
      2:{ intros k _. cbn [binom fpow]. rewrite fnat_add. ring. }
      rewrite fsum_add, fsum_mul, <- IH by lia. cbn [fpow]. rewrite (IH (S N)) at 1 by lia.
      rewrite fsum_shift. rewrite !binom_0. cbn [fpow].
      rewrite (IH (S N)) by lia. rewrite fsum_shift. rewrite binom_0. cbn [fpow]. ring.
  Qed.
  Variable p : nat.
  Hypothesis Hp : prime (Z.of_nat p).
  Hypothesis Hc : fnat p = 0.
  Lemma frob1 (x : K) : fpow (1 + x) p = 1 + fpow x p.
  Proof.
    rewrite (binomial x p (S p)) by lia. cbn [fsum]. destruct p as [|q] eqn:Ep; [destruct Hp; lia|].
    rewrite fsum_shift, fsum_zero.
    - rewrite binom_0, binom_diag. cbn. ring.
    - intros k Hk. destruct (binom_prime (S q) (S k) Hp) as [m E]; [lia|]. rewrite E, fnat_mul, Hc. ring.
  Qed.
  Lemma frob (x y : K) : fpow (x + y) p = fpow x p + fpow y p.
  Proof.
    assert (0 < p)%nat by (destruct Hp; lia).
    destruct (Feqd x 0) as [->|Hx].
    - rewrite fpow_0_l by assumption. transitivity (fpow y p); [f_equal; ring|ring].
    - transitivity (fpow (x * (1 + y / x)) p); [f_equal; field; exact Hx|].
      rewrite fpow_mul_l, frob1. transitivity (fpow x p + fpow (x * (y / x)) p); [rewrite fpow_mul_l; ring|].
      f_equal. f_equal. field. exact Hx.
  Qed.
End Frobenius.
Arguments fnat {K}.

(** *** the field of pairs *)
Section Pairs.
  Variable K : Fld.
  Add Field KFpairs : (Fth K).
  Open Scope fld_scope.
  Hypothesis M1 : ~ sq (- (1) : K).
  Definition gadd (x y : K * K) : K * K := (fst x + fst y, snd x + snd y).
  Definition gsub (x y : K * K) : K * K := (fst x - fst y, snd x - snd y).
  Definition gmul (x y : K * K) : K * K := (fst x * fst y - snd x * snd y, fst x * snd y + snd x * fst y).
  Definition gopp (x : K * K) : K * K := (- fst x, - snd x).
  Definition gnorm (x : K * K) : K := fst x * fst x + snd x * snd x.
  Definition ginv (x : K * K) : K * K := (fst x / gnorm x, - snd x / gnorm x).
  Definition gdiv (x y : K * K) : K * K := gmul x (ginv y).
  Definition gconj (x : K * K) : K * K := (fst x, - snd x).
  Lemma gnorm_nz x : x <> (0, 0) -> gnorm x <> 0.
  Proof.
    destruct x as [a b]. intros H E. cbn in *. unfold gnorm in E. cbn in E.
    destruct (Feqd b 0) as [->|Hb].
    - destruct (Feqd a 0) as [->|Ha]; [apply H; reflexivity|]. apply Ha, (Fsqr_zero K). rewrite <- E. ring.
    - apply M1. exists (a / b). transitivity ((a * a + b * b) / (b * b) - 1); [field; exact Hb|]. rewrite E. field. exact Hb.
  Qed.
  Lemma pair_field : field_theory (0, 0) (1, 0) gadd gmul gsub gopp gdiv ginv (@eq (K * K)).
  Proof.
    split.
    - split; intros; repeat match goal with x : prod _ _ |- _ => destruct x end; unfold gadd, gmul, gsub, gopp; cbn [fst snd];
        apply f_equal2; ring.
    - intro H. apply (F_1_neq_0 K). exact (f_equal fst H).
    - reflexivity.
    - intros [a b] H. apply gnorm_nz in H. unfold gmul, ginv. cbn [fst snd]. unfold gnorm in *. cbn [fst snd] in *.
      apply f_equal2; field; exact H.
  Qed.
  Lemma pair_eqd (x y : K * K) : {x = y} + {x <> y}.
  Proof. destruct x as [a b], y as [c d]. destruct (Feqd a c) as [->|N]; [destruct (Feqd b d) as [->|N]|]; [left; reflexivity|right|right]; congruence. Qed.
  Definition GF : Fld := mkFld (K * K) (0, 0) (1, 0) gadd gmul gsub gopp gdiv ginv pair_field pair_eqd.
  Add Field KFgf : (Fth GF).
  Definition gi : GF := (0, 1).
  Definition gre (a : K) : GF := (a, 0).
  Lemma gi_sq : gi * gi = - (1).
  Proof. change (gmul (0, 1) (0, 1) = gopp (1, 0)). unfold gmul, gopp. cbn [fst snd]. apply f_equal2; ring. Qed.
  Lemma gdecomp (x : GF) : x = gre (fst x) + gi * gre (snd x).
  Proof.
    destruct x as [a b]. change ((a, b) = gadd (a, 0) (gmul (0, 1) (b, 0))). unfold gadd, gmul. cbn [fst snd].
    apply f_equal2; ring.
  Qed.
  Lemma gre_mul a b : gre (a * b) = gre a * gre b.
  Proof. change ((a * b, 0) = gmul (a, 0) (b, 0)). unfold gmul. cbn [fst snd]. apply f_equal2; ring. Qed.
  Lemma gre_add a b : gre (a + b) = gre a + gre b.
  Proof. change ((a + b, 0) = gadd (a, 0) (b, 0)). unfold gadd. cbn [fst snd]. apply f_equal2; ring. Qed.
  Lemma gre_pow a n : gre (fpow a n) = fpow (gre a) n.
  Proof. induction n as [|n IH]; [reflexivity|]. cbn [fpow]. rewrite gre_mul, IH. reflexivity. Qed.
  Lemma gre_nat n : gre (fnat n) = fnat n.
  Proof. induction n as [|n IH]; [reflexivity|]. cbn [fnat]. rewrite gre_add, IH. reflexivity. Qed.
  Lemma gre_inj a b : gre a = gre b -> a = b. Proof. intro H. exact (f_equal fst H). Qed.
  Lemma gnorm_mul (x y : GF) : gnorm (x * y) = gnorm x * gnorm y.
  Proof. destruct x as [a b], y as [c d]. unfold gnorm. cbn. ring. Qed.
  Lemma gnorm_1 : gnorm (1 : GF) = 1. Proof. unfold gnorm. cbn. ring. Qed.
  Lemma gnorm_pow (x : GF) n : gnorm (fpow x n) = fpow (gnorm x) n.
  Proof. induction n as [|n IH]; [apply gnorm_1|]. cbn [fpow]. rewrite gnorm_mul, IH. reflexivity. Qed.
  Lemma gconj_mul (x : GF) : x * gconj x = gre (gnorm x).
  Proof. destruct x as [a b]. change (gmul (a, b) (a, - b) = (gnorm (a, b), 0)). unfold gmul, gnorm. cbn [fst snd]. apply f_equal2; ring. Qed.
  Lemma gconj_add (x y : GF) : gconj (x + y) = (gconj x : GF) + gconj y.
  Proof. destruct x as [a b], y as [c d]. change (gconj (gadd (a, b) (c, d)) = gadd (a, - b) (c, - d)). unfold gconj, gadd. cbn [fst snd]. apply f_equal2; ring. Qed.
  Variable k : nat.
  Hypothesis Hp : prime (Z.of_nat (4 * k + 3)).
  Hypothesis Hc : fnat (4 * k + 3) = (0 : K).
  Hypothesis Hf : forall a : K, fpow a (4 * k + 3) = a.
  Lemma gi_pow : fpow gi (4 * k + 3) = - gi.
  Proof.
    rewrite fpow_add. replace (4 * k)%nat with (2 * 2 * k)%nat by lia. rewrite !fpow_mul.
    replace (fpow (fpow gi 2) 2) with (1 : GF).
    - rewrite fpow_1_l. change (1 * (gi * (gi * (gi * 1))) = - gi). transitivity (gi * gi * gi); [ring|]. rewrite gi_sq. ring.
    - rewrite !fpow_2_r, gi_sq. ring.
  Qed.
  Lemma gfrob (x : GF) : fpow x (4 * k + 3) = gconj x.
  Proof.
    rewrite (gdecomp x) at 1. rewrite frob; [|exact Hp|rewrite <- gre_nat, Hc; reflexivity].
    rewrite fpow_mul_l, gi_pow, <- !gre_pow, !Hf. destruct x as [a b].
    change (gadd (a, 0) (gmul (gopp (0, 1)) (b, 0)) = (a, - b)). unfold gadd, gmul, gopp. cbn [fst snd].
    apply f_equal2; ring.
  Qed.

  (** the square root of the code with exact powers: c1 = k, c2 = 2k+1 *)
  Lemma gsqrt_ok (x : GF) : (exists y : GF, y * y = x) ->
    let a1 := fpow x k in let x0 := a1 * x in let alpha := a1 * x0 in
    (alpha + 1 = 0 -> (x0 * gi) * (x0 * gi) = x)
    /\ (alpha + 1 <> 0 -> (x0 * fpow (alpha + 1) (2 * k + 1)) * (x0 * fpow (alpha + 1) (2 * k + 1)) = x).
  Proof.
    intros [y Ey] a1 x0 alpha.
    assert (X : x0 * x0 = alpha * x) by (unfold alpha, x0; ring).
    assert (A : alpha = fpow x (2 * k + 1)).
    { unfold alpha, x0, a1. rewrite fpow_add. replace (2 * k)%nat with (k + k)%nat by lia. rewrite fpow_add, fpow_1_r. ring. }
    split; intro T.
    - transitivity (x0 * x0 * (gi * gi)); [ring|]. rewrite X, gi_sq.
      transitivity (x - (alpha + 1) * x); [ring|]. rewrite T. ring.
    - transitivity (x0 * x0 * (fpow (alpha + 1) (2 * k + 1) * fpow (alpha + 1) (2 * k + 1))); [ring|].
      rewrite <- fpow_add, X.
      destruct (Feqd x 0) as [->|Hx]; [ring|].
      assert (N : gnorm alpha = 1).
      { rewrite A, gnorm_pow, <- Ey, gnorm_mul. transitivity (fpow (fpow (gnorm y) 2) (2 * k + 1)); [rewrite fpow_2_r; reflexivity|].
        rewrite <- fpow_mul.
        assert (Y : gnorm y <> 0). { apply gnorm_nz. intro E. apply Hx. rewrite <- Ey. rewrite E. change (gmul (0, 0) (0, 0) = (0, 0)). unfold gmul. cbn [fst snd]. apply f_equal2; ring. }
        apply (Fcancel_l K (gnorm y)); [exact Y|].
        replace (gnorm y * fpow (gnorm y) (2 * (2 * k + 1))) with (fpow (gnorm y) (S (2 * (2 * k + 1)))) by reflexivity.
        replace (S (2 * (2 * k + 1))) with (4 * k + 3)%nat by lia. rewrite Hf. ring. }
      assert (Q : fpow (alpha + 1) (2 * k + 1 + (2 * k + 1)) * (alpha + 1) = gconj (alpha + 1)).
      { rewrite <- gfrob. replace (4 * k + 3)%nat with (S (2 * k + 1 + (2 * k + 1))) by lia. cbn [fpow]. ring. }
      assert (C : gconj (alpha + 1) = (gconj alpha : GF) + 1).
      { rewrite gconj_add. f_equal. change ((1, - (0)) = (1, 0) :> K * K). apply f_equal2; ring. }
      apply (Fcancel_l GF (alpha + 1)); [exact T|].
      transitivity (alpha * x * (fpow (alpha + 1) (2 * k + 1 + (2 * k + 1)) * (alpha + 1))); [ring|].
      rewrite Q, C. transitivity (x * (alpha * gconj alpha) + alpha * x); [ring|].
      rewrite gconj_mul, N. change (gre 1) with (1 : GF). ring.
  Qed.
End Pairs.
