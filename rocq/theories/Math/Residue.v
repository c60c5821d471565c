(** Fermat, Euler's criterion and square roots in Z/p. *)
From Coq Require Import ZArith Znumtheory Zpow_facts Lia List Ring Field.
From Verif.Math Require Import Fld Pow Zp.
Import ListNotations.
Open Scope Z_scope.

Lemma zv_fpow p (Hp : prime p) (x : ZpF p Hp) n : zv (fpow x n) = zv x ^ Z.of_nat n mod p.
Proof.
  induction n as [|n IH]; [reflexivity|].
  cbn [fpow]. change (zv (fpow x (S n))) with ((zv x * zv (fpow x n)) mod p).
  change (zv (x * fpow x n)%F) with ((zv x * zv (fpow x n)) mod p).
  rewrite IH, Zmult_mod_idemp_r, Nat2Z.inj_succ, Z.pow_succ_r by lia. reflexivity.
Qed.

Lemma fpow_of_Z p (Hp : prime p) (x : ZpF p Hp) e : 0 <= e ->
  fpow x (Z.to_nat e) = of_Z p (zv x ^ e).
Proof.
  intro. apply Zp_eq. rewrite zv_fpow, zv_of_Z, Z2Nat.id by assumption. reflexivity.
Qed.

Section Res.
  Variable p : Z.
  Hypothesis Hp : prime p.
  Local Notation K := (ZpF p Hp).
  Add Field KFr : (Fth K).
  Open Scope fld_scope.

  Lemma p_pos : (1 < p)%Z. Proof. destruct Hp; assumption. Qed.

  Lemma zv_nz (x : K) : x <> 0 <-> (zv x <> 0)%Z.
  Proof.
    split; intros H E; apply H.
    - apply Zp_eq. rewrite E. reflexivity.
    - rewrite E. reflexivity.
  Qed.

  Lemma fermatK (x : K) : x <> 0 -> fpow x (Z.to_nat (p - 1)) = 1.
  Proof.
    intro Hx. pose proof p_pos. rewrite fpow_of_Z by lia. apply of_Z_eq.
    rewrite (Z.mod_1_l p) by lia. apply fermat; [exact Hp|].
    intro D. apply Hx. rewrite <- (of_Z_zv p x). apply of_Z_zero; [lia|exact D].
  Qed.

  Definition is_sq (x : K) : Prop := exists y : K, y * y = x.

  Lemma is_sq_mul x y : is_sq x -> is_sq y -> is_sq (x * y).
  Proof. intros [a <-] [b <-]. exists (a * b). ring. Qed.
  Lemma is_sq_sqr x : is_sq (x * x). Proof. exists x. reflexivity. Qed.
  Lemma is_sq_0 : is_sq 0. Proof. exists 0. ring. Qed.
  Lemma is_sq_1 : is_sq 1. Proof. exists 1. ring. Qed.

  (** *** odd p *)
  Hypothesis p_odd : p <> 2%Z.

  Lemma p_half : exists m : nat, Z.to_nat (p - 1) = (2 * m)%nat /\ (0 < m)%nat
    /\ Z.of_nat m = ((p - 1) / 2)%Z /\ p = (2 * Z.of_nat m + 1)%Z.
  Proof.
    pose proof p_pos as H1.
    assert (Ho : (p mod 2 = 1)%Z).
    { pose proof (Z.mod_pos_bound p 2 ltac:(lia)).
      assert (p mod 2 <> 0)%Z; [|lia]. intro E. apply Zmod_divide in E; [|lia].
      apply prime_divisors in E; [lia|exact Hp]. }
    exists (Z.to_nat ((p - 1) / 2)).
    pose proof (Z.div_mod p 2 ltac:(lia)).
    assert ((p - 1) / 2 = p / 2)%Z as ->.
    { symmetry; apply Z.div_unique with 0%Z; lia. }
    assert (0 <= p / 2)%Z by (apply Z.div_pos; lia).
    repeat split; lia.
  Qed.

  Definition half : nat := Z.to_nat ((p - 1) / 2).
  Lemma half_spec : Z.to_nat (p - 1) = (2 * half)%nat /\ (0 < half)%nat
     /\ p = (2 * Z.of_nat half + 1)%Z.
  Proof.
    destruct p_half as (m & H1 & H2 & H3 & H4).
    assert (half = m) as -> by (unfold half; lia). auto.
  Qed.

  Lemma two_nz : (2 : K) <> 0.
  Proof.
    pose proof p_pos. intro E. change (2 : K) with (zadd (of_Z p 1) (of_Z p 1)) in E.
    rewrite <- of_Z_add in E. apply of_Z_zero in E; [|lia].
    apply Z.divide_pos_le in E; lia.
  Qed.

  Lemma one_neq_opp1 : (1 : K) <> - (1).
  Proof.
    intro E. apply two_nz. transitivity ((1 : K) - - (1)); [ring|]. rewrite <- E. ring.
  Qed.

  Lemma half_sqr (x : K) : x <> 0 -> fpow x half = 1 \/ fpow x half = - (1).
  Proof.
    intro Hx. apply Fsqr_eq. rewrite <- (fpow_2_r K), <- fpow_mul.
    destruct half_spec as (E & _). rewrite Nat.mul_comm, <- E, fermatK by exact Hx. ring.
  Qed.

  Definition sq_list : list K := map (fun n => let z := of_Z p (Z.of_nat n) : K in z * z) (seq 1 half).

  Lemma nodup_sq_list : NoDup sq_list.
  Proof.
    destruct half_spec as (_ & _ & Ep). pose proof p_pos.
    unfold sq_list.
    assert (I : forall i j, In i (seq 1 half) -> In j (seq 1 half) ->
      (let z := of_Z p (Z.of_nat i) : K in z * z) = (let z := of_Z p (Z.of_nat j) : K in z * z) -> i = j).
    { intros i j Hi Hj E. apply in_seq in Hi, Hj. cbn zeta in E.
      apply Fsqr_eq in E. destruct E as [E|E].
      - apply of_Z_eq in E. rewrite !Z.mod_small in E by lia. lia.
      - exfalso. assert (E' : (of_Z p (Z.of_nat i) : K) + (of_Z p (Z.of_nat j) : K) = 0)
          by (rewrite E; ring).
        change (zadd (of_Z p (Z.of_nat i)) (of_Z p (Z.of_nat j)) = of_Z p 0) in E'.
        rewrite <- of_Z_add in E'.
        apply of_Z_zero in E'; [|lia]. apply Z.divide_pos_le in E'; lia. }
    revert I. generalize (seq_NoDup half 1). generalize (seq 1 half) as l. intro l.
    induction 1 as [|x l Hx Hl IH]; intros I; [constructor|].
    cbn [map]. constructor.
    - rewrite in_map_iff. intros (y & E & Hy). apply Hx.
      rewrite <- (I y x); [exact Hy|right; exact Hy|left; reflexivity|exact E].
    - apply IH. intros i j Hi Hj. apply I; right; assumption.
  Qed.

  Lemma sq_list_sq x : In x sq_list -> is_sq x /\ x <> 0.
  Proof.
    destruct half_spec as (_ & _ & Ep).
    unfold sq_list. rewrite in_map_iff. intros (n & <- & Hn). apply in_seq in Hn. split.
    - cbn zeta. apply is_sq_sqr.
    - cbn zeta. assert (N : (of_Z p (Z.of_nat n) : K) <> 0).
      { intro E. change (0 : K) with (of_Z p 0) in E. apply of_Z_zero in E; [|lia].
        apply Z.divide_pos_le in E; lia. }
      apply Fmul_nonzero; exact N.
  Qed.

  Lemma sq_half (x : K) : is_sq x -> x <> 0 -> fpow x half = 1.
  Proof.
    intros [y <-] Hx. rewrite <- (fpow_2_r K), <- fpow_mul. destruct half_spec as (E & _).
    rewrite <- E. apply fermatK. intro Hy. apply Hx. rewrite Hy. ring.
  Qed.

  Theorem euler (x : K) : x <> 0 -> (fpow x half = 1 <-> is_sq x).
  Proof.
    intro Hx. split; [|intro; apply sq_half; assumption].
    intro E. destruct (in_dec Feqd x sq_list) as [I|I]; [apply sq_list_sq, I|exfalso].
    destruct half_spec as (_ & Hh & _).
    assert (L : (length (x :: sq_list) <= half)%nat).
    { apply (roots_of_unity K); [exact Hh|constructor; [exact I|apply nodup_sq_list]|].
      intros r [<-|Hr]; [exact E|]. apply sq_list_sq in Hr. apply sq_half; tauto. }
    cbn in L. unfold sq_list in L. rewrite map_length, seq_length in L. lia.
  Qed.

  Lemma is_sq_dec (x : K) : {is_sq x} + {~ is_sq x}.
  Proof.
    destruct (Feqd x 0) as [->|Hx]; [left; apply is_sq_0|].
    destruct (Feqd (fpow x half) 1) as [E|E]; [left|right]; rewrite <- (euler x Hx); assumption.
  Qed.

  Lemma nonsq_half (x : K) : ~ is_sq x -> fpow x half = - (1).
  Proof.
    intro N. assert (Hx : x <> 0) by (intros ->; apply N, is_sq_0).
    destruct (half_sqr x Hx) as [E|E]; [|exact E]. exfalso. apply N, euler; assumption.
  Qed.

  Lemma nonsq_mul_nonsq (x y : K) : ~ is_sq x -> ~ is_sq y -> is_sq (x * y).
  Proof.
    intros Nx Ny.
    assert (Hx : x <> 0) by (intros ->; apply Nx, is_sq_0).
    assert (Hy : y <> 0) by (intros ->; apply Ny, is_sq_0).
    apply euler; [apply Fmul_nonzero; assumption|].
    rewrite fpow_mul_l, !nonsq_half by assumption. ring.
  Qed.

  Lemma nonsq_mul_sq (x y : K) : ~ is_sq x -> is_sq y -> y <> 0 -> ~ is_sq (x * y).
  Proof.
    intros Nx Sy Hy S.
    assert (Hx : x <> 0) by (intros ->; apply Nx, is_sq_0).
    apply Nx. apply euler; [exact Hx|].
    apply euler in S; [|apply Fmul_nonzero; assumption].
    apply euler in Sy; [|exact Hy]. rewrite fpow_mul_l, Sy in S.
    rewrite <- S. ring.
  Qed.

  Lemma sq_div_sq (x y : K) : is_sq (x * y) -> is_sq y -> y <> 0 -> is_sq x.
  Proof.
    intros S Sy Hy. destruct (is_sq_dec x) as [|N]; [assumption|].
    exfalso. exact (nonsq_mul_sq x y N Sy Hy S).
  Qed.

  (** *** square roots *)
  Lemma fpow_exp_eq (x : K) m n : m = n -> fpow x m = fpow x n. Proof. congruence. Qed.

  (** p = 3 mod 4 *)
  Theorem sqrt_3mod4 (x : K) : (p mod 4 = 3)%Z -> is_sq x ->
    let y := fpow x (Z.to_nat ((p + 1) / 4)) in y * y = x.
  Proof.
    intros H4 S. cbn zeta.
    destruct (Feqd x 0) as [->|Hx].
    { rewrite fpow_0_l; [ring|]. pose proof (Z.div_mod (p + 1) 4 ltac:(lia)).
      pose proof (Z.mod_pos_bound (p + 1) 4 ltac:(lia)). pose proof p_pos. lia. }
    rewrite <- fpow_add. destruct half_spec as (_ & _ & Ep).
    transitivity (fpow x (1 + half)%nat).
    - apply fpow_exp_eq.
      pose proof (Z.div_mod p 4 ltac:(lia)) as D.
      assert ((p + 1) / 4 = p / 4 + 1)%Z by (symmetry; apply Z.div_unique with 0%Z; lia). lia.
    - rewrite fpow_add, (proj2 (euler x Hx) S), fpow_1_r. ring.
  Qed.

  Lemma neg1_nonsq : (p mod 4 = 3)%Z -> ~ is_sq (- (1)).
  Proof.
    intros H4 S.
    assert (N : (- (1) : K) <> 0).
    { intro E. apply (F_1_neq_0 K), Fopp_zero, E. }
    apply euler in S; [|exact N].
    destruct half_spec as (_ & _ & Ep).
    pose proof (Z.div_mod p 4 ltac:(lia)) as D.
    rewrite (fpow_exp_eq _ half (2 * Z.to_nat (p / 4) + 1)) in S by lia.
    rewrite fpow_opp1_odd in S. apply one_neq_opp1. symmetry. exact S.
  Qed.

  (** p = 5 mod 8: a root of -1 *)
  Section P5.
    Hypothesis H8 : (p mod 8 = 5)%Z.
    Let k := Z.to_nat ((p - 5) / 8).

    Lemma k_spec : p = (8 * Z.of_nat k + 5)%Z.
    Proof.
      pose proof (Z.div_mod p 8 ltac:(lia)). pose proof p_pos.
      assert ((p - 5) / 8 = p / 8)%Z as E by (symmetry; apply Z.div_unique with 0%Z; lia).
      unfold k. rewrite E. assert (0 <= p / 8)%Z by (apply Z.div_pos; lia). lia.
    Qed.

    Lemma half_k : half = (4 * k + 2)%nat.
    Proof. destruct half_spec as (_ & _ & E). pose proof k_spec. lia. Qed.

    Lemma neg1_sq : is_sq (- (1)).
    Proof.
      apply euler.
      - intro E. apply (F_1_neq_0 K), Fopp_zero, E.
      - rewrite half_k. replace (4 * k + 2)%nat with (2 * (2 * k + 1))%nat by lia.
        rewrite fpow_mul, fpow_2_r. replace (- (1) * - (1) : K) with (1 : K) by ring. apply fpow_1_l.
    Qed.

    Lemma two_nonsq : ~ is_sq 2.
    Proof.
      intros [s Hs]. destruct neg1_sq as [i Hi].
      (* i = ((1+i)/s)^2 *)
      assert (Hs0 : s <> 0) by (intros ->; apply two_nz; rewrite <- Hs; ring).
      pose (t := (1 + i) / s).
      assert (Ht : t * t = i).
      { transitivity ((1 + i) * (1 + i) / (s * s)); [unfold t; field; exact Hs0|].
        rewrite Hs. transitivity ((1 + 2 * i + i * i) / 2); [field; exact two_nz|].
        rewrite Hi. field. exact two_nz. }
      assert (Ht0 : t <> 0).
      { intro E. apply (F_1_neq_0 K). apply Fopp_zero. rewrite <- Hi, <- Ht, E. ring. }
      pose proof (fermatK t Ht0) as F. destruct half_spec as (E & _). rewrite E, half_k in F.
      replace (2 * (4 * k + 2))%nat with (4 * (2 * k + 1))%nat in F by lia.
      rewrite fpow_mul in F.
      replace (fpow t 4) with (- (1) : K) in F.
      - rewrite fpow_opp1_odd in F. apply one_neq_opp1. symmetry. exact F.
      - rewrite <- Hi, <- Ht. cbn [fpow]. ring.
    Qed.

    (** the constant of the code: t = 2^k, (2 t^2 + 1) t squares to -1 *)
    Lemma sqrt_m1 : let t := fpow (2 : K) k in
      let c := (t * t + t * t + 1) * t in c * c = - (1).
    Proof.
      cbn zeta. set (t := fpow (2 : K) k).
      pose proof (nonsq_half 2 two_nonsq) as H. rewrite half_k in H.
      replace (4 * k + 2)%nat with (k + k + k + k + 2)%nat in H by lia.
      rewrite !fpow_add, fpow_2_r in H. fold t in H.
      transitivity (t * t * (2 * 2 * (t * t * (t * t)) + 1) + 2 * 2 * t * t * (t * t)); [ring|].
      replace (2 * 2 * (t * t * (t * t))) with (- (1) : K) by (rewrite <- H; ring).
      transitivity (2 * 2 * (t * t * (t * t))); [ring|]. rewrite <- H. ring.
    Qed.

    Lemma sqrt_5mod8_t0 (x : K) : is_sq x ->
      let t0 := fpow x (Z.to_nat ((p - 5) / 8 + 1)) in t0 * t0 = x \/ t0 * t0 = - x.
    Proof.
      intros S. cbn zeta. pose proof k_spec as Ek.
      assert (0 <= (p - 5) / 8)%Z by (apply Z.div_pos; lia).
      replace (Z.to_nat ((p - 5) / 8 + 1)) with (k + 1)%nat by (unfold k; lia).
      destruct (Feqd x 0) as [->|Hx].
      { left. rewrite fpow_0_l by lia. ring. }
      rewrite <- fpow_add. replace (k + 1 + (k + 1))%nat with (1 + (2 * k + 1))%nat by lia.
      rewrite fpow_add, fpow_1_r.
      apply (proj2 (euler x Hx)) in S. rewrite half_k in S.
      replace (4 * k + 2)%nat with ((2 * k + 1) * 2)%nat in S by lia.
      rewrite fpow_mul, fpow_2_r in S.
      assert (E : fpow x (2 * k + 1) = 1 \/ fpow x (2 * k + 1) = - (1)).
      { apply Fsqr_eq. rewrite S. ring. }
      destruct E as [E|E]; rewrite E; [left|right]; ring.
    Qed.
  End P5.
End Res.
