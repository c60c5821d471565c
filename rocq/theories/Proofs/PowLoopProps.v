(** C68: the power loop and the square root of Fp2, were Fp2Elt::one() to return the field's one. *)
From Coq Require Import ZArith Znumtheory Lia String Bool List Ring Field.
From Verif.Math Require Import Fld Pow Zp Residue Quad Gauss Limb Pock Prime_p256 Prime_p384 Prime_p521 Prime_p448 Prime_pbls Prime_psecp.
From Verif.Spec Require Import Arith Elements Gauss.
From Verif.Spec Require Instances.
From Verif.Model Require Import Out BigInt PrimeField QuadField.
From Verif.Proofs Require Import FieldP FieldProps BytesP QuadProps.
Import ListNotations.
Open Scope Z_scope.

(** *** powers of Gaussian integers *)
Definition zgmul (z w : Z * Z) : Z * Z := (fst z * fst w - snd z * snd w, fst z * snd w + snd z * fst w).
Lemma gpow_S z n : gpow z (S n) = zgmul z (gpow z n). Proof. reflexivity. Qed.
Lemma zgmul_1 z : zgmul (1, 0) z = z.
Proof. destruct z as [a b]. unfold zgmul. cbn [fst snd]. apply f_equal2; ring. Qed.
Lemma zgmul_assoc x y z : zgmul x (zgmul y z) = zgmul (zgmul x y) z.
Proof. unfold zgmul. cbn [fst snd]. apply f_equal2; ring. Qed.
Lemma gpow_add z m n : gpow z (m + n) = zgmul (gpow z m) (gpow z n).
Proof.
  induction m as [|m IH]; [symmetry; apply zgmul_1|]. cbn [Nat.add]. rewrite !gpow_S, IH. apply zgmul_assoc.
Qed.
Lemma gpow_1 z : gpow z 1 = z.
Proof. destruct z as [a b]. cbn [gpow fst snd]. apply f_equal2; ring. Qed.

Section Loop.
  Variable p : Z.
  Hypothesis Hp : 0 < p.
  Definition gz (z : Z * Z) : Fp2Elt := ge p (of_Z p (fst z)) (of_Z p (snd z)).
  Lemma mul2_gz z w : mul2 (gz z) (gz w) = Ret (gz (zgmul z w)).
  Proof. unfold gz, zgmul. rewrite mul2_ge by exact Hp. cbn [fst snd]. rewrite <- !of_Z_mul, <- of_Z_sub, <- of_Z_add. reflexivity. Qed.
  Lemma gz_gval x : valid2 p x -> x = gz (gval x). Proof. apply valid2_ex. Qed.
  Definition gzpow z (e : Z) : Fp2Elt := gz (gpow z (Z.to_nat e)).
  Lemma pow_bits_gz z j : forall vi m, 0 <= vi -> 0 <= m ->
    pow_bits j vi (gz z) (gzpow z m) = Ret (gzpow z (m * 2 ^ Z.of_nat j + vi mod 2 ^ Z.of_nat j)).
  Proof.
    induction j as [|j IH]; intros vi m Hv Hm.
    - cbn [pow_bits]. change (2 ^ Z.of_nat 0) with 1. rewrite Z.mod_1_r. do 2 f_equal. lia.
    - cbn [pow_bits]. unfold gzpow at 1 2. rewrite mul2_gz, <- gpow_add. cbn [bind].
      rewrite <- Z2Nat.inj_add by lia. fold (gzpow z (m + m)).
      assert (T : Z.land (Z.shiftr vi (Z.of_nat j)) 1 = (vi / 2 ^ Z.of_nat j) mod 2).
      { rewrite Z.shiftr_div_pow2 by lia. change 1 with (Z.ones 1) at 1. rewrite Z.land_ones by lia. reflexivity. }
      rewrite T. assert (P : 0 < 2 ^ Z.of_nat j) by (apply Z.pow_pos_nonneg; lia).
      assert (E : vi mod 2 ^ Z.of_nat (S j) = 2 ^ Z.of_nat j * ((vi / 2 ^ Z.of_nat j) mod 2) + vi mod 2 ^ Z.of_nat j).
      { rewrite Nat2Z.inj_succ, Z.pow_succ_r by lia. rewrite (Z.mul_comm 2), Z.rem_mul_r by lia. lia. }
      rewrite E. rewrite Nat2Z.inj_succ, Z.pow_succ_r by lia.
      pose proof (Z.mod_pos_bound (vi / 2 ^ Z.of_nat j) 2 ltac:(lia)) as B.
      destruct (Z.eqb_spec ((vi / 2 ^ Z.of_nat j) mod 2) 1) as [->|N].
      + unfold gzpow at 1. rewrite mul2_gz. cbn [bind].
        replace (zgmul (gpow z (Z.to_nat (m + m))) z) with (gpow z (Z.to_nat (2 * m + 1))).
        2: { rewrite <- (gpow_1 z) at 3. rewrite <- gpow_add. f_equal. lia. }
        fold (gzpow z (2 * m + 1)). rewrite IH by lia. do 2 f_equal. ring.
      + cbn [bind]. rewrite IH by lia. do 2 f_equal. replace ((vi / 2 ^ Z.of_nat j) mod 2) with 0 by lia. ring.
  Qed.
  Lemma pow_words_gz z l : forall m, Forall (fun v => 0 <= v) l -> 0 <= m ->
    pow_words l (gz z) (gzpow z m) = Ret (gzpow z (fold_left (fun m v => m * 2 ^ 31 + v mod 2 ^ 31) l m)).
  Proof.
    induction l as [|v l IH]; intros m Hl Hm; [reflexivity|]. inversion Hl; subst. cbn [pow_words fold_left].
    rewrite pow_bits_gz by assumption. cbn [bind]. change (Z.of_nat 31) with 31. apply IH; [assumption|].
    pose proof (Z.mod_pos_bound v (2 ^ 31) ltac:(lia)). lia.
  Qed.
  Lemma is_power_gz x e r : valid2 p x -> is_power p x e r <-> r = gzpow (gval x) e.
  Proof.
    intro V. unfold is_power, gzpow. generalize (gpow (gval x) (Z.to_nat e)). intros [a b]. cbn [fst snd]. split.
    - intros (W & [Ra Da] & [Rb Db]). rewrite (gz_gval r W). unfold gz, gval. cbn [fst snd]. f_equal; apply of_Z_eq.
      + symmetry. apply divide_mod_eq; [lia|exact Da].
      + symmetry. apply divide_mod_eq; [lia|exact Db].
    - intros ->. split; [apply valid2_ge, Hp|]. unfold gz. cbn [re im ge fe val fst snd].
      split; apply mod_residue; exact Hp.
  Qed.
  Lemma one2_gz z : one2 (fp2_new p) = Ret (gzpow z 0).
  Proof. unfold one2. apply elt2_ge, Hp. Qed.
End Loop.

(** *** the exponent the loop uses *)
Definition keep (l : list Z) : Z := fold_right (fun v acc => v mod 2 ^ 31 + 2 ^ 31 * acc) 0 l.
Lemma keep_nonneg l : 0 <= keep l.
Proof. induction l as [|v l IH]; [reflexivity|]. cbn [keep fold_right]. fold (keep l). pose proof (Z.mod_pos_bound v (2 ^ 31) ltac:(lia)). lia. Qed.
Lemma keep_rev l : fold_left (fun m v => m * 2 ^ 31 + v mod 2 ^ 31) (rev l) 0 = keep l.
Proof.
  rewrite <- fold_left_rev_right, rev_involutive. unfold keep. induction l as [|v l IH]; [reflexivity|].
  cbn [fold_right]. rewrite IH. ring.
Qed.
Lemma lval_nonneg l : Forall (fun d => 0 <= d < 2 ^ 32) l -> 0 <= lval (2 ^ 32) l.
Proof.
  induction l as [|v l IH]; intro H; [reflexivity|]. inversion H as [|? ? Hv Hl]; subst. specialize (IH Hl).
  cbn [lval fold_right]. fold (lval (2 ^ 32) l). lia.
Qed.
Lemma testbit_low a b w n : 0 <= a < 2 ^ w -> 0 <= n < w -> Z.testbit (a + 2 ^ w * b) n = Z.testbit a n.
Proof.
  intros Ha Hn. rewrite <- (Z.mod_pow2_bits_low (a + 2 ^ w * b) w n) by lia. f_equal.
  rewrite Z.mul_comm, Z.mod_add by lia. apply Z.mod_small, Ha.
Qed.
Lemma testbit_high a b w n : 0 <= a < 2 ^ w -> 0 <= w <= n -> Z.testbit (a + 2 ^ w * b) n = Z.testbit b (n - w).
Proof.
  intros Ha Hn. replace n with ((n - w) + w) at 1 by lia. rewrite <- Z.div_pow2_bits by lia. f_equal.
  rewrite Z.mul_comm, Z.div_add by lia. rewrite Z.div_small by exact Ha. reflexivity.
Qed.
Lemma keep_bits l : Forall (fun d => 0 <= d < 2 ^ 32) l -> forall n, 0 <= n ->
  Z.testbit (keep l) n = Z.testbit (lval (2 ^ 32) l) (n + n / 31).
Proof.
  induction l as [|v l IH]; intros H n Hn; [rewrite !Z.bits_0; reflexivity|].
  inversion H as [|? ? Hv Hl]; subst. cbn [keep lval fold_right]. fold (keep l). fold (lval (2 ^ 32) l).
  pose proof (Z.mod_pos_bound v (2 ^ 31) ltac:(lia)) as B.
  pose proof (Z.div_mod n 31 ltac:(lia)) as D. pose proof (Z.mod_pos_bound n 31 ltac:(lia)) as M.
  destruct (Z.lt_ge_cases n 31) as [L|L].
  - rewrite testbit_low by lia. rewrite Z.div_small by lia. rewrite Z.add_0_r.
    rewrite testbit_low by lia. apply Z.mod_pow2_bits_low. lia.
  - rewrite testbit_high by lia. rewrite IH by (assumption || lia).
    assert (Q : n / 31 = (n - 31) / 31 + 1) by (rewrite <- Z.div_add by lia; f_equal; lia). rewrite Q.
    assert (0 <= (n - 31) / 31) by (apply Z.div_pos; lia).
    rewrite testbit_high by lia. f_equal. lia.
Qed.
Lemma keep_digits e : 0 <= e -> skips_top_bits e (keep (to_u32_digits e)).
Proof.
  intro He. split; [apply keep_nonneg|]. intros n Hn. unfold to_u32_digits. rewrite Z.abs_eq by exact He.
  rewrite keep_bits; [|apply digits_range; lia|exact Hn]. rewrite digits_value by lia. reflexivity.
Qed.
Lemma skips_unique e k k' : skips_top_bits e k -> skips_top_bits e k' -> k = k'.
Proof. intros [_ A] [_ B]. apply Z.bits_inj'. intros n Hn. rewrite A, B by exact Hn. reflexivity. Qed.

(** what the loop computes, from the field's one: x to the exponent with the top bit of every word skipped *)
Lemma c68_power_loop : forall p x e, 0 < p -> valid2 p x -> 0 <= e ->
  exists o k r, one2 (fp2_new p) = Ret o /\ skips_top_bits e k
    /\ pow_biguint2_from (Ret o) x e = Ret r /\ pow_bigint2_from (Ret o) x e = Ret r /\ is_power p x k r.
Proof.
  intros p x e Hp V He. exists (gzpow p (gval x) 0), (keep (to_u32_digits e)), (gzpow p (gval x) (keep (to_u32_digits e))).
  assert (W : pow_biguint2_from (Ret (gzpow p (gval x) 0)) x e = Ret (gzpow p (gval x) (keep (to_u32_digits e)))).
  { unfold pow_biguint2_from. cbn [bind]. rewrite (gz_gval p x V) at 1. rewrite pow_words_gz; [|exact Hp| |lia].
    - rewrite keep_rev. reflexivity.
    - apply Forall_rev. unfold to_u32_digits. eapply Forall_impl; [|apply digits_range; lia]. cbn. intros. lia. }
  split; [apply one2_gz, Hp|]. split; [apply keep_digits, He|]. split; [exact W|]. split.
  - unfold pow_bigint2_from. destruct (Z.ltb_spec e 0); [lia|exact W].
  - apply is_power_gz; [exact Hp|exact V|reflexivity].
Qed.
(** that exponent is the right one exactly below 2^31 *)
Lemma c68_exponent_right_iff : forall e k, 0 <= e -> skips_top_bits e k -> (k = e <-> e < 2 ^ 31).
Proof.
  intros e k He [Hk B]. split.
  - intros ->. destruct (Z.lt_ge_cases e (2 ^ 31)) as [L|L]; [exact L|exfalso].
    assert (L2 : 31 <= Z.log2 e) by (apply Z.log2_le_pow2; lia).
    assert (1 <= Z.log2 e / 31) by (apply Z.div_le_lower_bound; lia).
    specialize (B (Z.log2 e) ltac:(lia)). rewrite Z.bit_log2 in B by lia. rewrite Z.bits_above_log2 in B by lia. discriminate.
  - intro L. apply Z.bits_inj'. intros n Hn. rewrite B by exact Hn.
    destruct (Z.lt_ge_cases n 31) as [N|N]; [rewrite Z.div_small by lia; rewrite Z.add_0_r; reflexivity|].
    assert (0 <= n / 31) by (apply Z.div_pos; lia).
    destruct (Z.eq_dec e 0) as [->|E0]; [rewrite !Z.bits_0; reflexivity|].
    assert (Z.log2 e < 31) by (apply Z.log2_lt_pow2; lia).
    rewrite !Z.bits_above_log2 by lia. reflexivity.
Qed.

(** *** the square root *)
Section K0.
  Variable K : Fld.
  Add Field KFk0 : (Fth K).
  Lemma Fmul0K (a : K) : Fmul F0 a = F0. Proof. ring. Qed.
  Lemma Fmul1K (a : K) : Fmul a F1 = a. Proof. ring. Qed.
  Lemma gsqr_pair (M : ~ sq (Fopp F1 : K)) (c d : K) :
    Fmul ((c, d) : GF K M) (c, d) = (Fsub (Fmul c c) (Fmul d d), Fmul (Fmul (Fadd F1 F1) c) d).
  Proof. change (gmul K (c, d) (c, d) = (Fsub (Fmul c c) (Fmul d d), Fmul (Fmul (Fadd F1 F1) c) d)). unfold gmul. cbn [fst snd]. apply f_equal2; ring. Qed.
End K0.
Section Root.
  Variable p : Z.
  Hypothesis Hp : prime p.
  Hypothesis H4 : p mod 4 = 3.
  Notation K := (ZpF p Hp).
  Lemma m1K : ~ sq (Fopp F1 : K). Proof. exact (neg1_nonsq p Hp (p_not2 p Hp H4) H4). Qed.
  Notation G := (GF K m1K).
  Definition gg (X : G) : Fp2Elt := ge p (fst X) (snd X).
  Lemma p0 : 0 < p. Proof. pose proof (pgt1 p Hp). lia. Qed.
  Lemma mul2_gg (X Y : G) : mul2 (gg X) (gg Y) = Ret (gg (Fmul X Y)).
  Proof. exact (mul2_ge p p0 _ _ _ _). Qed.
  Lemma add2_gg (X Y : G) : add2 (gg X) (gg Y) = Ret (gg (Fadd X Y)).
  Proof. exact (add2_ge p p0 _ _ _ _). Qed.
  Lemma one2_gg : one2 (fp2_new p) = Ret (gg F1).
  Proof. exact (elt2_ge p p0 1). Qed.
  Lemma gg_inj (X Y : G) : gg X = gg Y -> X = Y.
  Proof.
    destruct X as [a b], Y as [c d]. unfold gg. cbn [fst snd]. intro E. apply f_equal2.
    - apply (fe_inj p). exact (f_equal re E).
    - apply (fe_inj p). exact (f_equal im E).
  Qed.
  Lemma is_zero2_gg (X : G) : is_zero2 (gg X) = true <-> X = F0.
  Proof.
    destruct X as [a b]. unfold is_zero2, is_zero. cbn [gg re im ge fe val fst snd]. rewrite andb_true_iff, !Z.eqb_eq. split.
    - intros [A B]. apply f_equal2; apply Zp_eq; [rewrite A|rewrite B]; reflexivity.
    - intro E. assert (A : a = of_Z p 0) by exact (f_equal fst E). assert (B : b = of_Z p 0) by exact (f_equal snd E).
      rewrite A, B. split; reflexivity.
  Qed.
  Definition gpz (z : Z * Z) : G := (of_Z p (fst z), of_Z p (snd z)).
  Lemma gpz_mul z w : gpz (zgmul z w) = Fmul (gpz z) (gpz w).
  Proof.
    change (gpz (zgmul z w) = (zsub (zmul (of_Z p (fst z)) (of_Z p (fst w))) (zmul (of_Z p (snd z)) (of_Z p (snd w))),
      zadd (zmul (of_Z p (fst z)) (of_Z p (snd w))) (zmul (of_Z p (snd z)) (of_Z p (fst w)))) :> G).
    unfold gpz, zgmul. cbn [fst snd]. rewrite of_Z_sub, of_Z_add, !of_Z_mul. reflexivity.
  Qed.
  Lemma gpz_pow z n : gpz (gpow z n) = fpow (gpz z) n.
  Proof. induction n as [|n IH]; [reflexivity|]. rewrite gpow_S, gpz_mul, IH. reflexivity. Qed.
  Lemma gzpow_gg (X : G) e : gzpow p (gval (gg X)) e = gg (fpow X (Z.to_nat e)).
  Proof.
    unfold gzpow. change (gz p (gpow (gval (gg X)) (Z.to_nat e))) with (gg (gpz (gpow (gval (gg X)) (Z.to_nat e)))).
    rewrite gpz_pow. f_equal. f_equal. destruct X as [a b]. unfold gpz, gval. cbn [gg re im ge fe val fst snd].
    apply f_equal2; apply of_Z_zv.
  Qed.
  Lemma fnatK n : fnat n = (of_Z p (Z.of_nat n) : K).
  Proof.
    induction n as [|n IH]; [reflexivity|]. cbn [fnat]. rewrite IH.
    change (zadd (of_Z p 1) (of_Z p (Z.of_nat n)) = of_Z p (Z.of_nat (S n))). rewrite <- of_Z_add. f_equal. lia.
  Qed.
  Lemma fermat_p (a : K) : fpow a (Z.to_nat p) = a.
  Proof.
    pose proof p0. replace (Z.to_nat p) with (S (Z.to_nat (p - 1))) by lia. cbn [fpow].
    destruct (Feqd a F0) as [->|N].
    - exact (Fmul0K K _).
    - rewrite (fermatK p Hp a N). exact (Fmul1K K a).
  Qed.
  Lemma p_4k3 : p = Z.of_nat (4 * Z.to_nat ((p - 3) / 4) + 3).
  Proof.
    pose proof p0. pose proof (Z.div_mod p 4 ltac:(lia)) as D.
    assert (E : (p - 3) / 4 = p / 4) by (replace (p - 3) with (p / 4 * 4) by lia; apply Z.div_mul; lia).
    rewrite E. assert (0 <= p / 4) by (apply Z.div_pos; lia). lia.
  Qed.
  Variable pw : Fp2Elt -> Z -> out Fp2Elt.
  Variable x : G.
  Lemma sqrt2_steps_gg r1 r2 (k := Z.to_nat ((p - 3) / 4)) :
    pw (gg x) ((p - 3) / 4) = Ret (gg r1) ->
    let x0 := Fmul r1 x in let alpha := Fmul r1 x0 in
    pw (gg (Fadd alpha F1)) ((p - 1) / 2) = Ret (gg r2) ->
    sqrt2_using pw (gg x) = Ret (gg (if Feqd (Fadd alpha F1) F0 then Fmul x0 (gi K m1K) else Fmul x0 r2)).
  Proof.
    intros E1 x0 alpha E2. unfold sqrt2_using. change (fld2 (gg x)) with (fp2_new p).
    assert (PC : calc_sqrt_precmp2 (fp2_new p) = Ret ((p - 3) / 4, (p - 1) / 2)).
    { unfold calc_sqrt_precmp2, fp2_new, fp_new. cbn [base modulus]. pose proof p0. rewrite Z.rem_mod_nonneg, H4 by lia.
      cbn [Z.eqb Pos.eqb]. rewrite !Z.shiftr_div_pow2 by lia. reflexivity. }
    rewrite PC. cbn [bind]. unfold sqrt2_steps. rewrite E1. cbn [bind]. rewrite mul2_gg. cbn [bind]. fold x0.
    rewrite mul2_gg. cbn [bind]. fold alpha. change (fld2 (gg x)) with (fp2_new p). rewrite one2_gg. cbn [bind].
    rewrite add2_gg. cbn [bind]. destruct (is_zero2 (gg (Fadd alpha F1))) eqn:Ez.
    - apply is_zero2_gg in Ez. destruct (Feqd (Fadd alpha F1) F0) as [_|N]; [|contradiction].
      unfold fp2_new at 1 2. cbn [base]. unfold from_int. pose proof p0. rewrite !elt_fe by lia. cbn [bind].
      exact (mul2_gg x0 (gi K m1K)).
    - destruct (Feqd (Fadd alpha F1) F0) as [Z0|_].
      + apply is_zero2_gg in Z0. rewrite Z0 in Ez. discriminate.
      + rewrite E2. cbn [bind]. apply mul2_gg.
  Qed.
End Root.

(** with exact powers, the formulas of sqrt return a root of every square *)
Lemma c68_sqrt_formula : forall p pw x, prime p -> p mod 4 = 3 -> valid2 p x ->
  (forall y e, valid2 p y -> 0 <= e <= (p - 1) / 2 -> exists r, pw y e = Ret r /\ is_power p y e r) ->
  exists r, sqrt2_using pw x = Ret r /\ valid2 p r
    /\ (mul2 r r = Ret x <-> gsquare_mod p (val (re x)) (val (im x))).
Proof.
  intros p pw x Hp H4 V HW. pose proof (p0 p Hp) as P0. pose proof (p_4k3 p Hp H4) as P4.
  assert (C1 : 0 <= (p - 3) / 4 <= (p - 1) / 2).
  { split; [apply Z.div_pos; lia|]. apply Z.div_le_upper_bound; [lia|].
    pose proof (Z.div_mod (p - 1) 2 ltac:(lia)). pose proof (Z.mod_pos_bound (p - 1) 2 ltac:(lia)). lia. }
  assert (C2 : 0 <= (p - 1) / 2) by (apply Z.div_pos; lia).
  set (X := gpz p Hp H4 (gval x)).
  assert (EX : x = gg p Hp H4 X) by exact (gz_gval p x V).
  assert (PW : forall (Y : GF (ZpF p Hp) (m1K p Hp H4)) e, 0 <= e <= (p - 1) / 2 -> pw (gg p Hp H4 Y) e = Ret (gg p Hp H4 (fpow Y (Z.to_nat e)))).
  { intros Y e He. assert (VY : valid2 p (gg p Hp H4 Y)) by (apply valid2_ge; exact P0).
    destruct (HW _ e VY He) as (r & -> & R). apply is_power_gz in R; [|exact P0|exact VY]. rewrite R. rewrite gzpow_gg. reflexivity. }
  set (k := Z.to_nat ((p - 3) / 4)) in *.
  assert (K2 : Z.to_nat ((p - 1) / 2) = (2 * k + 1)%nat).
  { rewrite P4 at 1. replace (Z.of_nat (4 * k + 3) - 1) with ((2 * Z.of_nat k + 1) * 2) by lia. rewrite Z.div_mul by lia. lia. }
  set (x0 := Fmul (fpow X k) X). set (alpha := Fmul (fpow X k) x0).
  pose proof (sqrt2_steps_gg p Hp H4 pw X (fpow X k) (fpow (Fadd alpha F1) (2 * k + 1)) (PW X _ C1)) as S.
  cbn zeta in S. fold x0 alpha in S. rewrite <- K2 in S at 1. specialize (S (PW _ _ (conj C2 (Z.le_refl _)))).
  eexists. split; [exact (eq_trans (f_equal (sqrt2_using pw) EX) S)|]. split; [apply valid2_ge; exact P0|].
  rewrite mul2_gg.
  assert (GS : gsquare_mod p (val (re x)) (val (im x)) <-> exists Y : GF (ZpF p Hp) (m1K p Hp H4), Fmul Y Y = X).
  { rewrite (gsquare_K p Hp). split.
    - intros (c & d & A & B). exists (c, d). unfold X, gpz, gval. cbn [fst snd]. rewrite <- A, <- B.
      exact (gsqr_pair (ZpF p Hp) (m1K p Hp H4) c d).
    - intros [[c d] E]. exists c, d. pose proof (gsqr_pair (ZpF p Hp) (m1K p Hp H4) c d) as Q.
      rewrite E in Q. split; [exact (eq_sym (f_equal fst Q))|exact (eq_sym (f_equal snd Q))]. }
  rewrite GS. split.
  - intro E. rewrite EX in E. eexists. apply (gg_inj p Hp H4). exact (f_equal (fun o => match o with Ret v => v | Panic _ => gg p Hp H4 X end) E).
  - intro Q.
    assert (PP : prime (Z.of_nat (4 * k + 3))) by (rewrite <- P4; exact Hp).
    assert (HC : fnat (4 * k + 3) = (F0 : ZpF p Hp)).
    { rewrite fnatK, <- P4. apply of_Z_zero; [exact P0|apply Z.divide_refl]. }
    assert (HF : forall a : ZpF p Hp, fpow a (4 * k + 3) = a).
    { intro a. replace (4 * k + 3)%nat with (Z.to_nat p) by (rewrite P4; apply Nat2Z.id). apply fermat_p; assumption. }
    destruct (gsqrt_ok (ZpF p Hp) (m1K p Hp H4) k PP HC HF X Q) as [A B]. fold x0 in A, B. fold alpha in A, B.
    apply (eq_trans (y := Ret (gg p Hp H4 X))); [|f_equal; symmetry; exact EX].
    do 2 f_equal. destruct (Feqd (Fadd alpha F1) F0) as [Z0|N]; [exact (A Z0)|exact (B N)].
Qed.
(** so, below 2^32, sqrt would be right as soon as one() returned the field's one *)
Lemma c68_sqrt_below_2_32 : forall p x, prime p -> p mod 4 = 3 -> p < 2 ^ 32 -> valid2 p x ->
  exists o r, one2 (fp2_new p) = Ret o /\ sqrt2_using (pow_bigint2_from (Ret o)) x = Ret r /\ valid2 p r
    /\ (mul2 r r = Ret x <-> gsquare_mod p (val (re x)) (val (im x))).
Proof.
  intros p x Hp H4 L V. pose proof (p0 p Hp) as P0. exists (gzpow p (0, 0) 0).
  destruct (c68_sqrt_formula p (pow_bigint2_from (Ret (gzpow p (0, 0) 0))) x Hp H4 V) as (r & A).
  - intros y e Vy He. destruct (c68_power_loop p y e P0 Vy (proj1 He)) as (o & k & r & O & S & _ & W & R).
    assert (O' := one2_gz p P0 (0, 0)). rewrite O in O'. assert (Eo : o = gzpow p (0, 0) 0) by congruence. rewrite Eo in W.
    exists r. split; [exact W|]. assert (E : k = e).
    { apply (c68_exponent_right_iff e k (proj1 He) S).
      assert ((p - 1) / 2 < 2 ^ 31) by (apply Z.div_lt_upper_bound; lia). lia. }
    rewrite <- E. exact R.
  - exists r. split; [apply one2_gz, P0|exact A].
Qed.
Lemma gpow_real a n : gpow (a, 0) n = (a ^ Z.of_nat n, 0).
Proof.
  induction n as [|n IH]; [reflexivity|]. cbn [gpow]. rewrite IH. cbn [fst snd].
  rewrite Nat2Z.inj_succ, Z.pow_succ_r by lia. apply f_equal2; ring.
Qed.
Lemma gzpow_real p a e : 0 <= e -> gzpow p (a, 0) e = gz p (a ^ e, 0).
Proof. intro H. unfold gzpow. rewrite gpow_real, Z2Nat.id by exact H. reflexivity. Qed.
Lemma gz_eq p z w : 0 < p -> gz p z = gz p w <-> (p | fst z - fst w) /\ (p | snd z - snd w).
Proof.
  intro H. unfold gz, ge. split.
  - intro E. assert (A := fe_inj _ _ _ (f_equal re E)). assert (B := fe_inj _ _ _ (f_equal im E)). cbn [re im] in A, B.
    apply of_Z_eq in A, B. split; apply divide_mod_eq; assumption || lia.
  - intros [A B]. apply divide_mod_eq in A, B; try lia. apply of_Z_eq in A, B. rewrite A, B. reflexivity.
Qed.
Lemma loop_gz p z e : 0 < p -> 0 <= e -> pow_bigint2_from (Ret (gz p (1, 0))) (gz p z) e = Ret (gzpow p z (keep (to_u32_digits e))).
Proof.
  intros Hp He. unfold pow_bigint2_from. destruct (Z.ltb_spec e 0); [lia|]. unfold pow_biguint2_from. cbn [bind].
  change (gz p (1, 0)) with (gzpow p z 0). rewrite pow_words_gz; [|exact Hp| |lia].
  - rewrite keep_rev. reflexivity.
  - apply Forall_rev. unfold to_u32_digits. eapply Forall_impl; [|apply digits_range; lia]. cbn. intros. lia.
Qed.
(** from 2^32 on it would not: the root of 1 comes out as 2 to the shortened exponent *)
Lemma c68_sqrt_of_one : forall p, prime p -> p mod 4 = 3 ->
  exists o k r, one2 (fp2_new p) = Ret o /\ skips_top_bits ((p - 1) / 2) k
    /\ sqrt2_using (pow_bigint2_from (Ret o)) o = Ret r /\ valid2 p r
    /\ residue p (2 ^ k) (val (re r)) /\ val (im r) = 0 /\ (mul2 r r = Ret o <-> (p | 4 ^ k - 1)).
Proof.
  intros p Hp H4. pose proof (p0 p Hp) as P0. exists (gz p (1, 0)).
  assert (C1 : 0 <= (p - 3) / 4). { pose proof (p_4k3 p Hp H4). apply Z.div_pos; lia. }
  assert (C2 : 0 <= (p - 1) / 2) by (apply Z.div_pos; lia).
  exists (keep (to_u32_digits ((p - 1) / 2))). set (k := keep (to_u32_digits ((p - 1) / 2))).
  assert (K0 : 0 <= k) by apply keep_nonneg.
  exists (gz p (2 ^ k, 0)).
  split; [exact (one2_gz p P0 (0, 0))|]. split; [apply keep_digits, C2|].
  assert (PC : calc_sqrt_precmp2 (fp2_new p) = Ret ((p - 3) / 4, (p - 1) / 2)).
  { unfold calc_sqrt_precmp2, fp2_new, fp_new. cbn [base modulus]. rewrite Z.rem_mod_nonneg, H4 by lia.
    cbn [Z.eqb Pos.eqb]. rewrite !Z.shiftr_div_pow2 by lia. reflexivity. }
  assert (S : sqrt2_using (pow_bigint2_from (Ret (gz p (1, 0)))) (gz p (1, 0)) = Ret (gz p (2 ^ k, 0))).
  { unfold sqrt2_using. change (fld2 (gz p (1, 0))) with (fp2_new p). rewrite PC. cbn [bind]. unfold sqrt2_steps.
    rewrite loop_gz by assumption. cbn [bind]. rewrite gzpow_real by apply keep_nonneg. rewrite Z.pow_1_l by apply keep_nonneg.
    rewrite mul2_gz by exact P0. cbn [bind]. rewrite zgmul_1. rewrite mul2_gz by exact P0. cbn [bind]. rewrite zgmul_1.
    change (fld2 (gz p (1, 0))) with (fp2_new p). rewrite (one2_gz p P0 (0, 0)). cbn [bind].
    change (gzpow p (0, 0) 0) with (gz p (1, 0)).
    assert (AD : add2 (gz p (1, 0)) (gz p (1, 0)) = Ret (gz p (2, 0))).
    { unfold gz at 1 2. rewrite add2_ge by exact P0. cbn [fst snd]. rewrite <- !of_Z_add. reflexivity. }
    rewrite AD. cbn [bind]. assert (NZ : is_zero2 (gz p (2, 0)) = false).
    { unfold is_zero2, is_zero. cbn [gz re im ge fe val fst snd]. rewrite zv_of_Z.
      pose proof (p_4k3 p Hp H4). rewrite (Z.mod_small 2) by lia. reflexivity. }
    rewrite NZ. rewrite loop_gz by assumption. cbn [bind]. rewrite gzpow_real by exact K0. rewrite mul2_gz by exact P0. rewrite zgmul_1. reflexivity. }
  split; [exact S|]. split; [apply valid2_ge, P0|]. split; [apply mod_residue, P0|]. split; [reflexivity|].
  rewrite mul2_gz by exact P0. unfold zgmul. cbn [fst snd]. split.
  - intro E. assert (E2 : gz p (2 ^ k * 2 ^ k - 0 * 0, 2 ^ k * 0 + 0 * 2 ^ k) = gz p (1, 0)) by congruence.
    apply gz_eq in E2; [|exact P0]. cbn [fst snd] in E2. destruct E2 as [D _].
    replace (4 ^ k - 1) with (2 ^ k * 2 ^ k - 0 * 0 - 1); [exact D|]. change 4 with (2 * 2). rewrite Z.pow_mul_l. ring.
  - intro D. f_equal. apply gz_eq; [exact P0|]. cbn [fst snd]. split.
    + replace (2 ^ k * 2 ^ k - 0 * 0 - 1) with (4 ^ k - 1); [exact D|]. change 4 with (2 * 2). rewrite Z.pow_mul_l. ring.
    + exists 0. ring.
Qed.
Definition not_one (p : Z) : bool :=
  let C := make p in let k := keep (to_u32_digits ((p - 1) / 2)) in
  ctx_ok C && (md C =? p) && (0 <? k) && (p mod 4 =? 3)
  && match mpow C (enc C 4) (Z.to_pos k) with Some l => negb (repr C l 1) | None => false end.
Lemma not_one_ok p : not_one p = true -> p mod 4 = 3 /\ ~ (p | 4 ^ keep (to_u32_digits ((p - 1) / 2)) - 1).
Proof.
  unfold not_one. set (C := make p). set (k := keep (to_u32_digits ((p - 1) / 2))).
  rewrite !andb_true_iff. intros ((((HC & HM) & HK) & H4) & HR). apply Z.eqb_eq in HM, H4. apply Z.ltb_lt in HK.
  split; [exact H4|]. intro D. destruct (mpow C (enc C 4) (Z.to_pos k)) as [l|] eqn:E; [|discriminate].
  pose proof (R_pow C HC _ _ _ (enc_R C HC 4) _ E) as HL. rewrite Z2Pos.id in HL by exact HK.
  apply negb_true_iff in HR. assert (T : repr C l 1 = true) by (apply (R_iff C HC _ _ _ HL); rewrite HM; exact D). congruence.
Qed.
Lemma prime_above_2_32 : prime 4294967311.
Proof.
  apply (pock_prime 4294967311 364289 2 [(364289, 1%positive)]).
  - vm_cast_no_check (eq_refl true).
  - in_list. apply (trial_prime 364289 603). vm_compute. reflexivity.
Qed.
(** 1 would get a wrong root in the field of every shipped modulus that is 3 mod 4, and already at 2^32 + 15 *)
Lemma c68_sqrt_large_refuted : forall p,
  In p [2 ^ 32 + 15; Verif.Spec.Instances.w_p Verif.Spec.Instances.std_P256; Verif.Spec.Instances.w_p Verif.Spec.Instances.std_P384;
        Verif.Spec.Instances.w_p Verif.Spec.Instances.std_P521; Verif.Spec.Instances.w_p Verif.Spec.Instances.std_SECP256K1;
        Verif.Spec.Instances.w_p Verif.Spec.Instances.std_BLS12381G1; Verif.Spec.Instances.m_p Verif.Spec.Instances.std_CURVE448] ->
  prime p /\ p mod 4 = 3 /\ exists o r, one2 (fp2_new p) = Ret o /\ valid2 p o
    /\ sqrt2_using (pow_bigint2_from (Ret o)) o = Ret r /\ mul2 r r <> Ret o.
Proof.
  intros p H. assert (A : prime p /\ not_one p = true).
  { repeat destruct H as [H|H]; [..|destruct H]; rewrite <- H; clear p H.
    - split; [exact prime_above_2_32|]. vm_cast_no_check (eq_refl true).
    - split; [exact prime_p256|]. vm_cast_no_check (eq_refl true).
    - split; [exact prime_p384|]. vm_cast_no_check (eq_refl true).
    - split; [exact prime_p521|]. vm_cast_no_check (eq_refl true).
    - split; [exact prime_psecp|]. vm_cast_no_check (eq_refl true).
    - split; [exact prime_pbls|]. vm_cast_no_check (eq_refl true).
    - split; [exact prime_p448|]. vm_cast_no_check (eq_refl true). }
  destruct A as [Hp N]. apply not_one_ok in N. destruct N as [H4 N]. split; [exact Hp|]. split; [exact H4|].
  destruct (c68_sqrt_of_one p Hp H4) as (o & k & r & O & S & R & V & _ & _ & I). exists o, r. split; [exact O|]. split.
  { rewrite (one2_gz p (p0 p Hp) (0, 0)) in O. assert (o = gzpow p (0, 0) 0) as -> by congruence. apply valid2_ge, p0, Hp. }
  split; [exact R|]. intro E. apply N. apply I in E.
  assert (C2 : 0 <= (p - 1) / 2) by (pose proof (p0 p Hp); apply Z.div_pos; lia).
  rewrite (skips_unique _ _ _ (keep_digits _ C2) S). exact E.
Qed.
(** modulo 103, with a working one(): the root of 3 + 4 i is 2 + i; the exponent 2^31 + 5 is read as 5 *)
Example c68_ex : let F := fp2_new 103 in let e a b := mkFp2Elt (mkFpElt a (mkFp 103)) (mkFpElt b (mkFp 103)) F in
  sqrt2_using (pow_bigint2_from (one2 F)) (e 3 4) = Ret (e 2 1)
  /\ sqrt2 (e 3 4) = Panic "not implemented"
  /\ pow_bigint2_from (one2 F) (e 2 1) 5 = Ret (e 65 41)
  /\ pow_bigint2_from (one2 F) (e 2 1) (2 ^ 31 + 5) = Ret (e 65 41)
  /\ pow_bigint2_from (one2 F) (e 2 1) (2 ^ 32 + 5) = Ret (e 17 67)
  /\ skips_top_bits (2 ^ 31 + 5) 5.
Proof.
  cbv zeta. do 5 (split; [vm_compute; reflexivity|]). exact (keep_digits (2 ^ 31 + 5) ltac:(lia)).
Qed.
