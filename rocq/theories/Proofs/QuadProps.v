(** C14-C19: the quadratic extension field. *)
From Coq Require Import ZArith Znumtheory Lia String Bool List Ring Field.
From Verif.Math Require Import Fld Pow Zp Residue Quad.
From Verif.Spec Require Import Arith.
From Verif.Model Require Import Out BigInt PrimeField QuadField.
From Verif.Proofs Require Import FieldP FieldProps BytesP SerialProps.
From Verif.Spec Require Export Elements Exprs.
Import ListNotations.
Open Scope Z_scope.

Definition ge (p : Z) (a b : Zp p) : Fp2Elt := mkFp2Elt (fe a) (fe b) (fp2_new p).

Lemma valid2_ex p x : valid2 p x -> x = ge p (of_Z p (val (re x))) (of_Z p (val (im x))).
Proof.
  destruct x as [a b F]. intros (E & Va & Vb). cbn in *. subst F. unfold ge.
  rewrite <- (valid_inv _ _ Va), <- (valid_inv _ _ Vb). reflexivity.
Qed.
Lemma valid2_ge p a b : 0 < p -> valid2 p (ge p a b).
Proof. intro. split; [reflexivity|]. split; apply valid_fe; assumption. Qed.

Section Ops.
  Variable p : Z.
  Hypothesis Hp : 0 < p.
  Lemma fp2_refl : fp2_eqb (fp2_new p) (fp2_new p) = true. Proof. apply Z.eqb_refl. Qed.
  Lemma elt2_ge n : elt2 (fp2_new p) n = Ret (ge p (of_Z p n) (of_Z p 0)).
  Proof. unfold elt2. cbn [base fp2_new]. rewrite zero_fe, elt_fe by lia. reflexivity. Qed.
  Lemma add2_ge a b c d : add2 (ge p a b) (ge p c d) = Ret (ge p (zadd a c) (zadd b d)).
  Proof. unfold add2. cbn [fld2 re im ge]. rewrite fp2_refl. cbn [do_if_eq]. rewrite !add_fe by lia. reflexivity. Qed.
  Lemma sub2_ge a b c d : sub2 (ge p a b) (ge p c d) = Ret (ge p (zsub a c) (zsub b d)).
  Proof. unfold sub2. cbn [fld2 re im ge]. rewrite fp2_refl. cbn [do_if_eq]. rewrite !sub_fe by lia. reflexivity. Qed.
  Lemma mul2_ge a b c d : mul2 (ge p a b) (ge p c d) =
    Ret (ge p (zsub (zmul a c) (zmul b d)) (zadd (zmul a d) (zmul b c))).
  Proof.
    unfold mul2. cbn [fld2 re im ge]. rewrite fp2_refl. cbn [do_if_eq].
    fes. reflexivity.
  Qed.
  Lemma neg2_ge a b : neg2 (ge p a b) = Ret (ge p (zopp a) (zopp b)).
  Proof. unfold neg2. cbn [fld2 re im ge]. rewrite !neg_fe by lia. reflexivity. Qed.
End Ops.

(** *** C14 *)
Lemma run2_ge p env e : 0 < p -> (forall i, valid2 p (env i)) ->
  run2 (fp2_new p) env e = Ret (let g := gden (fun i => gval (env i)) e in ge p (of_Z p (fst g)) (of_Z p (snd g))).
Proof.
  intros Hp Henv.
  induction e; cbn [run2 gden]; try rewrite IHe1; try rewrite IHe2; try rewrite IHe; cbn [bind fst snd].
  - f_equal. apply valid2_ex, Henv.
  - apply elt2_ge. assumption.
  - rewrite add2_ge by assumption. rewrite !of_Z_add. reflexivity.
  - rewrite sub2_ge by assumption. rewrite !of_Z_sub. reflexivity.
  - rewrite mul2_ge by assumption. rewrite !of_Z_sub, !of_Z_add, !of_Z_mul. reflexivity.
  - rewrite neg2_ge by assumption. rewrite !of_Z_opp. reflexivity.
  - change (pow_u32_2 ?x 2) with (mul2 x x). rewrite mul2_ge by assumption.
    rewrite <- !of_Z_mul, <- of_Z_sub, <- of_Z_add. do 2 f_equal. apply of_Z_eq. f_equal. ring.
Qed.
(** every expression evaluates, to the residues of the same Gaussian-integer expression *)
Lemma c14_expressions_are_gaussian : forall p env e, 0 < p -> (forall i, valid2 p (env i)) ->
  exists x, run2 (fp2_new p) env e = Ret x /\ fld2 x = fp2_new p /\ valid2 p x
    /\ residue p (fst (gden (fun i => gval (env i)) e)) (val (re x))
    /\ residue p (snd (gden (fun i => gval (env i)) e)) (val (im x)).
Proof.
  intros p env e Hp Henv. eexists. rewrite run2_ge by assumption. split; [reflexivity|].
  split; [reflexivity|]. split; [apply valid2_ge, Hp|]. split; apply mod_residue, Hp.
Qed.
(** identities of Gaussian integers are identities of field expressions under == *)
Lemma c14_ring_laws : forall p env e1 e2, 0 < p -> (forall i, valid2 p (env i)) ->
  (forall rho, gden rho e1 = gden rho e2) ->
  exists x y, run2 (fp2_new p) env e1 = Ret x /\ run2 (fp2_new p) env e2 = Ret y
    /\ fp2elt_eqb x y = true.
Proof.
  intros p env e1 e2 Hp Henv E. do 2 eexists. rewrite !run2_ge by assumption.
  split; [reflexivity|]. split; [reflexivity|]. rewrite E. unfold fp2elt_eqb. cbn [re im fld2 ge].
  rewrite fp2_refl. rewrite !andb_true_iff. repeat split; apply fpelt_eqb_fe; reflexivity.
Qed.
Example c14_ex : let i := mkFp2Elt (mkFpElt 0 (mkFp 7)) (mkFpElt 1 (mkFp 7)) (mkFp2 (mkFp 7)) in
  run2 (fp2_new 7) (fun _ => i) (EMul (EVar 0) (EAdd (EVar 0) (EInt 3)))
  = Ret (mkFp2Elt (mkFpElt 6 (mkFp 7)) (mkFpElt 3 (mkFp 7)) (mkFp2 (mkFp 7))) /\ valid2 7 i.
Proof. vm_compute. repeat split; congruence. Qed.

(** *** C15 *)
Section Sq.
  Variable p : Z.
  Hypothesis Hp : prime p.
  Hypothesis H4 : p mod 4 = 3.
  Local Notation K := (ZpF p Hp).

  Lemma p_not2 : p <> 2. Proof. intros ->. discriminate H4. Qed.
  Lemma either_sq (a : K) : sq a \/ sq (Fopp a).
  Proof.
    destruct (is_sq_dec p Hp p_not2 a) as [|N]; [left; assumption|right].
    assert (E : Fopp a = Fmul (Fopp F1) a).
    { pose proof (Fth K) as T. apply F_R in T. pattern a. apply (Zp_ind_of_Z p). intro z.
      change (zopp (of_Z p z) = zmul (zopp (of_Z p 1)) (of_Z p z)).
      rewrite <- !of_Z_opp, <- of_Z_mul. apply of_Z_eq. f_equal; ring. }
    rewrite E.
    apply (nonsq_mul_nonsq p Hp p_not2); [apply (neg1_nonsq p Hp p_not2 H4)|exact N].
  Qed.
  Lemma norm_nzK (a b : K) : ~ (a = F0 /\ b = F0) -> Fadd (Fmul a a) (Fmul b b) <> F0.
  Proof. apply norm_nz. apply (neg1_nonsq p Hp p_not2 H4). Qed.
  Lemma norm_sqK (a b : K) : is_sq p Hp (Fadd (Fmul a a) (Fmul b b)) <->
    exists c d : K, Fsub (Fmul c c) (Fmul d d) = a /\ Fmul (Fmul (Fadd F1 F1) c) d = b.
  Proof. apply norm_sq; [apply (two_nz p Hp p_not2)|apply (neg1_nonsq p Hp p_not2 H4)|apply either_sq]. Qed.
  Lemma norm_divK (a b : K) : ~ (a = F0 /\ b = F0) ->
    let n := Fadd (Fmul a a) (Fmul b b) in
    ((Fsub (Fmul a (Fdiv a n)) (Fmul b (Fdiv b n)) = F1 /\ Fadd (Fmul a (Fdiv b n)) (Fmul b (Fdiv a n)) = F0) <-> b = F0).
  Proof. apply norm_div; [apply (two_nz p Hp p_not2)|apply (neg1_nonsq p Hp p_not2 H4)]. Qed.
End Sq.

Lemma ge_eqb p a b c d : fp2elt_eqb (ge p a b) (ge p c d) = true <-> a = c /\ b = d.
Proof.
  unfold fp2elt_eqb. cbn [re im fld2 ge]. rewrite fp2_refl, andb_true_r, andb_true_iff, !fpelt_eqb_fe. tauto.
Qed.

Lemma inv_mod2_ge p a b : 2 < p -> inv_mod2 (ge p a b) =
  Ret (let n := zadd (zmul a a) (zmul b b) in ge p (zmul (zinv n) a) (zmul (zinv n) b)).
Proof. intro H. unfold inv_mod2. cbn [re im fld2 ge]. fes. reflexivity. Qed.

Lemma inv_correct_iff p a b : prime p -> p mod 4 = 3 -> ~ (a = of_Z p 0 /\ b = of_Z p 0) ->
  exists i e, u32_div2 1 (ge p a b) = Ret i /\ mul2 (ge p a b) i = Ret e
    /\ (e = ge p (of_Z p 1) (of_Z p 0) <-> b = of_Z p 0).
Proof.
  intros Hp H4 N. assert (2 < p) by (pose proof (pgt1 p Hp); pose proof (p_not2 p Hp H4); lia).
  unfold u32_div2. cbn [Z.eqb Pos.eqb do_if_eq]. rewrite inv_mod2_ge by assumption. cbv zeta.
  do 2 eexists. split; [reflexivity|]. rewrite mul2_ge by lia. split; [reflexivity|].
  pose proof (norm_divK p Hp H4 (a : ZpF p Hp) b N) as D. cbv zeta in D.
  set (n := zadd (zmul a a) (zmul b b)) in *.
  assert (E1 : zmul (zinv n) a = Fdiv (a : ZpF p Hp) n).
  { change (zmul (zinv n) a = zmul a (zinv n)). apply (Rmul_comm (zp_ring p)). }
  assert (E2 : zmul (zinv n) b = Fdiv (b : ZpF p Hp) n).
  { change (zmul (zinv n) b = zmul b (zinv n)). apply (Rmul_comm (zp_ring p)). }
  rewrite E1, E2. etransitivity; [|exact D]. unfold ge. split.
  - intro E. injection E as E3 E4. split; apply Zp_eq; [exact E3|exact E4].
  - intros [E3 E4]. f_equal; f_equal; assumption.
Qed.

(** the inverse the code computes is right exactly for the elements of the base field *)
Lemma c15_inverse_correct_iff_real : forall p b, prime p -> p mod 4 = 3 -> valid2 p b ->
  (val (re b) <> 0 \/ val (im b) <> 0) ->
  exists i e o, u32_div2 1 b = Ret i /\ mul2 b i = Ret e /\ one2 (fp2_new p) = Ret o
    /\ (fp2elt_eqb e o = true <-> val (im b) = 0).
Proof.
  intros p b Hp H4 V N. pose proof (pgt1 p Hp). rewrite (valid2_ex _ _ V).
  assert (Z0 : forall z, 0 <= z < p -> (of_Z p z = of_Z p 0 <-> z = 0)).
  { intros z Hz. rewrite of_Z_eq, Zmod_0_l, Z.mod_small by exact Hz. reflexivity. }
  destruct V as (_ & (_ & Va) & (_ & Vb)).
  destruct (inv_correct_iff p (of_Z p (val (re b))) (of_Z p (val (im b))) Hp H4) as (i & e & E1 & E2 & D).
  { rewrite !Z0 by assumption. lia. }
  exists i, e, (ge p (of_Z p 1) (of_Z p 0)). split; [exact E1|]. split; [exact E2|].
  split; [unfold one2; apply elt2_ge; lia|].
  cbn [im ge val fe]. rewrite zv_of_Z, (Z.mod_small (val (im b))) by exact Vb. rewrite <- (Z0 _ Vb), <- D.
  assert (He : exists x y, e = ge p x y).
  { unfold u32_div2 in E1. cbn [Z.eqb Pos.eqb do_if_eq] in E1.
    assert (2 < p) by (pose proof (p_not2 p Hp H4); lia). rewrite inv_mod2_ge in E1 by assumption.
    injection E1 as <-. rewrite mul2_ge in E2 by lia. injection E2 as <-. do 2 eexists. reflexivity. }
  destruct He as (x & y & ->). rewrite ge_eqb. split; [intros [-> ->]; reflexivity|].
  intro E. injection E as A B. split; apply Zp_eq; [exact A|exact B].
Qed.
(** so inversion is wrong: already 1/i in every such field *)
Lemma c15_inversion_refuted : forall p, prime p -> p mod 4 = 3 ->
  exists b i e o, valid2 p b /\ u32_div2 1 b = Ret i /\ mul2 b i = Ret e /\ one2 (fp2_new p) = Ret o
    /\ fp2elt_eqb e o = false.
Proof.
  intros p Hp H4. pose proof (pgt1 p Hp).
  set (b := ge p (of_Z p 0) (of_Z p 1)).
  assert (V : valid2 p b) by (apply valid2_ge; lia).
  assert (Vi : val (im b) = 1) by (cbn; apply Z.mod_1_l; lia).
  destruct (c15_inverse_correct_iff_real p b Hp H4 V ltac:(lia)) as (i & e & o & E1 & E2 & E3 & D).
  exists b, i, e, o. repeat (split; [assumption|]). destruct (fp2elt_eqb e o); [|reflexivity].
  assert (val (im b) = 0) by (apply D; reflexivity). lia.
Qed.
Example c15_ex : let b := mkFp2Elt (mkFpElt 3 (mkFp 7)) (mkFpElt 0 (mkFp 7)) (mkFp2 (mkFp 7)) in
  u32_div2 1 b = Ret (mkFp2Elt (mkFpElt 5 (mkFp 7)) (mkFpElt 0 (mkFp 7)) (mkFp2 (mkFp 7)))
  /\ valid2 7 b /\ 7 mod 4 = 3.
Proof. vm_compute. repeat split; congruence. Qed.

(** *** C16 *)
(** every power and every square root panics *)
Lemma c16_powers_and_sqrt_refuted : forall x e,
  pow_biguint2 x e = Panic "not implemented"
  /\ (exists msg, pow_bigint2 x e = Panic msg)
  /\ (exists msg, sqrt2 x = Panic msg).
Proof.
  intros x e. assert (B : forall x e, exists msg, pow_bigint2 x e = Panic msg).
  { intros y k. unfold pow_bigint2, pow_bigint2_from. destruct (k <? 0); eexists; reflexivity. }
  split; [reflexivity|]. split; [apply B|]. unfold sqrt2, sqrt2_using, sqrt2_steps.
  destruct (calc_sqrt_precmp2 (fld2 x)) as [[c1 c2]|]; cbn [bind]; [|eexists; reflexivity].
  destruct (B x c1) as [msg ->]. eexists. reflexivity.
Qed.
(** even with a working one(), the word loop drops bit 31 of every 32-bit word of the exponent:
    2^31 is treated as 0 *)
Lemma c16_exponent_bit_lost_refuted : forall p, 0 < p -> forall x, valid2 p x ->
  exists o, one2 (fp2_new p) = Ret o /\ pow_words (rev (to_u32_digits (2 ^ 31))) x o = Ret o.
Proof.
  intros p Hp x V. exists (ge p (of_Z p 1) (of_Z p 0)). split; [apply elt2_ge, Hp|].
  change (rev (to_u32_digits (2 ^ 31))) with [2 ^ 31].
  cbn [pow_words].
  assert (E : mul2 (ge p (of_Z p 1) (of_Z p 0)) (ge p (of_Z p 1) (of_Z p 0)) = Ret (ge p (of_Z p 1) (of_Z p 0))).
  { rewrite mul2_ge by exact Hp. rewrite <- !of_Z_mul, <- of_Z_sub, <- of_Z_add. reflexivity. }
  assert (G : forall j, (j <= 31)%nat ->
    pow_bits j (2 ^ 31) x (ge p (of_Z p 1) (of_Z p 0)) = Ret (ge p (of_Z p 1) (of_Z p 0))).
  { induction j as [|j IH]; intro Hj; [reflexivity|]. cbn [pow_bits]. rewrite E. cbn [bind].
    assert (Z.land (Z.shiftr (2 ^ 31) (Z.of_nat j)) 1 = 0) as ->.
    { change 1 with (Z.ones 1) at 1. rewrite Z.land_ones by lia. rewrite Z.shiftr_div_pow2 by lia.
      replace 31 with (Z.of_nat j + (31 - Z.of_nat j)) by lia. rewrite Z.pow_add_r by lia.
      rewrite Z.mul_comm, Z.div_mul by (apply Z.pow_nonzero; lia).
      replace (31 - Z.of_nat j) with (1 + (30 - Z.of_nat j)) by lia. rewrite Z.pow_add_r by lia.
      rewrite Z.mul_comm. apply Z.mod_mul. lia. }
    cbn [Z.eqb bind]. apply IH. lia. }
  rewrite G by lia. reflexivity.
Qed.
Example c16_ex : calc_sqrt_precmp2 (fp2_new 7) = Ret (1, 3). Proof. reflexivity. Qed.

(** *** C17 *)
Lemma pow_half_fe p (Hp : prime p) (x : ZpF p Hp) : p <> 2 ->
  pow_bigint (fe x) (Z.shiftr (p - 1) 1) = Ret (fe (fpow x (half p))).
Proof.
  intro H2. pose proof (pgt1 p Hp) as H1. rewrite pow_bigint_fe by lia.
  destruct (half_spec p Hp H2) as (_ & Hh & Ep).
  rewrite Z.shiftr_div_pow2, Z.pow_1_r by lia.
  assert (E2 : (p - 1) / 2 = Z.of_nat (half p)).
  { unfold half. rewrite Z2Nat.id; [reflexivity|]. apply Z.div_pos; lia. }
  rewrite E2. rewrite (Z.mod_small (Z.of_nat (half p))) by lia.
  assert (E : of_Z p (zv x ^ Z.of_nat (half p)) = fpow x (half p)).
  { rewrite <- (Nat2Z.id (half p)) at 2. rewrite fpow_of_Z by lia. reflexivity. }
  rewrite E. reflexivity.
Qed.

Lemma gsquare_K p (Hp : prime p) a b :
  gsquare_mod p a b <-> exists c d : ZpF p Hp,
    Fsub (Fmul c c) (Fmul d d) = of_Z p a /\ Fmul (Fmul (Fadd F1 F1) c) d = of_Z p b.
Proof.
  pose proof (pgt1 p Hp). split.
  - intros (c & d & E1 & E2). exists (of_Z p c), (of_Z p d). split.
    + change (zsub (zmul (of_Z p c) (of_Z p c)) (zmul (of_Z p d) (of_Z p d)) = of_Z p a).
      rewrite <- !of_Z_mul, <- of_Z_sub. apply of_Z_eq, divide_mod_eq; [lia|exact E1].
    + change (zmul (zmul (zadd (of_Z p 1) (of_Z p 1)) (of_Z p c)) (of_Z p d) = of_Z p b).
      rewrite <- of_Z_add, <- !of_Z_mul. apply of_Z_eq, divide_mod_eq; [lia|]. exact E2.
  - intros (c & d & E1 & E2). exists (zv c), (zv d). split.
    + apply divide_mod_eq; [lia|]. apply of_Z_eq. rewrite of_Z_sub, !of_Z_mul, !of_Z_zv. exact E1.
    + apply divide_mod_eq; [lia|]. apply of_Z_eq. change 2 with (1 + 1).
      rewrite !of_Z_mul, of_Z_add, !of_Z_zv. exact E2.
Qed.

Lemma is_square2_ge p (Hp : prime p) a b : p mod 4 = 3 ->
  exists r, is_square2 (ge p a b) = Ret r
    /\ (r = true <-> (~ (a = of_Z p 0 /\ b = of_Z p 0) /\ is_sq p Hp (zadd (zmul a a) (zmul b b)))).
Proof.
  intro H4. pose proof (p_not2 p Hp H4) as H2. pose proof (pgt1 p Hp).
  unfold is_square2. cbn [re im fld2 ge base fp2_new modulus fp_new]. fes.
  unfold fp2_new, fp_new. cbn [base modulus]. rewrite (pow_half_fe p Hp) by exact H2. fes.
  eexists. split; [reflexivity|]. rewrite fpelt_eqb_fe.
  set (n := zadd (zmul a a) (zmul b b)).
  destruct (half_spec p Hp H2) as (_ & Hh & _).
  split.
  - intro E. assert (Hn : (n : ZpF p Hp) <> F0).
    { intro E0. rewrite E0 in E. rewrite fpow_0_l in E by exact Hh.
      apply (F_1_neq_0 (ZpF p Hp)). symmetry. exact E. }
    split.
    + intros [-> ->]. apply Hn. unfold n. apply Zp_eq.
      rewrite <- !of_Z_mul, <- of_Z_add. reflexivity.
    + apply (euler p Hp H2 (n : ZpF p Hp) Hn). exact E.
  - intros [N S]. pose proof (norm_nzK p Hp H4 a b N) as Hn.
    apply (euler p Hp H2 (n : ZpF p Hp) Hn). exact S.
Qed.

(** is_square is residuosity for every non-zero element, and false at 0 *)
Lemma c17_is_square2_decides : forall p x, prime p -> p mod 4 = 3 -> valid2 p x ->
  exists r, is_square2 x = Ret r
    /\ (r = true <-> ((val (re x) <> 0 \/ val (im x) <> 0) /\ gsquare_mod p (val (re x)) (val (im x)))).
Proof.
  intros p x Hp H4 V. pose proof (pgt1 p Hp).
  destruct (is_square2_ge p Hp (of_Z p (val (re x))) (of_Z p (val (im x))) H4) as (r & E & D).
  exists r. rewrite <- (valid2_ex _ _ V) in E. split; [exact E|]. rewrite D.
  destruct V as (_ & (_ & Va) & (_ & Vb)).
  assert (Z0 : forall z, 0 <= z < p -> (of_Z p z = of_Z p 0 <-> z = 0)).
  { intros z Hz. rewrite of_Z_eq, Zmod_0_l, Z.mod_small by exact Hz. reflexivity. }
  rewrite !Z0 by assumption. rewrite (gsquare_K p Hp).
  pose proof (norm_sqK p Hp H4 (of_Z p (val (re x))) (of_Z p (val (im x)))) as N.
  change (is_sq p Hp (zadd (zmul (of_Z p (val (re x))) (of_Z p (val (re x)))) (zmul (of_Z p (val (im x))) (of_Z p (val (im x))))))
    with (is_sq p Hp (Fadd (Fmul (of_Z p (val (re x)) : ZpF p Hp) (of_Z p (val (re x)))) (Fmul (of_Z p (val (im x)) : ZpF p Hp) (of_Z p (val (im x)))))).
  split.
  - intros [A B]. split; [lia|]. apply N. exact B.
  - intros [A B]. split; [lia|]. apply N. exact B.
Qed.
(** unlike the prime field, zero is reported as a non-square although 0 = 0*0 *)
Lemma c17_zero_is_square_refuted : forall p, prime p -> p mod 4 = 3 ->
  exists z, zero2 (fp2_new p) = Ret z /\ mul2 z z = Ret z /\ is_square2 z = Ret false.
Proof.
  intros p Hp H4. pose proof (pgt1 p Hp). exists (ge p (of_Z p 0) (of_Z p 0)).
  split; [apply elt2_ge; lia|]. split.
  - rewrite mul2_ge by lia. rewrite <- !of_Z_mul, <- of_Z_sub, <- of_Z_add. reflexivity.
  - destruct (is_square2_ge p Hp (of_Z p 0) (of_Z p 0) H4) as (r & E & D). rewrite E. f_equal.
    destruct r; [|reflexivity]. destruct D as [D _]. destruct (D eq_refl) as [N _]. exfalso. apply N. auto.
Qed.
Example c17_ex : let x := mkFp2Elt (mkFpElt 0 (mkFp 7)) (mkFpElt 1 (mkFp 7)) (mkFp2 (mkFp 7)) in
  let y := mkFp2Elt (mkFpElt 1 (mkFp 7)) (mkFpElt 2 (mkFp 7)) (mkFp2 (mkFp 7)) in
  is_square2 x = Ret true /\ valid2 7 x /\ gsquare_mod 7 0 1 /\ is_square2 y = Ret false.
Proof.
  cbv zeta. split; [reflexivity|]. split; [vm_compute; repeat split; congruence|].
  split; [|reflexivity]. exists 2, 2. split; [exists 0; reflexivity|exists 1; reflexivity].
Qed.

(** *** C18 *)
Lemma sgn0_2_val p x : valid2 p x ->
  sgn0_2 x = if Z.even (val (re x)) && Z.even (val (im x)) then 1 else -1.
Proof.
  intros (_ & Va & Vb). unfold sgn0_2. rewrite (sgn0_val p _ Va), (sgn0_val p _ Vb). unfold is_zero.
  destruct (Z.eqb_spec (val (re x)) 0) as [->|]; destruct (Z.even (val (im x)));
    try destruct (Z.even (val (re x))); reflexivity.
Qed.
(** sgn0 is 1 when both parts are even, else -1 *)
Lemma c18_sgn0_value : forall p x, valid2 p x ->
  sgn0_2 x = (if Z.even (val (re x)) && Z.even (val (im x)) then 1 else -1).
Proof. exact sgn0_2_val. Qed.
(** for odd p negation flips it exactly unless both parts are non-zero with different parities *)
Lemma c18_sgn0_neg_iff : forall p x, Z.odd p = true -> valid2 p x -> (val (re x) <> 0 \/ val (im x) <> 0) ->
  exists y, neg2 x = Ret y /\ valid2 p y /\
    (sgn0_2 y = - sgn0_2 x <->
     ~ (val (re x) <> 0 /\ val (im x) <> 0 /\ Z.even (val (re x)) <> Z.even (val (im x)))).
Proof.
  intros p x Ho V N. pose proof V as V'. destruct V' as (_ & (_ & Va) & (_ & Vb)).
  exists (ge p (of_Z p (- val (re x))) (of_Z p (- val (im x)))).
  assert (Hp : 0 < p) by lia.
  split; [transitivity (neg2 (ge p (of_Z p (val (re x))) (of_Z p (val (im x))))); [f_equal; apply valid2_ex, V|]; rewrite neg2_ge, <- !of_Z_opp by lia; reflexivity|].
  split; [apply valid2_ge, Hp|]. rewrite (sgn0_2_val p) by (apply valid2_ge, Hp).
  rewrite (sgn0_2_val p) by exact V. cbn [re im ge val fe]. rewrite !zv_of_Z.
  assert (E : forall z, 0 <= z < p -> Z.even ((- z) mod p) = if z =? 0 then true else negb (Z.even z)).
  { intros z Hz. destruct (Z.eqb_spec z 0) as [->|Nz]; [rewrite Z.opp_0, Zmod_0_l; reflexivity|].
    assert ((- z) mod p = p - z) as -> by (symmetry; apply Z.mod_unique with (-1); lia).
    rewrite Z.even_sub. rewrite <- (Z.negb_odd p), Ho. destruct (Z.even z); reflexivity. }
  rewrite !E by assumption.
  destruct (Z.eqb_spec (val (re x)) 0) as [A|A], (Z.eqb_spec (val (im x)) 0) as [B|B].
  - lia.
  - rewrite A. cbn [Z.even andb]. destruct (Z.even (val (im x))); cbn; split; try reflexivity; intros; lia.
  - rewrite B. cbn [Z.even andb]. destruct (Z.even (val (re x))); cbn; split; try reflexivity; intros; lia.
  - destruct (Z.even (val (re x))), (Z.even (val (im x))); cbn; split; intro H; try discriminate H; try reflexivity;
      try (intros (_ & _ & D); apply D; reflexivity); exfalso; apply H; repeat split; auto; discriminate.
Qed.
Lemma c18_sgn0_neg_refuted : forall p, Z.odd p = true -> 1 < p ->
  exists x y, valid2 p x /\ val (re x) <> 0 /\ neg2 x = Ret y /\ sgn0_2 y = -1 /\ sgn0_2 x = -1.
Proof.
  intros p Ho Hp. assert (2 < p).
  { destruct (Z.eq_dec p 2) as [->|]; [discriminate Ho|lia]. }
  set (x := ge p (of_Z p 1) (of_Z p 2)).
  assert (V : valid2 p x) by (apply valid2_ge; lia).
  assert (V1 : val (re x) = 1) by (cbn; apply Z.mod_1_l; lia).
  assert (V2 : val (im x) = 2) by (cbn; apply Z.mod_small; lia).
  destruct (c18_sgn0_neg_iff p x Ho V ltac:(lia)) as (y & E & Vy & D).
  exists x, y. split; [exact V|]. split; [lia|]. split; [exact E|].
  assert (S : sgn0_2 x = -1) by (rewrite (sgn0_2_val p x V), V1, V2; reflexivity).
  split; [|exact S]. rewrite V1, V2, S in D.
  rewrite (sgn0_2_val p y Vy) in *. destruct (Z.even (val (re y)) && Z.even (val (im y))); [|reflexivity].
  exfalso. destruct D as [D _]. apply D; [reflexivity|]. repeat split; try lia. discriminate.
Qed.
Example c18_ex : sgn0_2 (mkFp2Elt (mkFpElt 2 (mkFp 7)) (mkFpElt 4 (mkFp 7)) (mkFp2 (mkFp 7))) = 1
  /\ valid2 7 (mkFp2Elt (mkFpElt 2 (mkFp 7)) (mkFpElt 4 (mkFp 7)) (mkFp2 (mkFp 7))).
Proof. vm_compute. repeat split; congruence. Qed.

(** *** C19 *)
Lemma firstn_app_l {A} (a b : list A) n : n = length a -> firstn n (a ++ b) = a.
Proof. intros ->. rewrite firstn_app, Nat.sub_diag, firstn_all. cbn. apply app_nil_r. Qed.
Lemma skipn_app_l {A} (a b : list A) n : n = length a -> skipn n (a ++ b) = b.
Proof. intros ->. rewrite skipn_app, Nat.sub_diag, skipn_all. reflexivity. Qed.

Lemma c19_to_bytes_length : forall p x, valid2 p x ->
  exists b c, elt2_to_bytes_be x = Ret b /\ elt2_to_bytes_le x = Ret c
    /\ Z.of_nat (length b) = size_bytes2 (fp2_new p) /\ Z.of_nat (length c) = size_bytes2 (fp2_new p)
    /\ Forall is_byte b /\ Forall is_byte c.
Proof.
  intros p x (_ & Va & Vb).
  destruct (to_bytes_spec p _ Va) as (b0 & E1 & E2 & L & B & _).
  destruct (to_bytes_spec p _ Vb) as (b1 & E3 & E4 & L' & B' & _).
  exists (b0 ++ b1), (rev b0 ++ rev b1). unfold elt2_to_bytes_be, elt2_to_bytes_le, size_bytes2.
  rewrite E1, E2, E3, E4. cbn [bind base fp2_new]. repeat split; auto.
  - rewrite app_length. lia.
  - rewrite app_length, !rev_length. lia.
  - apply Forall_app; auto.
  - apply Forall_app; split; apply Forall_rev; assumption.
Qed.
Lemma c19_wrong_length : forall p l, Z.of_nat (length l) <> size_bytes2 (fp2_new p) ->
  fp2_from_bytes_be (fp2_new p) l = Ret (Err "wrong size")
  /\ fp2_from_bytes_le (fp2_new p) l = Ret (Err "wrong size").
Proof.
  intros p l N. unfold fp2_from_bytes_be, fp2_from_bytes_le.
  assert (E : (size_bytes2 (fp2_new p) =? Z.of_nat (length l)) = false) by (apply Z.eqb_neq; lia).
  rewrite E. split; reflexivity.
Qed.
Lemma c19_round_trip : forall p x b, valid2 p x ->
  (elt2_to_bytes_be x = Ret b -> fp2_from_bytes_be (fp2_new p) b = Ret (Ok x))
  /\ (elt2_to_bytes_le x = Ret b -> fp2_from_bytes_le (fp2_new p) b = Ret (Ok x)).
Proof.
  intros p x b (F & Va & Vb). pose proof (valid_pos _ _ Va) as Hp.
  assert (Hs : 0 < size_bytes (fp_new p)) by (apply size_pos, Hp).
  assert (G : forall (b0 b1 : list Z), Z.of_nat (length b0) = size_bytes (fp_new p) ->
     Z.of_nat (length b1) = size_bytes (fp_new p) ->
     negb (size_bytes2 (fp2_new p) =? Z.of_nat (length (b0 ++ b1))) = false
     /\ WCurve.slice (b0 ++ b1) 0 (size_bytes2 (fp2_new p) / 2) = Ret b0
     /\ WCurve.slice (b0 ++ b1) (size_bytes2 (fp2_new p) / 2) (2 * (size_bytes2 (fp2_new p) / 2)) = Ret b1).
  { intros b0 b1 L0 L1. unfold size_bytes2. cbn [base fp2_new].
    rewrite (Z.mul_comm 2 (size_bytes (fp_new p))), Z.div_mul by lia.
    rewrite app_length, Nat2Z.inj_add, L0, L1. split; [|split].
    - apply negb_false_iff, Z.eqb_eq. lia.
    - unfold WCurve.slice. rewrite app_length, Nat2Z.inj_add, L0, L1.
      assert (((0 <=? size_bytes (fp_new p)) && (size_bytes (fp_new p) <=? size_bytes (fp_new p) + size_bytes (fp_new p)))%bool = true) as ->
        by (apply andb_true_iff; split; apply Z.leb_le; lia).
      cbn [Z.to_nat skipn]. rewrite firstn_app_l by lia. reflexivity.
    - unfold WCurve.slice. rewrite app_length, Nat2Z.inj_add, L0, L1.
      assert (((size_bytes (fp_new p) <=? 2 * size_bytes (fp_new p)) && (2 * size_bytes (fp_new p) <=? size_bytes (fp_new p) + size_bytes (fp_new p)))%bool = true) as ->
        by (apply andb_true_iff; split; apply Z.leb_le; lia).
      rewrite skipn_app_l by lia. rewrite firstn_all2 by lia. reflexivity. }
  destruct (to_bytes_spec p _ Va) as (b0 & E1 & E2 & L & B & _).
  destruct (to_bytes_spec p _ Vb) as (b1 & E3 & E4 & L' & B' & _).
  unfold elt2_to_bytes_be, elt2_to_bytes_le. rewrite E1, E2, E3, E4. cbn [bind].
  split; intro E; injection E as <-.
  - destruct (G b0 b1 L L') as (G1 & G2 & G3). unfold fp2_from_bytes_be. rewrite G1, G2. cbn [bind base fp2_new].
    destruct (c11_round_trip p _ b0 Va) as [R _]. rewrite (R E1). cbn [bind unwrap_io].
    rewrite G3. cbn [bind]. destruct (c11_round_trip p _ b1 Vb) as [R' _]. rewrite (R' E3). cbn [bind unwrap_io].
    destruct x as [x0 x1 xf]. cbn in *. subst xf. reflexivity.
  - rewrite <- (rev_length b0) in L. rewrite <- (rev_length b1) in L'.
    destruct (G _ _ L L') as (G1 & G2 & G3). unfold fp2_from_bytes_le. rewrite G1, G2. cbn [bind base fp2_new].
    destruct (c11_round_trip p _ (rev b0) Va) as [_ R]. rewrite (R E2). cbn [bind unwrap_io].
    rewrite G3. cbn [bind]. destruct (c11_round_trip p _ (rev b1) Vb) as [_ R']. rewrite (R' E4). cbn [bind unwrap_io].
    destruct x as [x0 x1 xf]. cbn in *. subst xf. reflexivity.
Qed.
(** on the right length the answer is always Ok of the residues of the two halves *)
Lemma c19_from_bytes_right_length : forall p a b, 0 < p ->
  Z.of_nat (length a) = size_bytes (fp_new p) -> Z.of_nat (length b) = size_bytes (fp_new p) ->
  exists x, fp2_from_bytes_be (fp2_new p) (a ++ b) = Ret (Ok x) /\ valid2 p x
    /\ residue p (be_value a) (val (re x)) /\ residue p (be_value b) (val (im x)).
Proof.
  intros p b0 b1 Hp L0 L1.
  assert (Hs : 0 < size_bytes (fp_new p)) by (apply size_pos, Hp).
  exists (ge p (of_Z p (be_value b0)) (of_Z p (be_value b1))).
  split; [|split; [apply valid2_ge, Hp|split; apply mod_residue, Hp]].
  unfold fp2_from_bytes_be, size_bytes2. cbn [base fp2_new].
  rewrite (Z.mul_comm 2 (size_bytes (fp_new p))), Z.div_mul by lia.
  assert (negb (size_bytes (fp_new p) * 2 =? Z.of_nat (length (b0 ++ b1))) = false) as ->.
  { apply negb_false_iff, Z.eqb_eq. rewrite app_length. lia. }
  unfold WCurve.slice. rewrite app_length, Nat2Z.inj_add, L0, L1.
  assert (((0 <=? size_bytes (fp_new p)) && (size_bytes (fp_new p) <=? size_bytes (fp_new p) + size_bytes (fp_new p)))%bool = true) as ->
    by (apply andb_true_iff; split; apply Z.leb_le; lia).
  assert (((size_bytes (fp_new p) <=? 2 * size_bytes (fp_new p)) && (2 * size_bytes (fp_new p) <=? size_bytes (fp_new p) + size_bytes (fp_new p)))%bool = true) as ->
    by (apply andb_true_iff; split; apply Z.leb_le; lia).
  cbn [Z.to_nat skipn bind]. rewrite firstn_app_l by lia. rewrite skipn_app_l by lia. rewrite firstn_all2 by lia.
  unfold fp_from_bytes_be, fp_new. rewrite !elt_fe by lia. cbn [bind unwrap_io].
  rewrite !from_bytes_be_value. reflexivity.
Qed.
Example c19_ex : let x := mkFp2Elt (mkFpElt 258 (mkFp 65537)) (mkFpElt 3 (mkFp 65537)) (mkFp2 (mkFp 65537)) in
  elt2_to_bytes_be x = Ret [0; 1; 2; 0; 0; 3] /\ valid2 65537 x
  /\ fp2_from_bytes_be (fp2_new 65537) [0; 1; 2; 0; 0; 3] = Ret (Ok x)
  /\ fp2_from_bytes_be (fp2_new 65537) [0; 1; 2] = Ret (Err "wrong size").
Proof. vm_compute. repeat split; congruence. Qed.
