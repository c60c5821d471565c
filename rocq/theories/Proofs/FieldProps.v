(** C01-C07, C10: the prime field. *)
From Coq Require Import ZArith Znumtheory Zpow_facts Lia String Bool List Ring Field.
From Verif.Math Require Import Fld Pow Zp Residue.
From Verif.Spec Require Import Arith.
From Verif.Model Require Import Out BigInt PrimeField.
From Verif.Proofs Require Import FieldP.
From Verif.Spec Require Export Elements Exprs.
Import ListNotations.
Open Scope Z_scope.

Lemma mod_residue p n : 0 < p -> residue p n (n mod p).
Proof.
  intro H. split; [apply Z.mod_pos_bound; exact H|].
  exists (n / p). pose proof (Z.div_mod n p ltac:(lia)). lia.
Qed.
Lemma residue_mod p n r : residue p n r -> r = n mod p.
Proof.
  intros [H [k E]]. apply Z.mod_unique with k; [left; exact H|]. lia.
Qed.
Lemma divide_mod_eq p a b : 0 < p -> ((p | a - b) <-> a mod p = b mod p).
Proof.
  intro H. split.
  - intros [k E]. replace a with (b + k * p) by lia. apply Z_mod_plus_full.
  - intro E. apply Zmod_divide; [lia|]. rewrite Zminus_mod, E, Z.sub_diag. apply Zmod_0_l.
Qed.

(** *** C01 *)
(** f.elt(n), also reached by every from(u8..i64), is the canonical residue of n *)
Lemma c01_elt_is_the_residue : forall p n, 0 < p ->
  exists x, elt (fp_new p) n = Ret x /\ from_int (fp_new p) n = Ret x
    /\ fld x = fp_new p /\ residue p n (val x).
Proof.
  intros p n Hp. exists (fe (of_Z p n)). rewrite from_int_fe by lia. rewrite elt_fe by lia.
  repeat split; try reflexivity; apply mod_residue; exact Hp.
Qed.
(** == on elements of one field is congruence of the integers they were made from *)
Lemma c01_elt_eq_iff_congruent : forall p n m, 0 < p ->
  exists x y, elt (fp_new p) n = Ret x /\ elt (fp_new p) m = Ret y
    /\ (fpelt_eqb x y = true <-> (p | n - m)).
Proof.
  intros p n m Hp. exists (fe (of_Z p n)), (fe (of_Z p m)). rewrite !elt_fe by lia.
  repeat split; rewrite fpelt_eqb_fe, of_Z_eq, divide_mod_eq by lia; auto.
Qed.
(** the only way to make elt panic is the modulus 0 *)
Lemma c01_elt_panics_iff_modulus_zero : forall p n, 0 <= p ->
  ((exists msg, elt (fp_new p) n = Panic msg) <-> p = 0).
Proof.
  intros p n Hp. split.
  - intros [msg E]. destruct (Z.eq_dec p 0) as [|N]; [assumption|].
    unfold fp_new in E. rewrite elt_fe in E by exact N. discriminate.
  - intros ->. eexists. reflexivity.
Qed.
Lemma c01_zero_and_one : forall p, 0 < p ->
  exists z o, zero (fp_new p) = Ret z /\ one (fp_new p) = Ret o
    /\ fld z = fp_new p /\ fld o = fp_new p /\ residue p 0 (val z) /\ residue p 1 (val o).
Proof.
  intros p Hp. exists (fe (of_Z p 0)), (fe (of_Z p 1)). rewrite zero_fe, one_fe by lia.
  repeat split; try reflexivity; apply mod_residue; exact Hp.
Qed.
Example c01_ex : elt (fp_new 53) (-13) = Ret (mkFpElt 40 (mkFp 53)). Proof. reflexivity. Qed.

(** *** C02 *)
Lemma run_fe p env e : 0 < p -> (forall i, valid p (env i)) ->
  run (fp_new p) env e = Ret (fe (of_Z p (den (fun i => val (env i)) e))).
Proof.
  intros Hp Henv. assert (p <> 0) by lia.
  induction e; cbn [run den]; try rewrite IHe1; try rewrite IHe2; try rewrite IHe; cbn [bind].
  - f_equal. apply valid_inv, Henv.
  - apply elt_fe. assumption.
  - rewrite add_fe by assumption. rewrite <- of_Z_add. reflexivity.
  - rewrite sub_fe by assumption. rewrite <- of_Z_sub. reflexivity.
  - rewrite mul_fe by assumption. rewrite <- of_Z_mul. reflexivity.
  - rewrite neg_fe by assumption. rewrite <- of_Z_opp. reflexivity.
  - change (pow_u32 ?x 2) with (sqr x). rewrite sqr_fe by assumption. rewrite <- of_Z_mul. reflexivity.
Qed.

(** every expression evaluates, to the canonical residue of the same integer expression *)
Lemma c02_expressions_are_modular : forall p env e, 0 < p -> (forall i, valid p (env i)) ->
  exists x, run (fp_new p) env e = Ret x /\ fld x = fp_new p
    /\ residue p (den (fun i => val (env i)) e) (val x).
Proof.
  intros p env e Hp Henv. eexists. rewrite run_fe by assumption. split; [reflexivity|].
  split; [reflexivity|]. apply mod_residue, Hp.
Qed.
(** hence every identity of integer polynomials is an identity of field expressions under == *)
Lemma c02_ring_laws : forall p env e1 e2, 0 < p -> (forall i, valid p (env i)) ->
  (forall rho, den rho e1 = den rho e2) ->
  exists x y, run (fp_new p) env e1 = Ret x /\ run (fp_new p) env e2 = Ret y
    /\ fpelt_eqb x y = true.
Proof.
  intros p env e1 e2 Hp Henv E. do 2 eexists. rewrite !run_fe by assumption.
  split; [reflexivity|]. split; [reflexivity|]. apply fpelt_eqb_fe. rewrite E. reflexivity.
Qed.
Example c02_ex :
  run (fp_new 53) (fun i => mkFpElt (Z.of_nat i) (mkFp 53))
    (ESub (EMul (EVar 7) (EVar 9)) (ESqr (EAdd (EVar 50) (ENeg (EInt 1000)))))
  = Ret (mkFpElt 47 (mkFp 53))
  /\ valid 53 (mkFpElt 50 (mkFp 53)) /\ (7 * 9 - (50 - 1000) * (50 - 1000) - 47) mod 53 = 0.
Proof. vm_compute. repeat split; congruence. Qed.

(** *** C03 *)
Section Prime.
  Variable p : Z.
  Hypothesis Hp : prime p.
  Local Notation K := (ZpF p Hp).
  Add Field KFq : (Fth K).
  Open Scope fld_scope.

  Lemma pgt1 : (1 < p)%Z. Proof. exact (p_pos p Hp). Qed.
  Lemma pnz : (p <> 0)%Z. Proof. pose proof pgt1. lia. Qed.

  Lemma inv_mod_prime (x : K) : x <> 0 ->
    exists i : K, inv_mod (fe x) = Ret (fe i) /\ i * x = 1.
  Proof.
    intro Hx. pose proof pgt1. destruct (Z.eq_dec p 2) as [E|E].
    - exists 1. split.
      + unfold inv_mod. cbn [fld fe modulus]. rewrite pow_bigint_fe by lia.
        repeat f_equal. apply of_Z_eq. rewrite E at 2. reflexivity.
      + assert (zv x = 1%Z) as Ex.
        { pose proof (zv_range p x ltac:(lia)). apply (zv_nz p Hp) in Hx. lia. }
        apply Zp_eq. change (zv (zmul (of_Z p 1) x) = zv (of_Z p 1)). unfold zmul. rewrite Ex, Z.mul_1_r, of_Z_zv. reflexivity.
    - exists (zinv x). split; [apply inv_mod_fe; lia|].
      exact (Finv_l (Fth K) x Hx).
  Qed.
End Prime.

Lemma valid_nz p x : prime p -> valid p x -> val x <> 0 ->
  forall Hp : prime p, (of_Z p (val x) : ZpF p Hp) <> F0.
Proof.
  intros _ [_ V] N Hp E. change (F0 : ZpF p Hp) with (of_Z p 0) in E.
  apply of_Z_zero in E; [|lia]. apply Z.divide_pos_le in E; lia.
Qed.

(** dividing by a non-zero element and multiplying back gives the dividend *)
Lemma c03_div_mul : forall p a b, prime p -> valid p a -> valid p b -> val b <> 0 ->
  exists q, div a b = Ret q /\ valid p q /\ mul q b = Ret a.
Proof.
  intros p a b Hp Va Vb Nb.
  pose proof (valid_nz p b Hp Vb Nb Hp) as Hb.
  rewrite (valid_inv _ _ Va), (valid_inv _ _ Vb).
  set (x := of_Z p (val a)). set (y := of_Z p (val b)) in *.
  destruct (inv_mod_prime p Hp y Hb) as (i & E & I).
  pose proof (pgt1 p Hp). unfold div. rewrite E. cbn [bind].
  rewrite mul_fe by lia. eexists. split; [reflexivity|]. split; [apply valid_fe; lia|].
  rewrite mul_fe by lia. f_equal. f_equal.
  change (Fmul (Fmul (x : ZpF p Hp) i) y = x).
  assert (A : forall u v w : ZpF p Hp, Fmul (Fmul u v) w = Fmul u (Fmul v w)).
  { intros. symmetry. apply (Rmul_assoc (F_R (Fth (ZpF p Hp)))). }
  rewrite A, I. rewrite (Rmul_comm (F_R (Fth (ZpF p Hp)))). apply (Rmul_1_l (F_R (Fth (ZpF p Hp)))).
Qed.
(** 1u32/b and b^-1i32 are the one and only inverse *)
Lemma c03_inverse : forall p b, prime p -> valid p b -> val b <> 0 ->
  exists i o, one (fp_new p) = Ret o /\ u32_div 1 b = Ret i /\ pow_i32 b (-1) = Ret i /\ valid p i
    /\ mul b i = Ret o /\ forall j, valid p j -> mul b j = Ret o -> j = i.
Proof.
  intros p b Hp Vb Nb.
  pose proof (valid_nz p b Hp Vb Nb Hp) as Hb.
  rewrite (valid_inv _ _ Vb). set (y := of_Z p (val b)) in *.
  destruct (inv_mod_prime p Hp y Hb) as (i & E & I).
  pose proof (pgt1 p Hp). exists (fe i), (fe (of_Z p 1)).
  split; [apply one_fe; lia|]. split; [exact E|]. split; [exact E|]. split; [apply valid_fe; lia|].
  assert (C : Fmul (y : ZpF p Hp) i = F1).
  { rewrite (Rmul_comm (F_R (Fth (ZpF p Hp)))). exact I. }
  split; [rewrite mul_fe by lia; f_equal; f_equal; exact C|].
  intros j Vj Ej. destruct (valid_ex _ _ Vj) as [k ->]. rewrite mul_fe in Ej by lia.
  injection Ej as Ej. f_equal.
  apply (Fcancel_l (ZpF p Hp) y); [exact Hb|]. rewrite C. apply Zp_eq. exact Ej.
Qed.
(** division by zero does not panic: it gives 0 (for p = 2 it gives the dividend) *)
Lemma c03_div_by_zero : forall p a b, prime p -> valid p a -> valid p b -> val b = 0 ->
  exists q, div a b = Ret q /\ valid p q /\ (val q = if p =? 2 then val a else 0).
Proof.
  intros p a b Hp Va Vb Nb. pose proof (pgt1 p Hp).
  rewrite (valid_inv _ _ Va), (valid_inv _ _ Vb). rewrite Nb. unfold div, inv_mod.
  cbn [fld fe modulus]. rewrite pow_bigint_fe by lia. cbn [bind]. rewrite mul_fe by lia.
  eexists. split; [reflexivity|]. split; [apply valid_fe; lia|].
  cbn [val fe]. unfold zmul. rewrite !zv_of_Z, Zmod_0_l. rewrite Zmult_mod_idemp_l, Zmult_mod_idemp_r.
  destruct (Z.eqb_spec p 2) as [->|N].
  - change (0 ^ ((2 - 2) mod (2 - 1))) with 1. rewrite Z.mul_1_r, ?Zmod_mod. reflexivity.
  - rewrite (Z.mod_small (p - 2)), Z.pow_0_l, Z.mul_0_r by lia. apply Zmod_0_l.
Qed.
(** the literals accepted by the u32 numerator, the i32 exponent and the u32 exponent *)
Lemma c03_literals : forall x k,
  (k <> 1 -> u32_div k x = Panic "numerator must be 1u32")
  /\ (k <> -1 -> pow_i32 x k = Panic "exponent must be -1i32")
  /\ (k <> 2 -> pow_u32 x k = Panic "exponent must be 2u32")
  /\ pow_u32 x 2 = mul x x.
Proof.
  intros x k. unfold u32_div, pow_i32, pow_u32, do_if_eq. repeat split; intro H;
    try (apply Z.eqb_neq in H; rewrite H); reflexivity.
Qed.
Example c03_ex : prime 7 /\ valid 7 (mkFpElt 3 (mkFp 7)) /\
  div (mkFpElt 4 (mkFp 7)) (mkFpElt 3 (mkFp 7)) = Ret (mkFpElt 6 (mkFp 7)) /\
  div (mkFpElt 4 (mkFp 7)) (mkFpElt 0 (mkFp 7)) = Ret (mkFpElt 0 (mkFp 7)).
Proof.
  split; [|vm_compute; repeat split; congruence].
  apply prime_intro; [lia|]. intros n Hn. apply Zgcd_1_rel_prime.
  assert (n = 1 \/ n = 2 \/ n = 3 \/ n = 4 \/ n = 5 \/ n = 6) as D by lia.
  decompose [or] D; subst n; reflexivity.
Qed.

(** *** C04 *)
Lemma times_pow x n : times x n = x ^ Z.of_nat n.
Proof.
  induction n as [|n IH]; [reflexivity|]. cbn [times]. rewrite IH, Nat2Z.inj_succ, Z.pow_succ_r by lia.
  reflexivity.
Qed.
(** x ^ &BigUint is repeated multiplication, for any modulus *)
Lemma c04_pow_biguint : forall p x (e : nat), 0 < p -> valid p x ->
  exists y, pow_biguint x (Z.of_nat e) = Ret y /\ fld y = fp_new p
    /\ residue p (times (val x) e) (val y).
Proof.
  intros p x e Hp V. rewrite (valid_inv _ _ V). rewrite pow_biguint_fe by lia.
  eexists. split; [reflexivity|]. split; [reflexivity|]. cbn [val fe].
  rewrite !zv_of_Z, times_pow. apply mod_residue. exact Hp.
Qed.

Lemma pow_mod_order p x e : prime p -> ~ (p | x) -> 0 <= e ->
  x ^ (e mod (p - 1)) mod p = x ^ e mod p.
Proof.
  intros Hp Hx He. assert (1 < p) by (destruct Hp; lia).
  rewrite (Z.div_mod e (p - 1)) at 2 by lia.
  pose proof (Z.mod_pos_bound e (p - 1) ltac:(lia)).
  pose proof (Z.div_pos e (p - 1) He ltac:(lia)).
  rewrite Z.pow_add_r, Z.pow_mul_r by nia.
  rewrite Zmult_mod, (Zpower_mod (x ^ (p - 1))), fermat by (assumption || lia).
  rewrite Z.pow_1_l, Z.mod_1_l, Z.mul_1_l, Zmod_mod by lia. reflexivity.
Qed.

Lemma valid_ndiv p x : valid p x -> val x <> 0 -> ~ (p | val x).
Proof. intros [_ V] N D. apply Z.divide_pos_le in D; lia. Qed.

(** x ^ &BigInt for x <> 0: the power for a non-negative exponent, ... *)
Lemma c04_pow_bigint_nonneg : forall p x (e : nat), prime p -> valid p x -> val x <> 0 ->
  exists y, pow_bigint x (Z.of_nat e) = Ret y /\ fld y = fp_new p
    /\ residue p (times (val x) e) (val y).
Proof.
  intros p x e Hp V N. pose proof (valid_ndiv _ _ V N) as D.
  assert (1 < p) by (destruct Hp; lia).
  rewrite (valid_inv _ _ V). rewrite pow_bigint_fe by lia.
  eexists. split; [reflexivity|]. split; [reflexivity|]. cbn [val fe]. rewrite !zv_of_Z.
  rewrite (Z.mod_small (val x)) by (destruct V; assumption).
  rewrite pow_mod_order by (assumption || lia). rewrite times_pow. apply mod_residue. lia.
Qed.
(** ... and for any exponent of any sign a homomorphism: x^(e+f) = x^e * x^f, x^1 = x *)
Lemma c04_pow_bigint_hom : forall p x e f, prime p -> valid p x -> val x <> 0 ->
  exists y z w, pow_bigint x e = Ret y /\ pow_bigint x f = Ret z /\ pow_bigint x (e + f) = Ret w
    /\ mul y z = Ret w /\ pow_bigint x 1 = Ret x.
Proof.
  intros p x e f Hp V N. pose proof (valid_ndiv _ _ V N) as D.
  assert (1 < p) by (destruct Hp; lia).
  assert (Vx : zv (of_Z p (val x)) = val x) by (rewrite zv_of_Z; apply Z.mod_small, V).
  rewrite (valid_inv _ _ V). rewrite !pow_bigint_fe by lia. rewrite !Vx.
  do 3 eexists. do 3 (split; [reflexivity|]). rewrite mul_fe by lia. rewrite <- of_Z_mul.
  pose proof (Z.mod_pos_bound e (p - 1) ltac:(lia)).
  pose proof (Z.mod_pos_bound f (p - 1) ltac:(lia)).
  split.
  - rewrite <- Z.pow_add_r by lia. f_equal. f_equal. apply of_Z_eq.
    rewrite Zplus_mod. rewrite (pow_mod_order p) by (assumption || lia). reflexivity.
  - f_equal. f_equal. apply of_Z_eq. rewrite pow_mod_order by (assumption || lia).
    rewrite Z.pow_1_r. reflexivity.
Qed.
(** the zero element with a BigInt exponent: 1 exactly when p-1 divides it, else 0 *)
Lemma c04_pow_bigint_zero : forall p x e, 1 < p -> valid p x -> val x = 0 ->
  exists y, pow_bigint x e = Ret y /\ valid p y
    /\ ((p - 1 | e) -> val y = 1) /\ (~ (p - 1 | e) -> val y = 0).
Proof.
  intros p x e Hp V N. rewrite (valid_inv _ _ V). rewrite pow_bigint_fe by lia. rewrite N.
  eexists. split; [reflexivity|]. split; [apply valid_fe; lia|]. cbn [val fe]. rewrite !zv_of_Z, Zmod_0_l.
  split; intro D.
  - apply Zdivide_mod in D. rewrite D. apply Z.mod_1_l. lia.
  - rewrite Z.pow_0_l; [apply Zmod_0_l|]. pose proof (Z.mod_pos_bound e (p - 1) ltac:(lia)).
    assert (e mod (p - 1) <> 0); [|lia]. intro E. apply D. apply Zmod_divide; [lia|exact E].
Qed.
(** so BigInt and BigUint exponents do not always agree: 0^(p-1), for every p > 1 *)
Lemma c04_pow_agreement_refuted : forall p, 1 < p ->
  exists x a b, valid p x /\ pow_biguint x (p - 1) = Ret a /\ pow_bigint x (p - 1) = Ret b
    /\ val a = 0 /\ val b = 1.
Proof.
  intros p Hp. exists (fe (of_Z p 0)), (fe (of_Z p 0)), (fe (of_Z p 1)).
  split; [apply valid_fe; lia|]. rewrite pow_biguint_fe, pow_bigint_fe by lia.
  rewrite zv_of_Z, Zmod_0_l, Z.pow_0_l by lia. rewrite Z_mod_same_full.
  repeat split; cbn [val fe]; rewrite zv_of_Z; apply Z.mod_1_l; lia.
Qed.
Example c04_ex : pow_bigint (mkFpElt 3 (mkFp 7)) (-2) = Ret (mkFpElt 4 (mkFp 7))
  /\ pow_biguint (mkFpElt 3 (mkFp 7)) 100 = Ret (mkFpElt 4 (mkFp 7)).
Proof. split; reflexivity. Qed.

(** *** C05 *)
(** + - * : a panic exactly when the moduli differ *)
Lemma c05_mixing_panics : forall a b, 0 < modulus (fld a) -> 0 < modulus (fld b) ->
  forall op, In op [add; sub; mul] ->
  (modulus (fld a) <> modulus (fld b) -> op a b = Panic "elements of different fields")
  /\ (modulus (fld a) = modulus (fld b) -> exists c, op a b = Ret c).
Proof.
  intros a b Ha Hb op Hop.
  assert (R : forall k, exists c, red a k = Ret c).
  { intro k. unfold red, mod_floor. destruct (Z.eqb_spec (modulus (fld a)) 0); [lia|]. eexists. reflexivity. }
  cbn in Hop. destruct Hop as [<-|[<-|[<-|[]]]]; unfold add, sub, mul, fp_eqb, do_if_eq;
    (split; intro H; [apply Z.eqb_neq in H; rewrite H; reflexivity|apply Z.eqb_eq in H; rewrite H; apply R]).
Qed.
(** / : likewise (moduli above 1, as for every prime) *)
Lemma c05_mixing_division : forall a b, 1 < modulus (fld a) -> 1 < modulus (fld b) ->
  (modulus (fld a) <> modulus (fld b) -> div a b = Panic "elements of different fields")
  /\ (modulus (fld a) = modulus (fld b) -> exists c, div a b = Ret c).
Proof.
  intros a b Ha Hb.
  assert (I : exists i, inv_mod b = Ret i /\ fld i = fld b).
  { unfold inv_mod, pow_bigint, mod_floor. destruct (Z.eqb_spec (modulus (fld b) - 1) 0); [lia|].
    cbn [bind]. pose proof (Z.mod_pos_bound (modulus (fld b) - 2) (modulus (fld b) - 1) ltac:(lia)).
    destruct (Z.ltb_spec ((modulus (fld b) - 2) mod (modulus (fld b) - 1)) 0); [lia|].
    unfold pow_biguint, modpow.
    destruct (Z.ltb_spec ((modulus (fld b) - 2) mod (modulus (fld b) - 1)) 0); [lia|].
    destruct (Z.eqb_spec (modulus (fld b)) 0); [lia|]. cbn [bind].
    unfold red, mod_floor. destruct (Z.eqb_spec (modulus (fld b)) 0); [lia|].
    eexists. split; reflexivity. }
  destruct I as (i & Ei & Fi). unfold div. rewrite Ei. cbn [bind]. rewrite <- Fi in *.
  apply (c05_mixing_panics a i ltac:(lia) ltac:(lia) mul). cbn. auto.
Qed.
(** == never panics (it is a total boolean) and is false across fields *)
Lemma c05_eq_across_fields : forall a b, modulus (fld a) <> modulus (fld b) -> fpelt_eqb a b = false.
Proof.
  intros a b H. unfold fpelt_eqb, fp_eqb. apply Z.eqb_neq in H. rewrite H. apply andb_false_r.
Qed.
Example c05_ex : add (mkFpElt 3 (mkFp 7)) (mkFpElt 3 (mkFp 11)) = Panic "elements of different fields"
  /\ div (mkFpElt 3 (mkFp 7)) (mkFpElt 3 (mkFp 11)) = Panic "elements of different fields"
  /\ mul (mkFpElt 3 (mkFp 7)) (mkFpElt 3 (mkFp 7)) = Ret (mkFpElt 2 (mkFp 7)).
Proof. repeat split. Qed.

(** *** C06 *)
Lemma square_mod_is_sq p (Hp : prime p) z : square_mod p z <-> is_sq p Hp (of_Z p z).
Proof.
  pose proof (pgt1 p Hp). split.
  - intros [y Hy]. exists (of_Z p y). change (zmul (of_Z p y) (of_Z p y) = of_Z p z).
    rewrite <- of_Z_mul. apply of_Z_eq, divide_mod_eq; [lia|exact Hy].
  - intros [y Hy]. exists (zv y). apply divide_mod_eq; [lia|].
    apply of_Z_eq. rewrite of_Z_mul, !of_Z_zv. exact Hy.
Qed.

Lemma is_square_fe p (Hp : prime p) (x : ZpF p Hp) : p <> 2 ->
  exists b, is_square (fe x) = Ret b /\ (b = true <-> is_sq p Hp x).
Proof.
  intro H2. pose proof (pgt1 p Hp) as H1. unfold is_square. cbn [fld fe modulus].
  rewrite pow_bigint_fe by lia. cbn [bind]. eexists. split; [reflexivity|].
  destruct (half_spec p Hp H2) as (_ & Hh & Ep).
  rewrite Z.shiftr_div_pow2, Z.pow_1_r by lia.
  assert (E2 : (p - 1) / 2 = Z.of_nat (half p)).
  { unfold half. rewrite Z2Nat.id; [reflexivity|]. apply Z.div_pos; lia. }
  rewrite E2. rewrite (Z.mod_small (Z.of_nat (half p))) by lia.
  assert (E : of_Z p (zv x ^ Z.of_nat (half p)) = fpow x (half p)).
  { rewrite <- (Nat2Z.id (half p)) at 2. rewrite fpow_of_Z by lia. reflexivity. }
  rewrite E. rewrite orb_true_iff, is_one_fe, is_zero_fe by lia.
  change (of_Z p 1) with (F1 : ZpF p Hp). change (of_Z p 0) with (F0 : ZpF p Hp).
  destruct (Feqd x F0) as [->|Hx].
  - rewrite fpow_0_l by exact Hh. split; [intros _; apply is_sq_0|intros _; right; reflexivity].
  - rewrite <- (euler p Hp H2 x Hx). split; [|intro; left; assumption].
    intros [A|A]; [exact A|]. exfalso. exact (fpow_nz _ x (half p) Hx A).
Qed.

(** is_square is Euler's criterion and decides residuosity, for every prime *)
Lemma c06_is_square_decides : forall p x, prime p -> valid p x ->
  exists b, is_square x = Ret b /\ (b = true <-> square_mod p (val x)).
Proof.
  intros p x Hp V. destruct (Z.eq_dec p 2) as [E|E].
  - subst p. exists true.
    split.
    + rewrite (valid_inv _ _ V). unfold is_square. cbn [fld fe modulus].
      rewrite pow_bigint_fe by lia. reflexivity.
    + split; [intros _|reflexivity]. destruct V as [_ V]. exists (val x).
      exists 0. assert (val x = 0 \/ val x = 1) as [->| ->] by lia; reflexivity.
  - destruct (is_square_fe p Hp (of_Z p (val x)) E) as (b & Eb & H).
    exists b. rewrite <- (valid_inv _ _ V) in Eb. split; [exact Eb|]. rewrite H. symmetry. apply square_mod_is_sq.
Qed.
Example c06_ex : is_square (mkFpElt 2 (mkFp 7)) = Ret true /\ is_square (mkFpElt 3 (mkFp 7)) = Ret false
  /\ valid 7 (mkFpElt 3 (mkFp 7)).
Proof. vm_compute. repeat split; congruence. Qed.

(** *** C07 *)
Lemma sqrt_precmp_3mod4 p : 0 < p -> p mod 4 = 3 -> calc_sqrt_precmp (mkFp p) = Ret (P3MOD4 ((p + 1) / 4)).
Proof.
  intros Hp H. unfold calc_sqrt_precmp. cbn [modulus].
  rewrite !Z.rem_mod_nonneg by (try apply Z.mod_pos_bound; try apply Z.rem_nonneg; lia).
  assert ((p mod 16) mod 4 = 3) as ->.
  { rewrite <- H. rewrite (Z.div_mod p 16) at 2 by lia.
    replace (16 * (p / 16) + p mod 16) with (p mod 16 + (4 * (p / 16)) * 4) by ring.
    rewrite Z_mod_plus_full. reflexivity. }
  cbn [Z.eqb Pos.eqb]. rewrite Z.shiftr_div_pow2 by lia. reflexivity.
Qed.

Section Sqrt5.
  Variable p : Z.
  Hypothesis Hp : prime p.
  Hypothesis H8 : p mod 8 = 5.
  Local Notation K := (ZpF p Hp).

  Definition sqrt_m1_const : K :=
    let t := fpow (Fadd F1 F1 : K) (Z.to_nat ((p - 5) / 8)) in
    Fmul (Fadd (Fadd (Fmul t t) (Fmul t t)) F1) t.

  Lemma p16_8 : (p mod 16) mod 8 = 5.
  Proof.
    rewrite <- H8. rewrite (Z.div_mod p 16) at 2 by lia.
    replace (16 * (p / 16) + p mod 16) with (p mod 16 + (2 * (p / 16)) * 8) by ring.
    rewrite Z_mod_plus_full. reflexivity.
  Qed.
  Lemma p16_4 : (p mod 16) mod 4 = 1.
  Proof.
    pose proof p16_8. rewrite (Z.div_mod (p mod 16) 8) by lia. rewrite p16_8.
    replace (8 * (p mod 16 / 8) + 5) with (1 + (2 * (p mod 16 / 8) + 1) * 4) by ring.
    rewrite Z_mod_plus_full. reflexivity.
  Qed.
  Lemma p_ge5 : 5 <= p.
  Proof.
    pose proof (pgt1 p Hp). destruct (Z.le_gt_cases 5 p); [assumption|].
    rewrite Z.mod_small in H8 by lia. lia.
  Qed.
  Lemma k_range : 0 <= (p - 5) / 8 /\ 8 * ((p - 5) / 8) = p - 5.
  Proof.
    pose proof p_ge5. split; [apply Z.div_pos; lia|].
    assert ((p - 5) / 8 = p / 8) as -> by (symmetry; apply Z.div_unique with 0; pose proof (Z.div_mod p 8); lia).
    pose proof (Z.div_mod p 8). lia.
  Qed.

  Lemma sqrt_precmp_5mod8 :
    calc_sqrt_precmp (mkFp p) = Ret (P5MOD8 ((p - 5) / 8 + 1) (fe sqrt_m1_const)).
  Proof.
    pose proof p_ge5. pose proof k_range as [Hk1 Hk2].
    unfold calc_sqrt_precmp. cbn [modulus].
    rewrite !Z.rem_mod_nonneg by (try apply Z.mod_pos_bound; try apply Z.rem_nonneg; lia).
    rewrite p16_4, p16_8. cbn [Z.eqb Pos.eqb].
    rewrite Z.shiftr_div_pow2 by lia. change (2 ^ 3) with 8.
    rewrite one_fe by lia. cbn [bind].
    rewrite add_fe by lia. cbn [bind].
    rewrite pow_bigint_fe by lia. cbn [bind].
    rewrite (Z.mod_small ((p - 5) / 8)) by lia.
    set (t2 := zadd (of_Z p 1) (of_Z p 1)).
    assert (E : of_Z p (zv t2 ^ ((p - 5) / 8)) = fpow (t2 : K) (Z.to_nat ((p - 5) / 8))).
    { rewrite (fpow_of_Z p Hp) by lia. reflexivity. }
    rewrite E. rewrite sqr_fe by lia. cbn [bind]. rewrite add_fe by lia. cbn [bind].
    rewrite add_fe by lia. cbn [bind]. rewrite mul_fe by lia. reflexivity.
  Qed.

  Lemma sqrt_m1_spec : Fmul sqrt_m1_const sqrt_m1_const = (Fopp F1 : K).
  Proof.
    assert (p <> 2) by (intros ->; discriminate H8).
    exact (sqrt_m1 p Hp H H8).
  Qed.
End Sqrt5.

Lemma sqrt_fe p (Hp : prime p) (x : ZpF p Hp) : sqrt_modulus p ->
  exists y : ZpF p Hp, sqrt (fe x) = Ret (fe y) /\ (is_sq p Hp x -> Fmul y y = x).
Proof.
  pose proof (pgt1 p Hp) as H1.
  intros [H|H].
  - assert (p <> 2) as H2 by (intros ->; discriminate H).
    unfold sqrt. cbn [fld fe]. rewrite sqrt_precmp_3mod4 by (assumption || lia). cbn [bind sqrt_with].
    rewrite pow_bigint_fe by lia.
    assert (R : 0 <= (p + 1) / 4 < p - 1).
    { pose proof (Z.div_mod p 4 ltac:(lia)). split; [apply Z.div_pos; lia|]. apply Z.div_lt_upper_bound; lia. }
    rewrite (Z.mod_small ((p + 1) / 4)) by exact R.
    exists (fpow x (Z.to_nat ((p + 1) / 4))). split.
    + rewrite fpow_of_Z by lia. reflexivity.
    + intro S. exact (sqrt_3mod4 p Hp H2 x H S).
  - assert (p <> 2) as H2 by (intros ->; discriminate H).
    unfold sqrt. cbn [fld fe]. rewrite (sqrt_precmp_5mod8 p Hp H). cbn [bind sqrt_with].
    pose proof (p_ge5 p Hp H). destruct (k_range p Hp H) as [Hk1 Hk2].
    rewrite pow_bigint_fe by lia. cbn [bind].
    rewrite (Z.mod_small ((p - 5) / 8 + 1)) by lia.
    set (t0 := fpow x (Z.to_nat ((p - 5) / 8 + 1))).
    assert (E : of_Z p (zv x ^ ((p - 5) / 8 + 1)) = t0).
    { unfold t0. rewrite fpow_of_Z by lia. reflexivity. }
    rewrite E. rewrite sqr_fe by lia. cbn [bind]. rewrite mul_fe by lia. cbn [bind].
    rewrite fpelt_eqb_fe_b by lia.
    destruct (zp_eqd p x (zmul t0 t0)) as [D|D]; unfold cmov.
    + exists t0. split; [reflexivity|]. intros _. symmetry. exact D.
    + exists (Fmul t0 (sqrt_m1_const p Hp)). split; [reflexivity|]. intro S.
      destruct (sqrt_5mod8_t0 p Hp H2 H x S) as [A|A]; fold t0 in A.
      * exfalso. apply D. symmetry. exact A.
      * set (c := sqrt_m1_const p Hp).
        transitivity (Fmul (Fmul t0 t0) (Fmul c c)).
        -- pose proof (F_R (Fth (ZpF p Hp))) as R.
           rewrite <- !(Rmul_assoc R). f_equal. rewrite !(Rmul_assoc R).
           f_equal. apply (Rmul_comm R).
        -- rewrite A. unfold c. rewrite sqrt_m1_spec by exact H.
           assert (L : forall u : ZpF p Hp, Fmul (Fopp u) (Fopp F1) = u).
           { intro u. pose proof (zp_ring p) as R. clear -R.
             pattern u. apply Zp_ind_of_Z. intro z. apply Zp_eq.
             change (zv (Fmul (Fopp (of_Z p z : ZpF p Hp)) (Fopp F1)))
               with (zv (zmul (zopp (of_Z p z)) (zopp (of_Z p 1)))).
             rewrite <- !of_Z_opp, <- of_Z_mul. f_equal. f_equal. ring. }
           apply L.
Qed.

(** sqrt never panics for p = 3 mod 4 or 5 mod 8 and returns a root of every square *)
Lemma c07_sqrt_is_a_root : forall p x, prime p -> sqrt_modulus p -> valid p x ->
  exists y, sqrt x = Ret y /\ valid p y /\ (square_mod p (val x) -> mul y y = Ret x).
Proof.
  intros p x Hp Hm V. pose proof (pgt1 p Hp). rewrite (valid_inv _ _ V).
  destruct (sqrt_fe p Hp (of_Z p (val x)) Hm) as (y & E & S).
  exists (fe y). split; [exact E|]. split; [apply valid_fe; lia|].
  intro Q. cbn [val fe] in Q. rewrite zv_of_Z in Q.
  assert (Q' : square_mod p (val x)).
  { destruct V as [_ V]. rewrite Z.mod_small in Q by exact V. exact Q. }
  apply (square_mod_is_sq p Hp) in Q'. rewrite mul_fe by lia. f_equal. f_equal. exact (S Q').
Qed.
(** every other prime (2 and p = 1 mod 8): sqrt panics whatever the argument *)
Lemma c07_sqrt_other_primes_panic : forall p x, prime p -> ~ sqrt_modulus p -> fld x = fp_new p ->
  sqrt x = Panic "not implemented".
Proof.
  intros p x Hp Hm Fx. pose proof (pgt1 p Hp). unfold sqrt, calc_sqrt_precmp. rewrite Fx.
  cbn [modulus fp_new]. unfold fp_new. cbn [modulus].
  rewrite !Z.rem_mod_nonneg by (try apply Z.mod_pos_bound; try apply Z.rem_nonneg; lia).
  assert (A4 : (p mod 16) mod 4 = p mod 4).
  { symmetry. rewrite (Z.div_mod p 16) at 1 by lia.
    replace (16 * (p / 16) + p mod 16) with (p mod 16 + (4 * (p / 16)) * 4) by ring.
    apply Z_mod_plus_full. }
  assert (A8 : (p mod 16) mod 8 = p mod 8).
  { symmetry. rewrite (Z.div_mod p 16) at 1 by lia.
    replace (16 * (p / 16) + p mod 16) with (p mod 16 + (2 * (p / 16)) * 8) by ring.
    apply Z_mod_plus_full. }
  rewrite A4, A8.
  destruct (Z.eqb_spec 3 (p mod 4)); [exfalso; apply Hm; left; lia|].
  destruct (Z.eqb_spec 5 (p mod 8)); [exfalso; apply Hm; right; lia|].
  destruct (9 =? (p mod 16) mod 16); reflexivity.
Qed.
Example c07_ex : sqrt (mkFpElt 2 (mkFp 7)) = Ret (mkFpElt 4 (mkFp 7))
  /\ sqrt (mkFpElt 10 (mkFp 13)) = Ret (mkFpElt 6 (mkFp 13))
  /\ sqrt (mkFpElt 2 (mkFp 17)) = Panic "not implemented"
  /\ sqrt_modulus 7 /\ sqrt_modulus 13 /\ ~ sqrt_modulus 17 /\ square_mod 13 10.
Proof.
  do 3 (split; [vm_compute; reflexivity|]).
  split; [left; reflexivity|]. split; [right; reflexivity|].
  split; [intros [E|E]; discriminate E|]. exists 6, 2. reflexivity.
Qed.

(** *** C10 *)
Lemma sgn0_val p x : valid p x -> sgn0 x = if Z.even (val x) then 1 else -1.
Proof.
  intros [_ V]. unfold sgn0. rewrite Z.rem_mod_nonneg by lia. rewrite Zmod_even.
  destruct (Z.even (val x)); reflexivity.
Qed.
Lemma c10_sgn0_is_parity : forall p x, valid p x ->
  sgn0 x = (if Z.even (val x) then 1 else -1).
Proof. exact sgn0_val. Qed.
(** for odd p, negation flips the sign of every non-zero element *)
Lemma c10_sgn0_neg : forall p x, Z.odd p = true -> valid p x -> val x <> 0 ->
  exists y, neg x = Ret y /\ valid p y /\ sgn0 y = - sgn0 x.
Proof.
  intros p x Ho V N. pose proof (valid_pos _ _ V). exists (fe (of_Z p (- val x))).
  split.
  - transitivity (neg (fe (of_Z p (val x)))); [f_equal; apply valid_inv, V|].
    rewrite neg_fe, <- of_Z_opp by lia. reflexivity.
  - assert (V' : valid p (fe (of_Z p (- val x)))) by (apply valid_fe; lia).
    split; [exact V'|]. rewrite (sgn0_val _ _ V'), (sgn0_val _ _ V).
    cbn [val fe]. rewrite zv_of_Z. destruct V as [_ V].
    assert ((- val x) mod p = p - val x) as ->.
    { symmetry. apply Z.mod_unique with (-1); lia. }
    rewrite Z.even_sub. rewrite <- Z.negb_odd, Ho. cbn. destruct (Z.even (val x)); reflexivity.
Qed.
(** a square root is determined by its square and its sgn0 *)
Lemma c10_root_determined : forall p y z, prime p -> p <> 2 -> valid p y -> valid p z ->
  mul y y = mul z z -> sgn0 y = sgn0 z -> y = z.
Proof.
  intros p y z Hp H2 Vy Vz E S. pose proof (pgt1 p Hp).
  assert (Ho : Z.odd p = true).
  { destruct (half_spec p Hp H2) as (_ & _ & Ep). rewrite Ep.
    rewrite Z.odd_add, Z.odd_mul. reflexivity. }
  destruct (valid_ex _ _ Vy) as [a Ea], (valid_ex _ _ Vz) as [b Eb]. subst y z.
  rewrite !mul_fe in E by lia. injection E as E.
  assert (E' : Fmul (a : ZpF p Hp) a = Fmul (b : ZpF p Hp) b) by (apply Zp_eq; exact E).
  apply (Fsqr_eq (ZpF p Hp)) in E'. destruct E' as [E'|E']; [f_equal; exact E'|].
  destruct (Z.eq_dec (val (fe b)) 0) as [Z0|Nz].
  - f_equal. rewrite E'. cbn in Z0. apply Zp_eq. change (Fopp (b : ZpF p Hp)) with (zopp b).
    unfold zopp. rewrite zv_of_Z, Z0. apply Zmod_0_l.
  - destruct (c10_sgn0_neg p (fe b) Ho Vz Nz) as (w & Ew & _ & Sw).
    rewrite neg_fe in Ew by lia. injection Ew as <-.
    change (zopp b) with (Fopp (b : ZpF p Hp)) in Sw. rewrite <- E', S in Sw.
    rewrite (sgn0_val _ _ Vz) in Sw. destruct (Z.even (val (fe b))); discriminate.
Qed.
Example c10_ex : sgn0 (mkFpElt 4 (mkFp 7)) = 1 /\ neg (mkFpElt 4 (mkFp 7)) = Ret (mkFpElt 3 (mkFp 7))
  /\ sgn0 (mkFpElt 3 (mkFp 7)) = -1.
Proof. repeat split. Qed.
