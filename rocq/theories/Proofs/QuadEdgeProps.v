(** C15, C16, C53, C54: division, square-root constants, operand checks, integers, trait
    identities and the constant cache of the quadratic extension. *)
From Coq Require Import ZArith Znumtheory Lia String Bool List Ring Field.
From Verif.Math Require Import Fld Pow Zp Residue Quad.
From Verif.Spec Require Import Arith.
From Verif.Model Require Import Out BigInt PrimeField QuadField FieldExtras.
From Verif.Proofs Require Import FieldP FieldProps BytesP SerialProps QuadProps.
Import ListNotations.
Open Scope Z_scope.

(** *** C15: division *)
Section Div.
  Variable K : Fld.
  Add Field KFqd : (Fth K).
  Open Scope fld_scope.
  Hypothesis two : (2 : K) <> 0.
  Lemma quot_back (a0 a1 b0 b1 : K) : b0 * b0 + b1 * b1 <> 0 ->
    let n := b0 * b0 + b1 * b1 in
    let q0 := a0 * (Finv n * b0) - a1 * (Finv n * b1) in let q1 := a0 * (Finv n * b1) + a1 * (Finv n * b0) in
    (q0 * b0 - q1 * b1 = a0 /\ q0 * b1 + q1 * b0 = a1) <-> ((a0 = 0 /\ a1 = 0) \/ b1 = 0).
  Proof.
    intros N n q0 q1. fold n in N. split.
    - intros [E0 E1]. destruct (Feqd b1 0) as [|B]; [right; assumption|left].
      assert (D0 : a0 * b1 + a1 * b0 = 0).
      { apply (Fcancel_l K (2 * b1 / n)).
        - intro Z. apply (Fmul_nonzero K _ _ two B). transitivity (2 * b1 / n * n); [field; exact N|]. rewrite Z. ring.
        - transitivity (a0 - (q0 * b0 - q1 * b1)); [|rewrite E0; ring]. unfold q0, q1, n. field. exact N. }
      assert (D1 : a0 * b0 - a1 * b1 = 0).
      { apply (Fcancel_l K (2 * b1 / n)).
        - intro Z. apply (Fmul_nonzero K _ _ two B). transitivity (2 * b1 / n * n); [field; exact N|]. rewrite Z. ring.
        - transitivity ((q0 * b1 + q1 * b0) - a1); [|rewrite E1; ring]. unfold q0, q1, n. field. exact N. }
      split; apply (Fcancel_l K n); try exact N.
      + transitivity (b1 * (a0 * b1 + a1 * b0) + b0 * (a0 * b0 - a1 * b1)); [unfold n; ring|]. rewrite D0, D1. ring.
      + transitivity (b0 * (a0 * b1 + a1 * b0) - b1 * (a0 * b0 - a1 * b1)); [unfold n; ring|]. rewrite D0, D1. ring.
    - intros [[-> ->]|B].
      + unfold q0, q1. split; ring.
      + unfold q0, q1, n in *. clear n q0 q1. subst b1.
        assert (b0 * b0 <> 0) by (intro Z; apply N; rewrite Z; ring).
        assert (b0 <> 0) by (intros ->; apply H; ring).
        split; field; repeat split; try assumption; exact N.
  Qed.
  Lemma quot_val (a0 a1 b0 b1 n : K) : n <> 0 ->
    (a0 * (Finv n * b0) - a1 * (Finv n * b1)) * n = a0 * b0 - a1 * b1
    /\ (a0 * (Finv n * b1) + a1 * (Finv n * b0)) * n = a0 * b1 + a1 * b0.
  Proof. intro N. split; field; exact N. Qed.
End Div.

(** a / b multiplies by b, not by its conjugate: the value of a/b times b's norm is a*b *)
Lemma c15_division_value : forall p a b, prime p -> p mod 4 = 3 -> valid2 p a -> valid2 p b ->
  (val (re b) <> 0 \/ val (im b) <> 0) ->
  exists q, div2 a b = Ret q /\ valid2 p q
    /\ let n := val (re b) * val (re b) + val (im b) * val (im b) in
       (val (re q) * n) mod p = (val (re a) * val (re b) - val (im a) * val (im b)) mod p
       /\ (val (im q) * n) mod p = (val (re a) * val (im b) + val (im a) * val (re b)) mod p.
Proof.
  intros p a b Hp H4 Va Vb Nb. pose proof (pgt1 p Hp).
  assert (H2 : 2 < p) by (pose proof (p_not2 p Hp H4); lia).
  set (a0 := of_Z p (val (re a))). set (a1 := of_Z p (val (im a))).
  set (b0 := of_Z p (val (re b))). set (b1 := of_Z p (val (im b))).
  rewrite (valid2_ex _ _ Va), (valid2_ex _ _ Vb). fold a0 a1 b0 b1.
  unfold div2. rewrite inv_mod2_ge by exact H2. cbv zeta. cbn [bind]. rewrite mul2_ge by lia.
  eexists. split; [reflexivity|]. split; [apply valid2_ge; lia|].
  assert (Z0 : forall z, 0 <= z < p -> (of_Z p z = of_Z p 0 <-> z = 0)).
  { intros z Hz. rewrite of_Z_eq, Zmod_0_l, Z.mod_small by exact Hz. reflexivity. }
  pose proof Vb as (_ & (_ & Wa) & (_ & Wb)).
  assert (N : zadd (zmul b0 b0) (zmul b1 b1) <> of_Z p 0).
  { apply (norm_nzK p Hp H4 (b0 : ZpF p Hp) b1). intros [E1 E2]. apply Z0 in E1; [|exact Wa]. apply Z0 in E2; [|exact Wb]. lia. }
  set (n := zadd (zmul b0 b0) (zmul b1 b1)) in *.
  destruct (quot_val (ZpF p Hp) a0 a1 b0 b1 n N) as [Q0 Q1]. cbv zeta.
  cbn [re im ge val fe]. split; apply of_Z_eq; rewrite ?of_Z_sub, ?of_Z_add, ?of_Z_mul, ?of_Z_add, ?of_Z_mul, ?of_Z_zv;
    [exact Q0|exact Q1].
Qed.
(** so a / b is the quotient exactly when b is in the base field (or a is 0) *)
Lemma c15_division_correct_iff : forall p a b, prime p -> p mod 4 = 3 -> valid2 p a -> valid2 p b ->
  (val (re b) <> 0 \/ val (im b) <> 0) ->
  exists q c, div2 a b = Ret q /\ mul2 q b = Ret c
    /\ (fp2elt_eqb c a = true <-> ((val (re a) = 0 /\ val (im a) = 0) \/ val (im b) = 0)).
Proof.
  intros p a b Hp H4 Va Vb Nb. pose proof (pgt1 p Hp).
  assert (H2 : 2 < p) by (pose proof (p_not2 p Hp H4); lia).
  assert (Z0 : forall z, 0 <= z < p -> (of_Z p z = of_Z p 0 <-> z = 0)).
  { intros z Hz. rewrite of_Z_eq, Zmod_0_l, Z.mod_small by exact Hz. reflexivity. }
  pose proof Vb as (_ & (_ & Wa) & (_ & Wb)). pose proof Va as (_ & (_ & Ua) & (_ & Ub)).
  assert (T : ((val (re a) = 0 /\ val (im a) = 0) \/ val (im b) = 0)
    <-> ((of_Z p (val (re a)) = of_Z p 0 /\ of_Z p (val (im a)) = of_Z p 0) \/ of_Z p (val (im b)) = of_Z p 0))
    by (rewrite (Z0 _ Ua), (Z0 _ Ub), (Z0 _ Wb); reflexivity).
  assert (G : forall A B : Prop, (A <-> B) ->
     (exists q c, div2 a b = Ret q /\ mul2 q b = Ret c /\ (fp2elt_eqb c a = true <-> B)) ->
     (exists q c, div2 a b = Ret q /\ mul2 q b = Ret c /\ (fp2elt_eqb c a = true <-> A))).
  { intros A B AB (q & c & E1 & E2 & E3). exists q, c. rewrite AB. auto. }
  apply (G _ _ T). clear G T.
  assert (N : zadd (zmul (of_Z p (val (re b))) (of_Z p (val (re b)))) (zmul (of_Z p (val (im b))) (of_Z p (val (im b)))) <> of_Z p 0).
  { apply (norm_nzK p Hp H4 (of_Z p (val (re b)) : ZpF p Hp) (of_Z p (val (im b)))). intros [E1 E2].
    apply Z0 in E1; [|exact Wa]. apply Z0 in E2; [|exact Wb]. lia. }
  pose proof (quot_back (ZpF p Hp) (two_nz p Hp (p_not2 p Hp H4)) (of_Z p (val (re a))) (of_Z p (val (im a)))
    (of_Z p (val (re b))) (of_Z p (val (im b))) N) as Q. cbv zeta in Q.
  pose proof (valid2_ex _ _ Va) as Ea. pose proof (valid2_ex _ _ Vb) as Eb.
  set (a0 := of_Z p (val (re a))) in *. set (a1 := of_Z p (val (im a))) in *.
  set (b0 := of_Z p (val (re b))) in *. set (b1 := of_Z p (val (im b))) in *.
  clearbody a0 a1 b0 b1. subst a b.
  unfold div2. rewrite inv_mod2_ge by exact H2. cbv zeta. cbn [bind]. rewrite mul2_ge by lia.
  eexists. eexists. split; [reflexivity|]. rewrite mul2_ge by lia. split; [reflexivity|].
  rewrite ge_eqb. exact Q.
Qed.
(** dividing by zero gives zero, no panic *)
Lemma c15_division_by_zero : forall p a, 2 < p -> valid2 p a ->
  exists z, zero2 (fp2_new p) = Ret z /\ div2 a z = Ret z.
Proof.
  intros p a H V. exists (ge p (of_Z p 0) (of_Z p 0)). split; [unfold zero2; rewrite elt2_ge by lia; reflexivity|].
  rewrite (valid2_ex _ _ V). unfold div2. rewrite inv_mod2_ge by exact H. cbv zeta. cbn [bind]. rewrite mul2_ge by lia.
  set (x := zinv _). set (u := of_Z p (val (re a))). set (v := of_Z p (val (im a))).
  assert (RT := zp_ring p). assert (M : forall y : Zp p, zmul y (of_Z p 0) = of_Z p 0).
  { intro y. pattern y. apply Zp_ind_of_Z. intro z. rewrite <- of_Z_mul. apply of_Z_eq. f_equal. ring. }
  rewrite !M. rewrite <- of_Z_sub, <- of_Z_add. reflexivity.
Qed.
Example c15_division_ex :
  let e := fun a b => mkFp2Elt (mkFpElt a (mkFp 7)) (mkFpElt b (mkFp 7)) (mkFp2 (mkFp 7)) in
  div2 (e 1 0) (e 0 1) = Ret (e 0 1) /\ mul2 (e 0 1) (e 0 1) = Ret (e 6 0)
  /\ div2 (e 4 5) (e 2 0) = Ret (e 2 6) /\ mul2 (e 2 6) (e 2 0) = Ret (e 4 5).
Proof. vm_compute. repeat split. Qed.

(** *** C16: the constants of sqrt *)
(** they exist exactly for p = 3 mod 4: (p-3)/4 and (p-1)/2 *)
Lemma c16_sqrt_constants : forall p, 0 <= p ->
  (p mod 4 = 3 -> exists c1 c2, calc_sqrt_precmp2 (fp2_new p) = Ret (c1, c2) /\ 4 * c1 + 3 = p /\ 2 * c2 + 1 = p)
  /\ (p mod 4 <> 3 -> calc_sqrt_precmp2 (fp2_new p) = Panic "not implemented").
Proof.
  intros p Hp. unfold calc_sqrt_precmp2. cbn [base fp2_new modulus fp_new].
  rewrite Z.rem_mod_nonneg by lia. pose proof (Z.div_mod p 4 ltac:(lia)) as D. split; intro H.
  - rewrite H. cbn [Z.eqb Pos.eqb]. do 2 eexists. split; [reflexivity|].
    rewrite !Z.shiftr_div_pow2 by lia. change (2 ^ 2) with 4. change (2 ^ 1) with 2. split.
    + replace (p - 3) with (p / 4 * 4) by lia. rewrite Z.div_mul by lia. lia.
    + replace (p - 1) with ((p / 4 * 2 + 1) * 2) by lia. rewrite Z.div_mul by lia. lia.
  - destruct (Z.eqb_spec 3 (p mod 4)); [lia|reflexivity].
Qed.
(** sqrt always stops at the same message *)
Lemma c16_sqrt_message_refuted : forall p x, 0 <= p -> fld2 x = fp2_new p -> sqrt2 x = Panic "not implemented".
Proof.
  intros p x Hp F. unfold sqrt2, sqrt2_using, sqrt2_steps. rewrite F. destruct (c16_sqrt_constants p Hp) as [A B].
  destruct (Z.eq_dec (p mod 4) 3) as [H|H]; [|rewrite (B H); reflexivity].
  destruct (A H) as (c1 & c2 & -> & E1 & _). cbn [bind]. unfold pow_bigint2, pow_bigint2_from.
  destruct (Z.ltb_spec c1 0); [|reflexivity]. exfalso.
  pose proof (Z.div_mod p 4 ltac:(lia)). pose proof (Z.div_pos p 4). lia.
Qed.
Example c16_constants_ex : calc_sqrt_precmp2 (fp2_new 103) = Ret (25, 51)
  /\ calc_sqrt_precmp2 (fp2_new 13) = Panic "not implemented".
Proof. split; reflexivity. Qed.

(** *** C53 *)
Lemma inv_mod_valid p b : 1 < p -> valid p b -> exists i, inv_mod b = Ret i /\ valid p i.
Proof.
  intros H [F V]. unfold inv_mod, pow_bigint, mod_floor. rewrite F. cbn [modulus fp_new].
  destruct (Z.eqb_spec (p - 1) 0); [lia|].
  cbn [bind]. pose proof (Z.mod_pos_bound (p - 2) (p - 1) ltac:(lia)).
  destruct (Z.ltb_spec ((p - 2) mod (p - 1)) 0); [lia|].
  unfold pow_biguint, modpow. destruct (Z.ltb_spec ((p - 2) mod (p - 1)) 0); [lia|].
  rewrite F. cbn [modulus fp_new]. destruct (Z.eqb_spec p 0); [lia|]. cbn [bind].
  unfold red, mod_floor. rewrite F. cbn [modulus fp_new]. destruct (Z.eqb_spec p 0); [lia|].
  eexists. split; [reflexivity|]. split; [reflexivity|]. cbn [val]. apply Z.mod_pos_bound. lia.
Qed.
Lemma inv_mod2_valid p b : 1 < p -> valid2 p b -> exists i, inv_mod2 b = Ret i /\ valid2 p i.
Proof.
  intros H V. rewrite (valid2_ex _ _ V). unfold inv_mod2. cbn [re im fld2 ge]. fes. unfold u32_div.
  cbn [Z.eqb Pos.eqb do_if_eq]. set (n := zadd _ _).
  destruct (inv_mod_valid p (fe n) H (valid_fe p n ltac:(lia))) as (i & E & Vi). rewrite E. cbn [bind].
  rewrite (valid_inv p i Vi). fes. eexists. split; [reflexivity|]. apply valid2_ge. lia.
Qed.
(** + - * / of elements of two quadratic fields panic, of one field they do not *)
Lemma c53_mixing : forall p q a b, 1 < p -> 1 < q -> valid2 p a -> valid2 q b ->
  forall op, In op [add2; sub2; mul2; div2] ->
  (p <> q -> op a b = Panic "elements of different fields")
  /\ (p = q -> exists c, op a b = Ret c /\ valid2 p c).
Proof.
  intros p q a b Hp Hq Va Vb op Hop.
  destruct (inv_mod2_valid q b Hq Vb) as (i & Ei & Vi).
  assert (N : forall c d, valid2 p c -> valid2 q d -> p <> q -> fp2_eqb (fld2 c) (fld2 d) = false).
  { intros c d (-> & _) (-> & _) N. apply Z.eqb_neq, N. }
  cbn in Hop. destruct Hop as [<-|[<-|[<-|[<-|[]]]]].
  - split; [intro D; unfold add2; rewrite (N a b Va Vb D); reflexivity|intros ->].
    rewrite (valid2_ex _ _ Va), (valid2_ex _ _ Vb), add2_ge by lia. eexists. split; [reflexivity|apply valid2_ge; lia].
  - split; [intro D; unfold sub2; rewrite (N a b Va Vb D); reflexivity|intros ->].
    rewrite (valid2_ex _ _ Va), (valid2_ex _ _ Vb), sub2_ge by lia. eexists. split; [reflexivity|apply valid2_ge; lia].
  - split; [intro D; unfold mul2; rewrite (N a b Va Vb D); reflexivity|intros ->].
    rewrite (valid2_ex _ _ Va), (valid2_ex _ _ Vb), mul2_ge by lia. eexists. split; [reflexivity|apply valid2_ge; lia].
  - unfold div2. rewrite Ei. cbn [bind].
    split; [intro D; unfold mul2; rewrite (N a i Va Vi D); reflexivity|intros ->].
    rewrite (valid2_ex _ _ Va), (valid2_ex _ _ Vi), mul2_ge by lia. eexists. split; [reflexivity|apply valid2_ge; lia].
Qed.
(** == is false across fields and decides equality of both coordinates within one *)
Lemma c53_equality : forall p q a b, valid2 p a -> valid2 q b ->
  (fp2elt_eqb a b = true <-> p = q /\ val (re a) = val (re b) /\ val (im a) = val (im b)).
Proof.
  intros p q a b (Fa & (Ga & _) & (Ha & _)) (Fb & (Gb & _) & (Hb & _)).
  unfold fp2elt_eqb, fpelt_eqb, fp2_eqb, fp_eqb. rewrite Fa, Fb, Ga, Gb, Ha, Hb. cbn [base fp2_new modulus fp_new].
  rewrite !andb_true_iff, !Z.eqb_eq. tauto.
Qed.
(** x^e only for e = 2u32 and e = -1i32, k/x only for k = 1u32 *)
Lemma c53_operand_guards : forall x k,
  (k <> 1 -> u32_div2 k x = Panic "numerator must be 1u32")
  /\ (k <> -1 -> pow_i32_2 x k = Panic "exponent must be -1i32")
  /\ (k <> 2 -> pow_u32_2 x k = Panic "exponent must be 2u32")
  /\ pow_u32_2 x 2 = mul2 x x /\ pow_i32_2 x (-1) = u32_div2 1 x.
Proof.
  intros x k. unfold u32_div2, pow_i32_2, pow_u32_2.
  repeat split; intro H; try (apply Z.eqb_neq in H; rewrite H; reflexivity).
Qed.
(** integers of any sign and size become (k mod p) + 0 i; zero() and one() are those of 0 and 1 *)
Lemma c53_integers : forall p k, 0 < p -> exists x, from_int2 (fp2_new p) k = Ret x /\ valid2 p x
  /\ residue p k (val (re x)) /\ val (im x) = 0
  /\ (k = 0 -> zero2 (fp2_new p) = Ret x /\ is_zero2 x = true)
  /\ (k = 1 -> 1 < p -> one2 (fp2_new p) = Ret x /\ is_one2 x = true).
Proof.
  intros p k H. exists (ge p (of_Z p k) (of_Z p 0)). unfold from_int2, zero2, one2. rewrite !elt2_ge by lia.
  split; [reflexivity|]. split; [apply valid2_ge, H|]. split; [apply mod_residue, H|]. split; [reflexivity|].
  split.
  - intros ->. split; reflexivity.
  - intros -> H1. split; [reflexivity|]. unfold is_one2, is_one, is_zero. cbn [re im ge val fe].
    rewrite !zv_of_Z, Z.mod_1_l, Zmod_0_l by lia. reflexivity.
Qed.

(** the trait constructors zero() and one() (no receiver) return nothing: each panics, as not implemented *)
Lemma c53_trait_constructors_refuted :
  ((forall x, fpelt_trait_zero <> Ret x) /\ (forall x, fpelt_trait_one <> Ret x)
   /\ (forall x, fp2elt_trait_zero <> Ret x) /\ (forall x, fp2elt_one <> Ret x))
  /\ fpelt_trait_zero = Panic "not implemented" /\ fpelt_trait_one = Panic "not implemented"
  /\ fp2elt_trait_zero = Panic "not implemented" /\ fp2elt_one = Panic "not implemented".
Proof. repeat split; discriminate. Qed.
(** set_zero, set_one turn any element into its field's zero and one; is_zero, is_one tell them *)
Lemma c53_set_identities : forall p x, 1 < p -> valid p x ->
  zero (fp_new p) = Ret (set_zero x) /\ one (fp_new p) = Ret (set_one x)
  /\ (is_zero x = true <-> x = set_zero x) /\ (is_one x = true <-> x = set_one x).
Proof.
  intros p [v F] H [E V]. cbn in E, V. subst F. unfold zero, one, elt, mod_floor, set_zero, set_one. cbn [modulus fp_new fld].
  destruct (Z.eqb_spec p 0); [lia|]. rewrite Zmod_0_l, Z.mod_1_l by lia. split; [reflexivity|]. split; [reflexivity|].
  unfold is_zero, is_one. cbn [val]. rewrite !Z.eqb_eq. split; (split; [intros ->; reflexivity|intro D; injection D as D; exact D]).
Qed.
Lemma c53_set_identities_quadratic : forall p x, 1 < p -> valid2 p x ->
  zero2 (fp2_new p) = Ret (set_zero2 x) /\ one2 (fp2_new p) = Ret (set_one2 x)
  /\ (is_zero2 x = true <-> x = set_zero2 x) /\ (is_one2 x = true <-> x = set_one2 x).
Proof.
  intros p [a b F] H (E & Va & Vb). cbn in E, Va, Vb. subst F.
  destruct (c53_set_identities p a H Va) as (Za & Oa & IZa & IOa).
  destruct (c53_set_identities p b H Vb) as (Zb & _ & IZb & _).
  assert (SZ : set_zero a = set_zero b) by congruence.
  unfold zero2, one2, elt2, set_zero2, set_one2, is_zero2, is_one2. cbn [re im fld2 base fp2_new].
  change (elt (fp_new p) 0) with (zero (fp_new p)). change (elt (fp_new p) 1) with (one (fp_new p)).
  rewrite Oa, Zb, SZ. cbn [bind]. rewrite SZ in IZa.
  split; [reflexivity|]. split; [reflexivity|]. rewrite !andb_true_iff, IZa, IZb, IOa.
  split; (split; [intros [D1 D2]; apply (f_equal2 (fun u v => mkFp2Elt u v (fp2_new p))); assumption
                 |intro D; apply (f_equal (fun x => (re x, im x))) in D; cbn [re im] in D;
                  split; [apply (f_equal fst) in D|apply (f_equal snd) in D]; exact D]).
Qed.
(** with modulus 1 set_one leaves the value 1, which is not the one() of that ring *)
Lemma c53_set_one_modulus_one_refuted : forall x, fld x = fp_new 1 ->
  exists o, one (fp_new 1) = Ret o /\ fpelt_eqb (set_one x) o = false /\ is_one o = false.
Proof. intros x F. eexists. split; [reflexivity|]. unfold fpelt_eqb, set_one, is_one. rewrite F. split; reflexivity. Qed.
(** get_modulus gives back the modulus the field was made with; cmov picks by the flag *)
Lemma c53_accessors : forall p, get_modulus (fp_new p) = p /\ get_modulus2 (fp2_new p) = p
  /\ forall x y : Fp2Elt, cmov x y true = y /\ cmov x y false = x.
Proof. intro p. repeat split. Qed.
Example c53_ex :
  let e := fun p a b => mkFp2Elt (mkFpElt a (mkFp p)) (mkFpElt b (mkFp p)) (mkFp2 (mkFp p)) in
  add2 (e 7 1 2) (e 11 1 2) = Panic "elements of different fields" /\ valid2 7 (e 7 1 2) /\ valid2 11 (e 11 1 2)
  /\ div2 (e 7 1 2) (e 11 1 2) = Panic "elements of different fields"
  /\ from_int2 (fp2_new 7) (-1) = Ret (e 7 6 0) /\ set_one2 (e 7 3 4) = e 7 1 0 /\ is_one2 (e 7 1 1) = false.
Proof. vm_compute. repeat split; congruence. Qed.

(** *** C54 *)
Lemma history2 p : 0 <= p -> forall n c, q_field c = fp2_new p -> q_borrowed c = false ->
  (q_cache c = None \/ exists pre, q_cache c = Some pre /\ calc_sqrt_precmp2 (fp2_new p) = Ret pre) ->
  let h := get_history2 c n in
  snd h = repeat (calc_sqrt_precmp2 (fp2_new p)) n /\ q_field (fst h) = fp2_new p /\ q_borrowed (fst h) = false
  /\ (q_cache (fst h) = None \/ exists pre, q_cache (fst h) = Some pre /\ calc_sqrt_precmp2 (fp2_new p) = Ret pre)
  /\ ((0 < n)%nat -> q_cache (fst h) = None -> exists msg, calc_sqrt_precmp2 (fp2_new p) = Panic msg).
Proof.
  intros Hp. induction n as [|n IH]; intros c F B C; cbv zeta.
  - cbn. repeat split; try assumption. lia.
  - cbn [get_history2 repeat]. unfold get_sqrt_precmp2. rewrite B, F.
    destruct (calc_sqrt_precmp2 (fp2_new p)) as [new|msg] eqn:E.
    + set (pre := match q_cache c with Some old => old | None => new end).
      assert (P : pre = new).
      { subst pre. destruct C as [->|(o & -> & Q)]; [reflexivity|congruence]. }
      clearbody pre. subst pre.
      destruct (IH (mkCell2 (fp2_new p) (Some new) false) eq_refl eq_refl) as (H1 & H2 & H3 & H4 & _).
      { right. exists new. split; [reflexivity|reflexivity]. }
      cbv zeta in *. destruct (get_history2 (mkCell2 (fp2_new p) (Some new) false) n) as [c2 rs] eqn:G. cbn [fst snd] in *.
      rewrite H1. repeat split; try assumption. intros _ N. exfalso.
      assert (K : forall m c0, q_borrowed c0 = false -> q_cache c0 <> None -> q_cache (fst (get_history2 c0 m)) <> None).
      { clear. induction m as [|m IH]; intros c0 B N; [exact N|]. cbn [get_history2]. unfold get_sqrt_precmp2. rewrite B.
        destruct (calc_sqrt_precmp2 (q_field c0)).
        - destruct (q_cache c0) as [old|] eqn:Q; [|contradiction].
          specialize (IH (mkCell2 (q_field c0) (Some old) false) eq_refl ltac:(discriminate)).
          destruct (get_history2 _ m). exact IH.
        - specialize (IH (mkCell2 (q_field c0) (q_cache c0) false) eq_refl N).
          destruct (get_history2 _ m). exact IH. }
      specialize (K n (mkCell2 (fp2_new p) (Some new) false) eq_refl ltac:(discriminate)). rewrite G in K. exact (K N).
    + destruct (IH (mkCell2 (fp2_new p) (q_cache c) false) eq_refl eq_refl C) as (H1 & H2 & H3 & H4 & _).
      cbv zeta in *. destruct (get_history2 _ n) as [c2 rs]. cbn [fst snd] in *. rewrite H1. repeat split; try assumption.
      intros _ _. eexists. reflexivity.
Qed.
(** every call of every sequence answers as a fresh field would, the panic for p <> 3 mod 4
    included; the cell is free again after each; what it holds afterwards is decided by p *)
Lemma c54_cache_transparent : forall p n, 0 <= p ->
  let h := get_history2 (cell2_new p) (S n) in
  snd h = repeat (calc_sqrt_precmp2 (fp2_new p)) (S n) /\ q_borrowed (fst h) = false
  /\ (p mod 4 = 3 -> exists c1 c2, q_cache (fst h) = Some (c1, c2) /\ 4 * c1 + 3 = p /\ 2 * c2 + 1 = p)
  /\ (p mod 4 <> 3 -> q_cache (fst h) = None /\ Forall (fun r => r = Panic "not implemented") (snd h)).
Proof.
  intros p n Hp. destruct (history2 p Hp (S n) (cell2_new p) eq_refl eq_refl (or_introl eq_refl)) as (H1 & H2 & H3 & H4 & H5).
  cbv zeta in *. set (h := get_history2 _ _) in *. split; [exact H1|]. split; [exact H3|].
  destruct (c16_sqrt_constants p Hp) as [A B]. split; intro H.
  - destruct (A H) as (c1 & c2 & E & E1 & E2). exists c1, c2. split; [|auto].
    destruct H4 as [N|(pre & Q & R)]; [|congruence]. destruct (H5 ltac:(lia) N) as [msg M]. congruence.
  - split.
    + destruct H4 as [N|(pre & Q & R)]; [exact N|]. rewrite (B H) in R. discriminate R.
    + rewrite H1, (B H). apply Forall_forall. intros x I. apply repeat_spec in I. exact I.
Qed.
Example c54_ex : get_history2 (cell2_new 103) 2 = (mkCell2 (fp2_new 103) (Some (25, 51)) false, [Ret (25, 51); Ret (25, 51)])
  /\ get_history2 (cell2_new 13) 2 = (cell2_new 13, [Panic "not implemented"; Panic "not implemented"]).
Proof. split; reflexivity. Qed.
