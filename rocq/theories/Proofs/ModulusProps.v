(** C67: a field object made with any modulus, and which operations tell whether it is prime. *)
From Coq Require Import ZArith Znumtheory Lia String Bool List.
From Verif.Math Require Import Zp Composite Composite5.
From Verif.Spec Require Import Arith.
From Verif.Model Require Import Out BigInt PrimeField.
From Verif.Proofs Require Import FieldP SmallP.
From Verif.Proofs Require FieldProps.
From Verif.Spec Require Export Elements Exprs.
Import ListNotations.
Open Scope Z_scope.

Lemma fe_div n a b : 0 < n -> (of_Z n a = of_Z n b <-> (n | a - b)).
Proof. intro H. rewrite of_Z_eq. symmetry. apply FieldProps.divide_mod_eq. exact H. Qed.
Lemma inv_any n (b : Zp n) : 1 < n -> inv_mod (fe b) = Ret (fe (of_Z n (zv b ^ (n - 2)))).
Proof.
  intro H. unfold inv_mod. cbn [fld fe modulus]. rewrite pow_bigint_fe by lia.
  destruct (Z.eq_dec n 2) as [->|N]; [reflexivity|]. rewrite Z.mod_small by lia. reflexivity.
Qed.
Lemma mul_of_Z n a b : 0 < n -> mul (fe (of_Z n a)) (fe (of_Z n b)) = Ret (fe (of_Z n (a * b))).
Proof. intro H. rewrite mul_fe by lia. rewrite of_Z_mul. reflexivity. Qed.
Lemma fe_ret_inj n (x y : Zp n) : Ret (fe x) = Ret (fe y) <-> x = y.
Proof. split; [|intros ->; reflexivity]. intro E. apply fe_inj. congruence. Qed.
Lemma valid_of n z : 0 < n -> valid n (fe (of_Z n z)).
Proof. intro. apply valid_fe. assumption. Qed.

(** a non-trivial divisor has no inverse *)
Lemma divisor_no_inverse n d z : 1 < d < n -> (d | n) -> ~ (n | z * d - 1).
Proof.
  intros Hd D F. assert (G : (d | z * d - 1)) by (apply Z.divide_trans with n; assumption).
  assert (E : (d | 1)).
  { replace 1 with (z * d - (z * d - 1)) by ring. apply Z.divide_sub_r; [exists z; reflexivity|exact G]. }
  destruct (Z.divide_1_r d E); lia.
Qed.

(** *** C67 *)
(** Fp::new never looks whether its modulus is prime. Modulo 1 there is one element, it is both
    zero and one, and whatever needs an exponent modulo p - 1 panics *)
Lemma c67_modulus_one : exists z, zero (fp_new 1) = Ret z /\ one (fp_new 1) = Ret z
  /\ (forall x, valid 1 x -> x = z)
  /\ forall x e, valid 1 x -> (exists m, pow_bigint x e = Panic m) /\ (exists m, u32_div 1 x = Panic m)
       /\ (exists m, div x x = Panic m) /\ (exists m, is_square x = Panic m)
       /\ add x x = Ret z /\ mul x x = Ret z.
Proof.
  exists (fe (of_Z 1 0)). split; [reflexivity|]. split; [reflexivity|]. split.
  - intros x V. destruct (valid_ex _ _ V) as [k ->]. f_equal. apply Zp_eq.
    pose proof (zv_range 1 k ltac:(lia)). rewrite zv_of_Z. cbn. lia.
  - intros x e V. destruct (valid_ex _ _ V) as [k ->].
    assert (E : fe k = fe (of_Z 1 0)).
    { f_equal. apply Zp_eq. pose proof (zv_range 1 k ltac:(lia)). rewrite zv_of_Z. cbn. lia. }
    rewrite E. repeat split; try (eexists; reflexivity).
Qed.

(** one element at a time, for any modulus above 1: 1u32/b inverts b exactly when b^(n-1) = 1 modulo n *)
Lemma c67_inverse_of_an_element : forall n b, 1 < n -> valid n b ->
  exists i o, one (fp_new n) = Ret o /\ u32_div 1 b = Ret i /\ valid n i
    /\ (mul i b = Ret o <-> (n | val b ^ (n - 1) - 1)).
Proof.
  intros n b Hn V. destruct (valid_ex _ _ V) as [k ->].
  exists (fe (of_Z n (zv k ^ (n - 2)))), (fe (of_Z n 1)).
  split; [unfold fp_new; rewrite one_fe by lia; reflexivity|].
  split; [unfold u32_div; cbn [Z.eqb Pos.eqb do_if_eq]; apply inv_any; exact Hn|].
  split; [apply valid_of; lia|].
  rewrite <- (of_Z_zv n k) at 2. rewrite mul_of_Z by lia. rewrite fe_ret_inj, fe_div by lia.
  cbn [val fe]. replace (n - 1) with (n - 2 + 1) by lia. rewrite Z.pow_add_r, Z.pow_1_r by lia. reflexivity.
Qed.

(** all of them: division undoes multiplication for every non-zero divisor exactly when the modulus
    is prime *)
Lemma c67_division_iff_prime : forall n, 1 < n ->
  ((forall a b, valid n a -> valid n b -> val b <> 0 -> exists q, div a b = Ret q /\ mul q b = Ret a)
   <-> prime n).
Proof.
  intros n Hn. split.
  - intro A. destruct (prime_dec n) as [P|P]; [exact P|exfalso].
    destruct (not_prime_divide n Hn P) as (d & Hd & D).
    destruct (A (fe (of_Z n 1)) (fe (of_Z n d))) as (q & E & M).
    + apply valid_of; lia.
    + apply valid_of; lia.
    + cbn [val fe]. rewrite zv_of_Z, Z.mod_small by lia. lia.
    + unfold div in E. rewrite inv_any in E by lia. cbn [bind] in E.
      rewrite mul_of_Z in E by lia. assert (E' : q = fe (of_Z n (1 * zv (of_Z n d) ^ (n - 2)))) by congruence.
      subst q. rewrite mul_of_Z, fe_ret_inj, fe_div in M by lia. exact (divisor_no_inverse n d _ Hd D M).
  - intros P a b Va Vb Nb. destruct (FieldProps.c03_div_mul n a b P Va Vb Nb) as (q & E & _ & M).
    exists q. split; assumption.
Qed.

(** x ^ &BigInt turns sums of exponents into products for every non-zero x exactly when the modulus is
    prime *)
Lemma c67_powers_iff_prime : forall n, 1 < n ->
  ((forall x e f, valid n x -> val x <> 0 ->
      exists y z w, pow_bigint x e = Ret y /\ pow_bigint x f = Ret z /\ pow_bigint x (e + f) = Ret w
        /\ mul y z = Ret w)
   <-> prime n).
Proof.
  intros n Hn. split.
  - intro A. destruct (prime_dec n) as [P|P]; [exact P|exfalso].
    destruct (not_prime_divide n Hn P) as (d & Hd & D).
    destruct (A (fe (of_Z n d)) (n - 2) 1) as (y & z & w & Y & Z & W & M).
    + apply valid_of; lia.
    + cbn [val fe]. rewrite zv_of_Z, Z.mod_small by lia. lia.
    + rewrite pow_bigint_fe in Y, Z, W by lia. rewrite zv_of_Z, (Z.mod_small d) in Y, Z, W by lia.
      replace (n - 2 + 1) with (n - 1) in W by lia. rewrite Z.mod_same, Z.pow_0_r in W by lia.
      rewrite (Z.mod_small 1), Z.pow_1_r in Z by lia. rewrite (Z.mod_small (n - 2)) in Y by lia.
      assert (y = fe (of_Z n (d ^ (n - 2)))) by congruence.
      assert (z = fe (of_Z n d)) by congruence. assert (w = fe (of_Z n 1)) by congruence. subst.
      rewrite mul_of_Z, fe_ret_inj, fe_div in M by lia. exact (divisor_no_inverse n d _ Hd D M).
  - intros P x e f V N. destruct (FieldProps.c04_pow_bigint_hom n x e f P V N) as (y & z & w & Y & Z & W & M & _).
    exists y, z, w. repeat split; assumption.
Qed.

Lemma is_square_any n (x : Zp n) : 1 < n ->
  exists b, is_square (fe x) = Ret b
    /\ (b = true <-> (n | zv x ^ ((n - 1) / 2) - 1) \/ (n | zv x ^ ((n - 1) / 2))).
Proof.
  intro Hn. unfold is_square. cbn [fld fe modulus]. rewrite pow_bigint_fe by lia.
  replace (Z.shiftr (n - 1) 1) with ((n - 1) / 2) by (rewrite Z.shiftr_div_pow2 by lia; reflexivity).
  rewrite Z.mod_small.
  2:{ split; [apply Z.div_pos; lia|]. destruct (Z.eq_dec n 2) as [->|]; [cbn; lia|].
      apply Z.div_lt; lia. }
  cbn [bind]. eexists. split; [reflexivity|]. unfold is_one, is_zero. cbn [val fe].
  rewrite zv_of_Z, orb_true_iff, !Z.eqb_eq. set (t := zv x ^ ((n - 1) / 2)).
  assert (E1 : t mod n = 1 <-> (n | t - 1)).
  { rewrite FieldProps.divide_mod_eq by lia. rewrite (Z.mod_small 1) by lia. reflexivity. }
  assert (E0 : t mod n = 0 <-> (n | t)) by (apply Z.mod_divide; lia).
  rewrite E1, E0. reflexivity.
Qed.

(** is_square tells squares from the others exactly when the modulus is prime - or 4, where it
    happens to be right as well *)
Lemma c67_is_square_iff_prime_or_four : forall n, 1 < n ->
  ((forall x, valid n x -> exists b, is_square x = Ret b /\ (b = true <-> square_mod n (val x)))
   <-> prime n \/ n = 4).
Proof.
  intros n Hn. split.
  - intro A. destruct (prime_dec n) as [P|P]; [left; exact P|right].
    destruct (composite_cases n Hn P) as [E|[(q & Q & D & NE & N2)|(k & K & E)]]; [exact E|exfalso|exfalso].
    + set (e := (n - 1) / 2). assert (He : 0 < e).
      { unfold e. apply Z.div_str_pos. pose proof (prime_gt1 _ Q).
        pose proof (Z.divide_pos_le q n ltac:(lia) D). lia. }
      assert (Ne : ~ (q | 2 * e)).
      { intro F. pose proof (prime_gt1 _ Q) as Hq.
        pose proof (Z.div_mod (n - 1) 2 ltac:(lia)) as M. fold e in M.
        pose proof (Z.mod_pos_bound (n - 1) 2 ltac:(lia)) as B.
        assert (G : (q | n - 2 * e)) by (apply Z.divide_sub_r; assumption).
        assert (R : n - 2 * e = 1 \/ n - 2 * e = 2) by lia.
        pose proof (Z.divide_pos_le q (n - 2 * e) ltac:(lia) G). lia. }
      destruct (bad_base n q (2 * e) Hn Q D NE ltac:(lia) Ne) as (b & B0 & B1).
      destruct (A (fe (of_Z n (b * b))) (valid_of n _ ltac:(lia))) as (r & R & S).
      destruct (is_square_any n (of_Z n (b * b)) Hn) as (r' & R' & S').
      assert (r' = r) by congruence. subst r'. cbn [val fe] in S. rewrite zv_of_Z in S, S'. fold e in S'.
      assert (T : square_mod n ((b * b) mod n)).
      { exists b. apply FieldProps.divide_mod_eq; [lia|]. rewrite Z.mod_mod by lia. reflexivity. }
      apply S in T. apply S' in T.
      assert (Ep : (n | ((b * b) mod n) ^ e - b ^ (2 * e))).
      { apply FieldProps.divide_mod_eq; [lia|]. rewrite Zpow_facts.Zpower_mod, Z.mod_mod by lia.
        rewrite <- Zpow_facts.Zpower_mod by lia. rewrite Z.pow_mul_r, Z.pow_2_r by lia. reflexivity. }
      destruct T as [T|T].
      * apply B1. replace (b ^ (2 * e) - 1) with (((b * b) mod n) ^ e - 1 - (((b * b) mod n) ^ e - b ^ (2 * e))) by ring.
        apply Z.divide_sub_r; assumption.
      * apply B0. replace (b ^ (2 * e)) with (((b * b) mod n) ^ e - (((b * b) mod n) ^ e - b ^ (2 * e))) by ring.
        apply Z.divide_sub_r; assumption.
    + assert (E4 : n = 2 ^ (k - 2) * 4).
      { rewrite E. replace 4 with (2 ^ 2) by reflexivity. rewrite <- Z.pow_add_r by lia. f_equal. lia. }
      assert (L2 : 2 ^ (k - 1) >= 4).
      { replace 4 with (2 ^ 2) by reflexivity. apply Z.le_ge, Z.pow_le_mono_r; lia. }
      assert (En : n = 2 * 2 ^ (k - 1)).
      { rewrite E. replace k with (1 + (k - 1)) at 1 by lia. rewrite Z.pow_add_r by lia. reflexivity. }
      destruct (A (fe (of_Z n 2)) (valid_of n _ ltac:(lia))) as (r & R & S).
      destruct (is_square_any n (of_Z n 2) Hn) as (r' & R' & S').
      assert (r' = r) by congruence. subst r'. cbn [val fe] in S. rewrite zv_of_Z, (Z.mod_small 2) in S, S' by lia.
      apply (two_not_square n); [exists (2 ^ (k - 2)); exact E4|].
      apply S, S'. right.
      assert (Ee : (n - 1) / 2 = 2 ^ (k - 1) - 1).
      { symmetry. apply Z.div_unique with 1; lia. }
      rewrite Ee. pose proof (pow2_exceeds k K). rewrite E.
      exists (2 ^ (2 ^ (k - 1) - 1 - k)). rewrite <- Z.pow_add_r by lia. f_equal. lia.
  - intros [P| ->] x V; [exact (FieldProps.c06_is_square_decides n x P V)|].
    destruct (valid_ex _ _ V) as [k ->]. pose proof (zv_range 4 k ltac:(lia)) as B.
    destruct (is_square_any 4 k ltac:(lia)) as (b & E & S). exists b. split; [exact E|]. rewrite S.
    change ((4 - 1) / 2) with 1. cbn [val fe]. rewrite Z.pow_1_r.
    assert (C : zv k = 0 \/ zv k = 1 \/ zv k = 2 \/ zv k = 3) by lia.
    destruct C as [C|[C|[C|C]]]; rewrite C.
    + split; [intros _; exists 0; exists 0; reflexivity|]. intros _. right. exists 0. reflexivity.
    + split; [intros _; exists 1; exists 0; reflexivity|]. intros _. left. exists 0. reflexivity.
    + split; [intros [[j J]|[j J]]; lia|]. intro F. exfalso. apply (two_not_square 4); [exists 1; reflexivity|exact F].
    + split; [intros [[j J]|[j J]]; lia|]. intros [y [j J]]. exfalso.
      pose proof (Z.div_mod y 2 ltac:(lia)). pose proof (Z.mod_pos_bound y 2 ltac:(lia)).
      set (a := y / 2) in *. assert (D : y mod 2 = 0 \/ y mod 2 = 1) by lia. destruct D as [D|D]; rewrite D in *.
      * assert (y * y = 4 * (a * a)) by (replace y with (2 * a) by lia; ring). lia.
      * assert (y * y = 4 * (a * a + a) + 1) by (replace y with (2 * a + 1) by lia; ring). lia.
Qed.

Lemma sqrt_3mod4 n (x : Zp n) : n mod 4 = 3 -> 0 < n ->
  sqrt (fe x) = Ret (fe (of_Z n (zv x ^ ((n + 1) / 4)))).
Proof.
  intros M H. unfold sqrt, calc_sqrt_precmp. cbn [fld fe modulus].
  assert (B : 2 < n).
  { pose proof (Z.div_mod n 4 ltac:(lia)). assert (n / 4 >= 0) by (apply Z.le_ge, Z.div_pos; lia). lia. }
  assert (R : Z.rem (Z.rem n 16) 4 = 3).
  { rewrite (Z.rem_mod_nonneg n 16) by lia. pose proof (Z.mod_pos_bound n 16 ltac:(lia)).
    rewrite Z.rem_mod_nonneg by lia. rewrite <- M.
    replace 16 with (4 * 4) by reflexivity. rewrite Z.rem_mul_r by lia.
    rewrite Z.mul_comm, Z_mod_plus_full. apply Z.mod_mod. lia. }
  rewrite R. cbn [Z.eqb Pos.eqb bind sqrt_with].
  rewrite Z.shiftr_div_pow2 by lia. change (2 ^ 2) with 4.
  rewrite pow_bigint_fe by lia. rewrite Z.mod_small; [reflexivity|].
  pose proof (Z.div_mod (n + 1) 4 ltac:(lia)). pose proof (Z.mod_pos_bound (n + 1) 4 ltac:(lia)). lia.
Qed.

(** for n = 3 modulo 4, sqrt is right on every square exactly when b^n = b modulo n for every b: for
    the primes, and for the Carmichael numbers among the composite ones *)
Lemma c67_sqrt_iff : forall n, 0 < n -> n mod 4 = 3 ->
  ((forall x, valid n x -> square_mod n (val x) -> exists y, sqrt x = Ret y /\ mul y y = Ret x)
   <-> (forall b, (n | b ^ n - b))).
Proof.
  intros n Hn M. assert (B : 2 < n).
  { pose proof (Z.div_mod n 4 ltac:(lia)). assert (n / 4 >= 0) by (apply Z.le_ge, Z.div_pos; lia). lia. }
  assert (Q : 4 * ((n + 1) / 4) = n + 1).
  { pose proof (Z.div_mod n 4 ltac:(lia)). symmetry. replace (n + 1) with ((n / 4 + 1) * 4) by lia.
    rewrite Z.div_mul by lia. lia. }
  set (e := (n + 1) / 4) in *. assert (He : 0 < e) by lia.
  assert (Sq : forall b x : Z, (n | b * b - x) -> (n | x ^ e * x ^ e - b ^ (n + 1))).
  { intros b x D. rewrite <- Q. replace (4 * e) with (2 * (e + e)) by lia.
    rewrite Z.pow_mul_r, Z.pow_2_r, <- Z.pow_add_r by lia. apply FieldProps.divide_mod_eq; [lia|].
    rewrite (Zpow_facts.Zpower_mod x), (Zpow_facts.Zpower_mod (b * b)) by lia.
    apply FieldProps.divide_mod_eq in D; [|lia]. rewrite D. reflexivity. }
  rewrite <- all_powers by lia. split.
  - intros A b. destruct (A (fe (of_Z n (b * b))) (valid_of n _ Hn)) as (y & Y & S).
    { cbn [val fe]. rewrite zv_of_Z. exists b. apply FieldProps.divide_mod_eq; [lia|]. rewrite Z.mod_mod by lia. reflexivity. }
    rewrite sqrt_3mod4 in Y by assumption. fold e in Y.
    assert (y = fe (of_Z n (zv (of_Z n (b * b)) ^ e))) by congruence. subst y.
    rewrite mul_of_Z, fe_ret_inj, fe_div in S by lia.
    specialize (Sq b (zv (of_Z n (b * b)))). set (t := zv (of_Z n (b * b))) in *.
    assert (D : (n | b * b - t)).
    { unfold t. rewrite zv_of_Z. apply FieldProps.divide_mod_eq; [lia|]. rewrite Z.mod_mod by lia. reflexivity. }
    replace (b ^ (n + 1) - b * b) with (t ^ e * t ^ e - b * b - (t ^ e * t ^ e - b ^ (n + 1))) by ring.
    apply Z.divide_sub_r; [exact S|exact (Sq D)].
  - intros A x V [b D]. destruct (valid_ex _ _ V) as [k ->]. cbn [val fe] in D.
    eexists. split; [apply sqrt_3mod4; assumption|]. fold e. rewrite mul_of_Z by lia.
    rewrite <- (of_Z_zv n k) at 3. apply fe_ret_inj, fe_div; [lia|].
    replace (zv k ^ e * zv k ^ e - zv k) with
      (zv k ^ e * zv k ^ e - b ^ (n + 1) + (b ^ (n + 1) - b * b) + (b * b - zv k)) by ring.
    apply Z.divide_add_r; [apply Z.divide_add_r; [apply Sq; exact D|apply A]|exact D].
Qed.

(** a prime q with q - 1 dividing n - 1 divides b^n - b *)
Lemma fermat_any q n b : prime q -> 1 < n -> (q - 1 | n - 1) -> (q | b ^ n - b).
Proof.
  intros Q Hn [m E]. pose proof (prime_gt1 _ Q).
  destruct (Zdivide_dec q b) as [D|D].
  - apply Z.divide_sub_r; [|exact D]. replace n with (1 + (n - 1)) by lia.
    rewrite Z.pow_add_r, Z.pow_1_r by lia. apply Z.divide_mul_l. exact D.
  - assert (Hm : 0 <= m) by nia.
    assert (F : (q | b ^ (q - 1) - 1)).
    { apply FieldProps.divide_mod_eq; [lia|]. rewrite (Z.mod_small 1) by lia. apply fermat; assumption. }
    replace n with (1 + (n - 1)) by lia. rewrite E, Z.pow_add_r, Z.pow_1_r by lia.
    rewrite (Z.mul_comm m), Z.pow_mul_r by lia.
    replace (b * (b ^ (q - 1)) ^ m - b) with (b * ((b ^ (q - 1)) ^ m - 1)) by ring.
    apply Z.divide_mul_r. apply FieldProps.divide_mod_eq; [lia|]. apply FieldProps.divide_mod_eq in F; [|lia].
    rewrite Zpow_facts.Zpower_mod, F by lia. rewrite <- Zpow_facts.Zpower_mod by lia. rewrite Z.pow_1_l by lia. reflexivity.
Qed.
Lemma carmichael_8911 b : (8911 | b ^ 8911 - b).
Proof.
  assert (P7 : prime 7) by (apply prime_small; reflexivity).
  assert (P19 : prime 19) by (apply prime_small; reflexivity).
  assert (P67 : prime 67) by (apply prime_small; reflexivity).
  apply square_free_divides; [lia| |].
  - intros q Q [j J]. pose proof (prime_gt1 _ Q).
    assert (D : (q | 7 * (19 * 67))) by (exists (j * q); lia).
    apply prime_mult in D; [|exact Q]. destruct D as [D|D].
    + apply prime_div_prime in D; [|exact Q|exact P7]. subst q. lia.
    + apply prime_mult in D; [|exact Q]. destruct D as [D|D]; (apply prime_div_prime in D; [|exact Q|assumption]); subst q; lia.
  - intros q Q D. change 8911 with (7 * (19 * 67)) in D. apply prime_mult in D; [|exact Q].
    destruct D as [D|D].
    + apply prime_div_prime in D; [|exact Q|exact P7]. subst q. apply fermat_any; [exact P7|lia|exists 1485; reflexivity].
    + apply prime_mult in D; [|exact Q].
      destruct D as [D|D]; (apply prime_div_prime in D; [|exact Q|assumption]); subst q;
        (apply fermat_any; [assumption|lia|]); [exists 495; reflexivity|exists 135; reflexivity].
Qed.

(** 8911 = 7 * 19 * 67 passes for a prime modulus in sqrt: it is right on every square *)
Example c67_sqrt_ex : ~ prime 8911 /\ 8911 mod 4 = 3
  /\ (forall x, valid 8911 x -> square_mod 8911 (val x) -> exists y, sqrt x = Ret y /\ mul y y = Ret x)
  /\ div (mkFpElt 14 (mkFp 8911)) (mkFpElt 7 (mkFp 8911)) <> Ret (mkFpElt 2 (mkFp 8911))
  /\ is_square (mkFpElt 49 (mkFp 8911)) = Ret false.
Proof.
  split.
  - intro P. destruct (prime_divisors 8911 P 7 ltac:(exists 1273; reflexivity)) as [H|[H|[H|H]]]; lia.
  - split; [reflexivity|]. split; [|split; [vm_compute; discriminate|vm_compute; reflexivity]].
    apply c67_sqrt_iff; [lia|reflexivity|exact carmichael_8911].
Qed.
Lemma rem_16 n d : 0 < n -> (d = 4 \/ d = 8 \/ d = 16) -> Z.rem (Z.rem n 16) d = n mod d.
Proof.
  intros H Hd. rewrite (Z.rem_mod_nonneg n 16) by lia. pose proof (Z.mod_pos_bound n 16 ltac:(lia)).
  rewrite Z.rem_mod_nonneg by lia. rewrite (Z.div_mod n 16) at 2 by lia. symmetry.
  destruct Hd as [->|[->| ->]].
  - replace (16 * (n / 16) + n mod 16) with (n mod 16 + (4 * (n / 16)) * 4) by ring. apply Z_mod_plus_full.
  - replace (16 * (n / 16) + n mod 16) with (n mod 16 + (2 * (n / 16)) * 8) by ring. apply Z_mod_plus_full.
  - replace (16 * (n / 16) + n mod 16) with (n mod 16 + (n / 16) * 16) by ring. apply Z_mod_plus_full.
Qed.
Lemma five_k n : 0 < n -> n mod 8 = 5 -> 0 <= (n - 5) / 8 /\ n = 8 * ((n - 5) / 8) + 5.
Proof.
  intros H M. pose proof (Z.div_mod n 8 ltac:(lia)) as E. rewrite M in E.
  assert (0 <= n / 8) by (apply Z.div_pos; lia).
  assert ((n - 5) / 8 = n / 8) as -> by (symmetry; apply Z.div_unique with 0; lia). lia.
Qed.
Lemma sqrt_5mod8 n (x : Zp n) : n mod 8 = 5 -> 0 < n ->
  let k := (n - 5) / 8 in let r := zv x ^ (k + 1) in
  let c := (2 * (2 ^ k * 2 ^ k) + 1) * 2 ^ k in
  sqrt (fe x) = Ret (fe (if zp_eqd n x (of_Z n (r * r)) then of_Z n r else of_Z n (r * c))).
Proof.
  intros M H k r c. destruct (five_k n H M) as [K1 K2]. fold k in K1, K2.
  unfold sqrt, calc_sqrt_precmp. cbn [fld fe modulus].
  rewrite (rem_16 n 4), (rem_16 n 8) by lia.
  assert (M4 : n mod 4 = 1).
  { rewrite K2. replace (8 * k + 5) with (1 + (2 * k + 1) * 4) by ring. rewrite Z_mod_plus_full. reflexivity. }
  rewrite M4, M. cbn [Z.eqb Pos.eqb].
  rewrite Z.shiftr_div_pow2 by lia. change (2 ^ 3) with 8. fold k.
  rewrite one_fe by lia. cbn [bind]. rewrite add_fe by lia. cbn [bind].
  rewrite pow_bigint_fe by lia. cbn [bind]. rewrite (Z.mod_small k) by lia.
  assert (T : of_Z n (zv (zadd (of_Z n 1) (of_Z n 1)) ^ k) = of_Z n (2 ^ k)).
  { apply of_Z_eq. rewrite <- of_Z_add, zv_of_Z. symmetry. apply Zpow_facts.Zpower_mod. lia. }
  rewrite T. rewrite sqr_fe by lia. cbn [bind]. rewrite add_fe by lia. cbn [bind].
  rewrite add_fe by lia. cbn [bind]. rewrite mul_fe by lia. cbn [bind sqrt_with].
  rewrite pow_bigint_fe by lia. cbn [bind]. rewrite (Z.mod_small (k + 1)) by lia. fold r.
  rewrite sqr_fe by lia. cbn [bind]. rewrite mul_fe by lia. cbn [bind].
  rewrite fpelt_eqb_fe_b by lia. rewrite <- !of_Z_mul, <- !of_Z_add, <- !of_Z_mul.
  unfold cmov. destruct (zp_eqd n x (of_Z n (r * r))); [reflexivity|].
  f_equal. f_equal. f_equal. unfold c. ring.
Qed.

(** for n = 5 modulo 8, sqrt is right on every square exactly when n is prime, or b^((n+1)/2) = b modulo n
    for every b, which happens for composite n only *)
Lemma c67_sqrt_iff_5mod8 : forall n, 0 < n -> n mod 8 = 5 ->
  ((forall x, valid n x -> square_mod n (val x) -> exists y, sqrt x = Ret y /\ mul y y = Ret x)
   <-> prime n \/ forall b, (n | b ^ ((n + 1) / 2) - b)).
Proof.
  intros n Hn M. destruct (five_k n Hn M) as [K1 K2]. set (k := (n - 5) / 8) in *.
  assert (E2 : (n + 1) / 2 = 4 * k + 2 + 1) by (symmetry; apply Z.div_unique with 0; lia). rewrite E2.
  set (r := fun x => x ^ (k + 1)).
  assert (Sq : forall b x, (n | b * b - x) -> (n | r x * r x - b ^ (4 * k + 2 + 2))).
  { intros b x D. unfold r. replace (b ^ (4 * k + 2 + 2)) with ((b * b) ^ (k + 1) * (b * b) ^ (k + 1)).
    - pose proof (pow_cong n (b * b) x (k + 1) ltac:(lia) D) as [z Z]. exists (- z * (x ^ (k + 1) + (b * b) ^ (k + 1))).
      replace (- z * (x ^ (k + 1) + (b * b) ^ (k + 1)) * n) with (- (z * n) * (x ^ (k + 1) + (b * b) ^ (k + 1))) by ring.
      rewrite <- Z. ring.
    - replace (4 * k + 2 + 2) with ((k + 1 + (k + 1)) + (k + 1 + (k + 1))) by ring.
      rewrite !Z.pow_add_r, !Z.pow_mul_l by lia. ring. }
  split.
  - intro A. destruct (prime_dec n) as [P|P]; [left; exact P|right].
    apply (five_powers n k K1 K2); [|exact P].
    intro b. destruct (A (fe (of_Z n (b * b))) (valid_of n _ Hn)) as (y & Y & S).
    { cbn [val fe]. rewrite zv_of_Z. exists b. apply FieldProps.divide_mod_eq; [lia|]. rewrite Z.mod_mod by lia. reflexivity. }
    rewrite sqrt_5mod8 in Y by assumption. cbn zeta in Y. fold k in Y.
    set (x := zv (of_Z n (b * b))) in *. change (x ^ (k + 1)) with (r x) in Y.
    assert (Dx : (n | b * b - x)).
    { unfold x. rewrite zv_of_Z. apply FieldProps.divide_mod_eq; [lia|]. rewrite Z.mod_mod by lia. reflexivity. }
    specialize (Sq b x Dx).
    destruct (zp_eqd n (of_Z n (b * b)) (of_Z n (r x * r x))) as [E|E].
    + left. apply fe_div in E; [|lia].
      replace (b ^ (4 * k + 2 + 2) - b * b) with (- (r x * r x - b ^ (4 * k + 2 + 2)) - (b * b - r x * r x)) by ring.
      apply Z.divide_sub_r; [apply Z.divide_opp_r, Sq|exact E].
    + right. set (c := (2 * (2 ^ k * 2 ^ k) + 1) * 2 ^ k) in *.
      assert (y = fe (of_Z n (r x * c))) by congruence. subst y.
      rewrite mul_of_Z, fe_ret_inj, fe_div in S by lia.
      replace (b ^ (4 * k + 2 + 2) * (c * c) - b * b)
        with (r x * c * (r x * c) - b * b - (r x * r x - b ^ (4 * k + 2 + 2)) * (c * c)) by ring.
      apply Z.divide_sub_r; [exact S|apply Z.divide_mul_l, Sq].
  - intros [P|A] x V S.
    + destruct (FieldProps.c07_sqrt_is_a_root n x P (or_intror M) V) as (y & Y & _ & R). exists y. split; [exact Y|exact (R S)].
    + destruct S as [b D]. destruct (valid_ex _ _ V) as [u ->]. cbn [val fe] in D.
      rewrite sqrt_5mod8 by assumption. cbn zeta. fold k. change (zv u ^ (k + 1)) with (r (zv u)).
      assert (R : (n | r (zv u) * r (zv u) - zv u)).
      { replace (r (zv u) * r (zv u) - zv u)
          with (r (zv u) * r (zv u) - b ^ (4 * k + 2 + 2) + (b * (b ^ (4 * k + 2 + 1) - b) + (b * b - zv u))).
        - apply Z.divide_add_r; [apply Sq, D|]. apply Z.divide_add_r; [apply Z.divide_mul_r, A|exact D].
        - replace (b ^ (4 * k + 2 + 2)) with (b * b ^ (4 * k + 2 + 1)); [ring|].
          rewrite <- Z.pow_succ_r by lia. f_equal. lia. }
      destruct (zp_eqd n u (of_Z n (r (zv u) * r (zv u)))) as [E|E].
      * eexists. split; [reflexivity|]. rewrite mul_of_Z by lia. f_equal. f_equal. symmetry. exact E.
      * exfalso. apply E. rewrite <- (of_Z_zv n u) at 1. apply fe_div; [lia|].
        replace (zv u - r (zv u) * r (zv u)) with (- (r (zv u) * r (zv u) - zv u)) by ring. apply Z.divide_opp_r, R.
Qed.

(** every other modulus: sqrt panics whatever the argument *)
Lemma c67_sqrt_other : forall n x, 0 < n -> ~ sqrt_modulus n -> fld x = fp_new n -> sqrt x = Panic "not implemented".
Proof.
  intros n x H N F. unfold sqrt, calc_sqrt_precmp. rewrite F. unfold fp_new. cbn [modulus].
  rewrite (rem_16 n 4), (rem_16 n 8), (rem_16 n 16) by lia. unfold sqrt_modulus in N.
  destruct (Z.eqb_spec 3 (n mod 4)); [exfalso; apply N; left; lia|].
  destruct (Z.eqb_spec 5 (n mod 8)); [exfalso; apply N; right; lia|].
  destruct (9 =? n mod 16); reflexivity.
Qed.

(** a prime q with q - 1 dividing e divides b^(e+1) - b *)
Lemma half_9585541 b : (9585541 | b ^ ((9585541 + 1) / 2) - b).
Proof.
  change ((9585541 + 1) / 2) with 4792771.
  assert (P7 : prime 7) by (apply prime_small; reflexivity).
  assert (P31 : prime 31) by (apply prime_small; reflexivity).
  assert (P163 : prime 163) by (apply prime_small; reflexivity).
  assert (P271 : prime 271) by (apply prime_small; reflexivity).
  assert (Cases : forall q, prime q -> (q | 9585541) -> q = 7 \/ q = 31 \/ q = 163 \/ q = 271).
  { intros q Q D. change 9585541 with (7 * (31 * (163 * 271))) in D.
    apply prime_mult in D; [|exact Q]. destruct D as [D|D]; [left; apply prime_div_prime; assumption|right].
    apply prime_mult in D; [|exact Q]. destruct D as [D|D]; [left; apply prime_div_prime; assumption|right].
    apply prime_mult in D; [|exact Q]. destruct D as [D|D]; [left|right]; apply prime_div_prime; assumption. }
  apply square_free_divides; [lia| |].
  - intros q Q D. assert (Dq : (q | 9585541)) by (apply Z.divide_trans with (q * q); [exists q; reflexivity|exact D]).
    apply Z.mod_divide in D; [|pose proof (prime_gt1 _ Q); nia].
    destruct (Cases q Q Dq) as [->|[->|[->| ->]]]; vm_compute in D; discriminate D.
  - intros q Q D.
    destruct (Cases q Q D) as [->|[->|[->| ->]]]; (apply fermat_any; [assumption|lia|]).
    + exists 798795. reflexivity.
    + exists 159759. reflexivity.
    + exists 29585. reflexivity.
    + exists 17751. reflexivity.
Qed.

(** 9585541 = 7 * 31 * 163 * 271: composite, 5 modulo 8, and sqrt is right on every square; modulo 21 it is not *)
Example c67_sqrt_5mod8_ex : ~ prime 9585541 /\ 9585541 mod 8 = 5
  /\ (forall x, valid 9585541 x -> square_mod 9585541 (val x) -> exists y, sqrt x = Ret y /\ mul y y = Ret x)
  /\ sqrt_modulus 21 /\ ~ (21 | 2 ^ ((21 + 1) / 2) - 2).
Proof.
  split.
  - intro P. destruct (prime_divisors 9585541 P 7 ltac:(exists 1369363; reflexivity)) as [H|[H|[H|H]]]; lia.
  - split; [reflexivity|]. split; [|split; [right; reflexivity|]].
    + apply c67_sqrt_iff_5mod8; [lia|reflexivity|]. right. exact half_9585541.
    + intros [j J]. change (2 ^ ((21 + 1) / 2) - 2) with 2046 in J. lia.
Qed.
(** modulo 21, sqrt(4) is no root of 4, 1/3 is no inverse of 3, and 1/8 inverts 8 *)
Example c67_ex : sqrt (mkFpElt 4 (mkFp 21)) = Ret (mkFpElt 6 (mkFp 21))
  /\ mul (mkFpElt 6 (mkFp 21)) (mkFpElt 6 (mkFp 21)) = Ret (mkFpElt 15 (mkFp 21))
  /\ u32_div 1 (mkFpElt 3 (mkFp 21)) = Ret (mkFpElt 3 (mkFp 21))
  /\ mul (mkFpElt 3 (mkFp 21)) (mkFpElt 3 (mkFp 21)) = Ret (mkFpElt 9 (mkFp 21))
  /\ u32_div 1 (mkFpElt 8 (mkFp 21)) = Ret (mkFpElt 8 (mkFp 21))
  /\ mul (mkFpElt 8 (mkFp 21)) (mkFpElt 8 (mkFp 21)) = Ret (mkFpElt 1 (mkFp 21))
  /\ is_square (mkFpElt 4 (mkFp 21)) = Ret false
  /\ is_square (mkFpElt 2 (mkFp 4)) = Ret false /\ is_square (mkFpElt 1 (mkFp 4)) = Ret true.
Proof. vm_compute. repeat split; reflexivity. Qed.
