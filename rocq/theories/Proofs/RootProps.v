(** C69: which of the two square roots sqrt returns, and what it returns when there is none. *)
From Coq Require Import ZArith Znumtheory Zpow_facts Lia String Bool List Ring Field.
From Verif.Math Require Import Fld Pow Zp Residue Roots.
From Verif.Spec Require Import Arith Elements Roots.
From Verif.Model Require Import Out BigInt PrimeField.
From Verif.Proofs Require Import FieldP FieldProps SmallP.
Import ListNotations.
Open Scope Z_scope.

Lemma ret_fe p (x y : Zp p) : Ret (fe x) = Ret (fe y) -> x = y.
Proof. intro E. apply fe_inj. congruence. Qed.

Lemma sqrt_fe_3 p (Hp : prime p) (x : ZpF p Hp) : p mod 4 = 3 -> sqrt (fe x) = Ret (fe (root3 p Hp x)).
Proof.
  intro H. pose proof (pgt1 p Hp) as H1. assert (p <> 2) as H2 by (intros ->; discriminate H).
  unfold sqrt. cbn [fld fe]. rewrite sqrt_precmp_3mod4 by (assumption || lia). cbn [bind sqrt_with].
  rewrite pow_bigint_fe by lia.
  assert (R : 0 <= (p + 1) / 4 < p - 1).
  { pose proof (Z.div_mod p 4 ltac:(lia)). split; [apply Z.div_pos; lia|]. apply Z.div_lt_upper_bound; lia. }
  rewrite (Z.mod_small ((p + 1) / 4)) by exact R.
  unfold root3, e3. rewrite fpow_of_Z by lia. reflexivity.
Qed.

Lemma sqrt_fe_5 p (Hp : prime p) (x : ZpF p Hp) : p mod 8 = 5 ->
  exists y : ZpF p Hp, sqrt (fe x) = Ret (fe y) /\ is_root5 p Hp x y.
Proof.
  intro H. pose proof (pgt1 p Hp) as H1. assert (p <> 2) as H2 by (intros ->; discriminate H).
  unfold sqrt. cbn [fld fe]. rewrite (sqrt_precmp_5mod8 p Hp H). cbn [bind sqrt_with].
  pose proof (p_ge5 p Hp H). destruct (k_range p Hp H) as [Hk1 Hk2].
  rewrite pow_bigint_fe by lia. cbn [bind].
  rewrite (Z.mod_small ((p - 5) / 8 + 1)) by lia.
  assert (E : of_Z p (zv x ^ ((p - 5) / 8 + 1)) = t5 p Hp x).
  { unfold t5. replace (Z.to_nat ((p - 5) / 8) + 1)%nat with (Z.to_nat ((p - 5) / 8 + 1)) by lia.
    rewrite fpow_of_Z by lia. reflexivity. }
  rewrite E. rewrite sqr_fe by lia. cbn [bind]. rewrite mul_fe by lia. cbn [bind].
  rewrite fpelt_eqb_fe_b by lia.
  destruct (zp_eqd p x (zmul (t5 p Hp x) (t5 p Hp x))) as [D|D]; unfold cmov.
  - exists (t5 p Hp x). split; [reflexivity|]. left. split; [exact D|reflexivity].
  - exists (Fmul (t5 p Hp x) (c5 p Hp)). split; [reflexivity|]. right. split; [exact D|reflexivity].
Qed.

Lemma sq_val p (Hp : prime p) (x : ZpF p Hp) : square_mod p (zv x) <-> is_sq p Hp x.
Proof. rewrite (square_mod_is_sq p Hp), of_Z_zv. reflexivity. Qed.

Lemma of_Z_pow4 p (Hp : prime p) w :
  let v : ZpF p Hp := of_Z p w in of_Z p (w ^ 4) = Fmul (Fmul v v) (Fmul v v).
Proof.
  intro v. unfold v. replace (w ^ 4) with ((w * w) * (w * w)) by ring. rewrite !of_Z_mul. reflexivity.
Qed.

Lemma fourth_val p (Hp : prime p) (x : ZpF p Hp) : fourth_mod p (zv x) <-> is_4th p Hp x.
Proof.
  pose proof (pgt1 p Hp). split.
  - intros [w D]. exists (of_Z p w). rewrite <- of_Z_pow4. rewrite <- (of_Z_zv p x).
    apply of_Z_eq, divide_mod_eq; [lia|exact D].
  - intros [w D]. exists (zv w). apply divide_mod_eq; [lia|]. apply of_Z_eq.
    rewrite (of_Z_pow4 p Hp), !of_Z_zv. exact D.
Qed.

Lemma times_val p (Hp : prime p) (s x : ZpF p Hp) :
  times_fourth_mod p (zv s) (zv x) <-> exists q : ZpF p Hp, is_4th p Hp q /\ Fmul s q = x.
Proof.
  pose proof (pgt1 p Hp). split.
  - intros [w D]. exists (of_Z p (w ^ 4)). split; [exists (of_Z p w); symmetry; apply of_Z_pow4|].
    rewrite <- (of_Z_zv p x), <- (of_Z_zv p s) at 1. change (zmul (of_Z p (zv s)) (of_Z p (w ^ 4)) = of_Z p (zv x)).
    rewrite <- of_Z_mul. apply of_Z_eq, divide_mod_eq; [lia|exact D].
  - intros (q & (w & D) & E). exists (zv w). apply divide_mod_eq; [lia|]. apply of_Z_eq.
    rewrite of_Z_mul, (of_Z_pow4 p Hp), !of_Z_zv. rewrite <- E, <- D. reflexivity.
Qed.

(** *** C69 *)
(** p = 3 mod 4: sqrt(x) is x^((p+1)/4) for every x.  For a square it is the one root that is itself a
    square; for a non-square it is a root of -x. *)
Lemma c69_root_3mod4 : forall p x, prime p -> p mod 4 = 3 -> valid p x ->
  exists y, sqrt x = Ret y /\ valid p y /\ residue p (val x ^ ((p + 1) / 4)) (val y)
  /\ (square_mod p (val x) -> mul y y = Ret x /\ square_mod p (val y)
      /\ forall z, valid p z -> mul z z = Ret x -> square_mod p (val z) -> z = y)
  /\ (~ square_mod p (val x) -> exists n, neg x = Ret n /\ mul y y = Ret n).
Proof.
  intros p x Hp H4 V. pose proof (pgt1 p Hp). assert (p <> 2) as H2 by (intros ->; discriminate H4).
  destruct (valid_ex p x V) as [k ->]. change (Zp p) with (car (ZpF p Hp)) in k.
  exists (fe (root3 p Hp k)). split; [apply sqrt_fe_3; exact H4|]. split; [apply valid_fe; lia|].
  cbn [val fe]. split; [|split].
  - unfold root3. rewrite zv_fpow. unfold e3.
    rewrite Z2Nat.id by (apply Z.div_pos; lia). apply mod_residue. lia.
  - intro S. pose proof (proj1 (sq_val p Hp k) S) as S'. split; [|split].
    + rewrite mul_fe by lia. f_equal. f_equal. exact (sqrt_3mod4 p Hp H2 k H4 S').
    + apply (sq_val p Hp), root3_square, S'.
    + intros z Vz Ez Sz. destruct (valid_ex p z Vz) as [w ->]. rewrite mul_fe in Ez by lia.
      f_equal. apply (root3_unique p Hp H2 H4).
      * exact (ret_fe p _ _ Ez).
      * apply (sq_val p Hp). exact Sz.
  - intro N. exists (fe (zopp k)). split; [apply neg_fe; lia|]. rewrite mul_fe by lia. f_equal. f_equal.
    apply (root3_nonsq p Hp H2 H4). intro S. apply N, (sq_val p Hp), S.
Qed.

(** p = 3 mod 4: sqrt is multiplicative, on squares and non-squares alike *)
Lemma c69_product_3mod4 : forall p x y a b m, prime p -> p mod 4 = 3 -> valid p x -> valid p y ->
  sqrt x = Ret a -> sqrt y = Ret b -> mul x y = Ret m ->
  exists r, sqrt m = Ret r /\ mul a b = Ret r.
Proof.
  intros p x y a b m Hp H4 Vx Vy Ea Eb Em. pose proof (pgt1 p Hp).
  destruct (valid_ex p x Vx) as [k ->]. destruct (valid_ex p y Vy) as [l ->].
  pose proof (sqrt_fe_3 p Hp k H4) as Fa. rewrite Ea in Fa.
  pose proof (sqrt_fe_3 p Hp l H4) as Fb. rewrite Eb in Fb.
  rewrite mul_fe in Em by lia.
  assert (a = fe (root3 p Hp k)) as -> by congruence.
  assert (b = fe (root3 p Hp l)) as -> by congruence.
  assert (m = fe (zmul k l)) as -> by congruence.
  exists (fe (root3 p Hp (zmul k l))). split; [apply sqrt_fe_3; exact H4|].
  rewrite mul_fe by lia. f_equal. f_equal. symmetry. apply (root3_mul p Hp).
Qed.

(** p = 5 mod 8: sqrt(4) is 2 or -2, and with s = sqrt(4) the root of a square is the only one that is
    a fourth power or s times a fourth power; a fourth power's root is a fourth power.  For a
    non-square the result y has y^4 = -x^2. *)
Lemma c69_root_5mod8 : forall p x, prime p -> p mod 8 = 5 -> valid p x ->
  exists f s y, elt (fp_new p) 4 = Ret f /\ sqrt f = Ret s
  /\ (residue p 2 (val s) \/ residue p (-2) (val s))
  /\ sqrt x = Ret y /\ valid p y
  /\ (square_mod p (val x) -> mul y y = Ret x
      /\ (fourth_mod p (val x) -> fourth_mod p (val y))
      /\ (~ fourth_mod p (val x) -> times_fourth_mod p (val s) (val y))
      /\ forall z, valid p z -> mul z z = Ret x ->
           fourth_mod p (val z) \/ times_fourth_mod p (val s) (val z) -> z = y)
  /\ (~ square_mod p (val x) -> (p | val y ^ 4 + val x ^ 2)).
Proof.
  intros p x Hp H8 V. pose proof (pgt1 p Hp). assert (p <> 2) as H2 by (intros ->; discriminate H8).
  destruct (valid_ex p x V) as [k ->]. change (Zp p) with (car (ZpF p Hp)) in k.
  set (K := ZpF p Hp) in *.
  set (two := Fadd F1 F1 : K).
  assert (E4 : of_Z p 4 = Fmul two two) by (unfold two; apply Zp_eq; change (zv (of_Z p 4) = zv (zmul (zadd (of_Z p 1) (of_Z p 1)) (zadd (of_Z p 1) (of_Z p 1)))); rewrite <- of_Z_add, <- of_Z_mul; reflexivity).
  destruct (sqrt_fe_5 p Hp (Fmul two two) H8) as (s & Es & Rs).
  destruct (sqrt_fe_5 p Hp k H8) as (y & Ey & Ry).
  assert (N2 : two <> F0) by exact (two_nz p Hp H2).
  assert (N4 : Fmul two two <> F0).
  { intro Z. destruct (zp_int p Hp two two Z); contradiction. }
  destruct (root5_sq p Hp H2 H8 _ _ Rs N4 (four_cls p Hp H2 H8)) as [Cs Ss].
  assert (Ns : s <> F0).
  { intro Z. apply N4. rewrite <- Ss, Z. apply Zp_eq. change (zv (zmul (of_Z p 0) (of_Z p 0)) = zv (of_Z p 0)). rewrite <- of_Z_mul. reflexivity. }
  exists (fe (Fmul two two)), (fe s), (fe y). unfold fp_new. rewrite elt_fe by lia. cbn [val fe].
  split; [f_equal; f_equal; exact E4|]. split; [exact Es|]. split.
  { destruct (roots_pm p Hp s two Ss) as [-> | ->]; [left|right].
    - change (zv two) with (zv (zadd (of_Z p 1) (of_Z p 1))). rewrite <- of_Z_add, zv_of_Z. apply mod_residue. lia.
    - change (zv (Fopp two)) with (zv (zopp (zadd (of_Z p 1) (of_Z p 1)))).
      rewrite <- of_Z_add, <- of_Z_opp, zv_of_Z. apply mod_residue. lia. }
  split; [exact Ey|]. split; [apply valid_fe; lia|].
  (* the classes of fourth powers and of s times fourth powers *)
  assert (A0 : forall w : K, w <> F0 -> fourth_mod p (zv w) \/ times_fourth_mod p (zv s) (zv w) ->
    cls p Hp w = F1 \/ cls p Hp w = Fopp (c5 p Hp)).
  { intros w Nw [D|D].
    - left. apply (cls_4th p Hp H2 H8 w Nw), (fourth_val p Hp), D.
    - right. apply (times_val p Hp) in D. destruct D as (q & D & <-).
      rewrite (cls_mul p Hp), Cs.
      assert (Nq : q <> F0).
      { intro Z. apply Nw. rewrite Z. apply Zp_eq. change (zv (zmul s (of_Z p 0)) = zv (of_Z p 0)).
        rewrite <- (of_Z_zv p s), <- of_Z_mul, Z.mul_0_r. reflexivity. }
      rewrite (proj2 (cls_4th p Hp H2 H8 q Nq) D).
      rewrite (Rmul_comm (F_R (Fth K))). apply (Rmul_1_l (F_R (Fth K))). }
  assert (Z0 : forall w : K, Fmul w w = F0 -> w = F0).
  { intros w Z. destruct (zp_int p Hp w w Z); assumption. }
  split.
  - intro S. apply (sq_val p Hp) in S.
    destruct (zp_eqd p k (F0 : K)) as [D|D].
    + rewrite D in *. pose proof (root5_0 p Hp y Ry) as ->.
      assert (F4 : is_4th p Hp F0).
      { exists F0. apply Zp_eq. change (zv (zmul (zmul (of_Z p 0) (of_Z p 0)) (zmul (of_Z p 0) (of_Z p 0))) = zv (of_Z p 0)). rewrite <- !of_Z_mul. reflexivity. }
      split; [rewrite mul_fe by lia; f_equal; f_equal; apply Zp_eq; change (zv (zmul (of_Z p 0) (of_Z p 0)) = zv (of_Z p 0)); rewrite <- of_Z_mul; reflexivity|].
      split; [intros _; apply (fourth_val p Hp), F4|].
      split; [intro N; exfalso; apply N, (fourth_val p Hp), F4|].
      intros z Vz Ez _. destruct (valid_ex p z Vz) as [w ->]. rewrite mul_fe in Ez by lia.
      f_equal. apply Z0. exact (ret_fe p _ _ Ez).
    + assert (Cy : (cls p Hp y = F1 \/ cls p Hp y = Fopp (c5 p Hp)) /\ Fmul y y = k
         /\ (fourth_mod p (zv k) -> cls p Hp y = F1) /\ (~ fourth_mod p (zv k) -> cls p Hp y = Fopp (c5 p Hp))).
      { rewrite (fourth_val p Hp), <- (cls_4th p Hp H2 H8 k D).
        destruct (sq_cls p Hp H2 H8 k D S) as [C|C].
        - destruct (root5_4th p Hp k y Ry D C) as [A B]. repeat split; try tauto.
        - destruct (root5_sq p Hp H2 H8 k y Ry D C) as [A B]. repeat split; try tauto.
          intro C'. exfalso. rewrite C in C'. exact (one_neq_opp1 p Hp H2 (eq_sym C')). }
      destruct Cy as (Cy & Sy & C1 & C2).
      assert (Ny : y <> F0).
      { intro Z. apply D. rewrite <- Sy, Z. apply Zp_eq. change (zv (zmul (of_Z p 0) (of_Z p 0)) = zv (of_Z p 0)). rewrite <- of_Z_mul. reflexivity. }
      split; [rewrite mul_fe by lia; f_equal; f_equal; exact Sy|].
      split; [intro N; apply (fourth_val p Hp), (cls_4th p Hp H2 H8 y Ny), C1, N|].
      split.
      * intro N. apply (times_val p Hp). exists (Fdiv y s). split.
        -- apply (cls_quot p Hp H2 H8 y s Ns); [rewrite Cs; apply C2, N|exact Ny].
        -- rewrite (Fdiv_def (Fth K)), (Rmul_comm (F_R (Fth K))), <- (Rmul_assoc (F_R (Fth K))).
           rewrite (Finv_l (Fth K) s Ns), (Rmul_comm (F_R (Fth K))). apply (Rmul_1_l (F_R (Fth K))).
      * intros z Vz Ez Cz. destruct (valid_ex p z Vz) as [w ->]. rewrite mul_fe in Ez by lia.
        assert (Ew : zmul w w = k) by exact (ret_fe p _ _ Ez).
        f_equal. apply (cls_side p Hp H2 H8 y w Ny Cy).
        -- apply A0; [|exact Cz]. intro Z. apply D. rewrite <- Ew, Z. apply Zp_eq. change (zv (zmul (of_Z p 0) (of_Z p 0)) = zv (of_Z p 0)). rewrite <- of_Z_mul. reflexivity.
        -- rewrite Sy. exact Ew.
  - intro N. assert (Nq : ~ is_sq p Hp k) by (intro Z; apply N, (sq_val p Hp), Z).
    pose proof (root5_nonsq p Hp H2 H8 k y Ry Nq) as Q.
    replace (zv y ^ 4 + zv k ^ 2) with (zv y ^ 4 - (- (zv k * zv k))) by ring.
    apply divide_mod_eq; [lia|]. apply of_Z_eq. rewrite (of_Z_pow4 p Hp), of_Z_opp, of_Z_mul, !of_Z_zv. exact Q.
Qed.

(** p = 5 mod 8: the value itself.  With r = x^((p+3)/8) it is r when r^2 = x, and r times
    (2t^2+1)t, t = 2^((p-5)/8), otherwise. *)
Lemma c69_formula_5mod8 : forall p x, prime p -> p mod 8 = 5 -> valid p x ->
  let r := val x ^ ((p + 3) / 8) in let t := 2 ^ ((p - 5) / 8) in
  exists y, sqrt x = Ret y /\ valid p y
  /\ ((p | r * r - val x) -> residue p r (val y))
  /\ (~ (p | r * r - val x) -> residue p (r * ((2 * t ^ 2 + 1) * t)) (val y)).
Proof.
  intros p x Hp H8 V r t. pose proof (pgt1 p Hp). assert (p <> 2) as H2 by (intros ->; discriminate H8).
  destruct (k_range p Hp H8) as [Hk1 Hk2].
  assert (E8 : (p + 3) / 8 = (p - 5) / 8 + 1) by (symmetry; apply Z.div_unique with 0; lia).
  destruct (valid_ex p x V) as [k ->]. change (Zp p) with (car (ZpF p Hp)) in k. subst r. cbn [val fe] in *.
  rewrite E8. set (r := zv k ^ ((p - 5) / 8 + 1)).
  destruct (sqrt_fe_5 p Hp k H8) as (y & Ey & Ry).
  assert (Er : of_Z p r = t5 p Hp k).
  { unfold t5, r. replace (Z.to_nat ((p - 5) / 8) + 1)%nat with (Z.to_nat ((p - 5) / 8 + 1)) by lia.
    rewrite fpow_of_Z by lia. reflexivity. }
  assert (Ec : of_Z p ((2 * t ^ 2 + 1) * t) = c5 p Hp).
  { unfold c5. cbn zeta. set (tw := Fadd F1 F1 : ZpF p Hp).
    assert (Et : fpow tw (Z.to_nat ((p - 5) / 8)) = of_Z p t).
    { rewrite fpow_of_Z by lia. unfold t. apply of_Z_eq. change (zv tw) with (zv (zadd (of_Z p 1) (of_Z p 1))).
      rewrite <- of_Z_add, zv_of_Z. symmetry. apply Zpower_mod. lia. }
    rewrite Et. replace ((2 * t ^ 2 + 1) * t) with ((t * t + t * t + 1) * t) by ring.
    rewrite of_Z_mul, !of_Z_add, of_Z_mul. reflexivity. }
  assert (Es : (p | r * r - zv k) <-> k = Fmul (t5 p Hp k) (t5 p Hp k)).
  { rewrite divide_mod_eq by lia. rewrite <- of_Z_eq, of_Z_mul, of_Z_zv, Er. split; intro E; symmetry; exact E. }
  exists (fe y). split; [exact Ey|]. split; [apply valid_fe; lia|]. cbn [val fe]. rewrite Es.
  destruct Ry as [[A ->]|[A ->]]; (split; intro B; [|]); try contradiction.
  - rewrite <- Er, zv_of_Z. apply mod_residue. lia.
  - rewrite <- Er, <- Ec. change (zv (Fmul (of_Z p r : ZpF p Hp) (of_Z p ((2 * t ^ 2 + 1) * t)))) with (zv (zmul (of_Z p r) (of_Z p ((2 * t ^ 2 + 1) * t)))).
    rewrite <- of_Z_mul, zv_of_Z. apply mod_residue. lia.
Qed.

(** both signs of sqrt(4) occur: 2 modulo 13, -2 modulo 37.  Modulo 13 the fourth powers are 1, 3, 9 *)
Example c69_ex : prime 13 /\ prime 37 /\ prime 7
  /\ sqrt (mkFpElt 4 (mkFp 13)) = Ret (mkFpElt 2 (mkFp 13))
  /\ sqrt (mkFpElt 4 (mkFp 37)) = Ret (mkFpElt 35 (mkFp 37))
  /\ sqrt (mkFpElt 3 (mkFp 13)) = Ret (mkFpElt 9 (mkFp 13)) /\ sqrt (mkFpElt 9 (mkFp 13)) = Ret (mkFpElt 3 (mkFp 13))
  /\ sqrt (mkFpElt 10 (mkFp 13)) = Ret (mkFpElt 6 (mkFp 13))
  /\ sqrt (mkFpElt 2 (mkFp 13)) = Ret (mkFpElt 7 (mkFp 13)) /\ (7 ^ 4 + 2 ^ 2) mod 13 = 0
  /\ sqrt (mkFpElt 2 (mkFp 7)) = Ret (mkFpElt 4 (mkFp 7))
  /\ sqrt (mkFpElt 3 (mkFp 7)) = Ret (mkFpElt 2 (mkFp 7)) /\ sqrt (mkFpElt 6 (mkFp 7)) = Ret (mkFpElt 1 (mkFp 7)).
Proof.
  split; [apply prime_small; reflexivity|]. split; [apply prime_small; reflexivity|].
  split; [apply prime_small; reflexivity|].
  vm_compute. repeat split.
Qed.
