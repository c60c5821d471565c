(** From the checked computations to statements about the shipped curves. *)
From Coq Require Import ZArith Znumtheory Lia String Ascii Bool List.
From Verif.Math Require Import Fld Zp ECGroup RCB MontAdd Edwards.
From Verif.Spec Require Import Arith Curve Instances.
From Verif.Model Require Import Out BigInt PrimeField.
From Verif.Proofs Require Import FieldP FieldProps CurveP InstP ECPrime.
From Verif.Model Require WCurve MCurve ECurve.
From Verif.Proofs Require WeierP MontP EdwP WeierProps MontProps EdwProps.
From Verif.Spec Require Export Shipped.
Import ListNotations.
Open Scope Z_scope.

Definition elt_of (p v : Z) : FpElt := mkFpElt (v mod p) (mkFp p).
Lemma elt_valid p v : 0 < p -> valid p (elt_of p v).
Proof. intro H. split; [reflexivity|]. apply Z.mod_pos_bound, H. Qed.
Lemma of_Z_mod p v : of_Z p (v mod p) = of_Z p v.
Proof. apply Zp_eq. cbn. apply Zmod_mod. Qed.
Lemma div_mod_of p u : 0 < p -> (p | u) -> of_Z p u = of_Z p 0.
Proof. intros H D. apply of_Z_div; [exact H|]. rewrite Z.sub_0_r. exact D. Qed.
Lemma wc_zero (K : Fld) (a b x : K) : (forall x : K, Fadd (Fadd (Fadd (Fmul (Fmul x x) x) (Fmul F0 (Fmul x x))) (Fmul a x)) b <> F0) ->
  Fadd (Fadd (Fmul (Fmul x x) x) (Fmul a x)) b <> F0.
Proof. intros H E. apply (H x). exact (eq_trans (eq_sym (wc_aux K a b x)) E). Qed.

(** an n-fold sum of a point with prime order q vanishes exactly at the multiples of q *)
Section Order.
  Variables (G : Type) (mul : nat -> G) (zero : G) (q : Z).
  Hypothesis Hq : prime q.
  Hypothesis H0 : mul 0%nat = zero.
  Hypothesis H1 : mul 1%nat <> zero.
  Hypothesis HQ : mul (Z.to_nat q) = zero.
  Hypothesis HA : forall m n, mul m = zero -> mul (m + n)%nat = mul n.
  Lemma times_zero m n k : mul m = zero -> mul (k * m + n)%nat = mul n.
  Proof. intro E. induction k as [|k IH]; [reflexivity|]. cbn [Nat.mul]. rewrite <- Nat.add_assoc, HA; assumption. Qed.
  Lemma order_iff n : mul n = zero <-> (q | Z.of_nat n).
  Proof.
    assert (q1 : 1 < q) by (destruct Hq; assumption). split.
    - intro E. destruct (Zdivide_dec q (Z.of_nat n)) as [|D]; [assumption|exfalso].
      assert (RP : rel_prime q (Z.of_nat n)) by (apply prime_rel_prime; assumption).
      apply rel_prime_sym, rel_prime_bezout in RP. destruct RP as [u v EB].
      assert (u0 : 0 <= u mod q) by (apply Z.mod_pos_bound; lia).
      assert (D' : (q | u mod q * Z.of_nat n - 1)).
      { exists (- v - (u / q) * Z.of_nat n). pose proof (Z.div_mod u q ltac:(lia)). nia. }
      destruct D' as [c Ec].
      assert (u mod q <> 0). { intro Z0. rewrite Z0 in Ec. assert (D1 : (q | 1)) by (exists (- c); lia). apply Z.divide_1_r_nonneg in D1; lia. }
      assert (Z.of_nat n <> 0). { intro Z0. apply D. rewrite Z0. apply Z.divide_0_r. }
      assert (c0 : 0 <= c) by nia.
      assert (EN : (Z.to_nat (u mod q) * n + 0 = Z.to_nat c * Z.to_nat q + 1)%nat).
      { apply Nat2Z.inj. rewrite !Nat2Z.inj_add, !Nat2Z.inj_mul, !Z2Nat.id by lia. lia. }
      apply H1. rewrite <- (times_zero _ 1 (Z.to_nat c) HQ), <- EN, times_zero; assumption.
    - intros [c Ec]. assert (0 <= c) by nia. replace n with (Z.to_nat c * Z.to_nat q + 0)%nat.
      + rewrite times_zero; assumption.
      + apply Nat2Z.inj. rewrite Nat2Z.inj_add, Nat2Z.inj_mul, !Z2Nat.id by lia. lia.
  Qed.
End Order.


Lemma w_noroot p (Hp : prime p) a b sl u : noroot_check p 0 a b sl u = true ->
  2 < p /\ forall x : ZpF p Hp, Fadd (Fadd (Fmul (Fmul x x) x) (Fmul (of_Z p a : ZpF p Hp) x)) (of_Z p b : ZpF p Hp) <> F0.
Proof. intro HN. destruct (noroot_cubic p Hp 0 a b sl u HN) as [H2 NR]. split; [exact H2|]. intro x. apply wc_zero. exact NR. Qed.
Lemma w_inst X p a b r h gx gy sl u sl' km : prime p -> prime r ->
  sqrt_modulus p -> 0 <= gx < p -> 0 <= gy < p -> Z.log2 r < 2 ^ 63 ->
  X = Ret (WCurve.mkCurve (mkFp p) (elt_of p a) (elt_of p b) r (mkFpElt gx (mkFp p)) (mkFpElt gy (mkFp p)) h) ->
  noroot_check p 0 a b sl u = true -> wcheck p a b gx gy r sl' km = true ->
  w_shipped X (mkW p a b r h gx gy).
Proof.
  intros Hp Hr Hm Gx Gy Hl HX HN HC. set (e := WCurve.mkCurve _ _ _ _ _ _ _) in HX. exists e. split; [exact HX|].
  do 5 (split; [reflexivity|]). split; [exact Hp|]. split; [exact Hr|].
  destruct (w_noroot p Hp a b sl u HN) as [H2 NR0].
  assert (W : WPoints.weier e).
  { split; [exact Hp|]. cbn [WCurve.c_f e modulus]. split; [exact H2|]. split; [apply elt_valid; lia|]. split; [apply elt_valid; lia|].
    intros x D. cbn [val WCurve.c_a WCurve.c_b e elt_of] in D. apply div_mod_of in D; [|lia].
    apply (NR0 (of_Z p x)). revert D. pushZ. rewrite !of_Z_mod. exact (fun h => h). }
  clear NR0.
  assert (VG : forall v, 0 <= v < p -> valid p (mkFpElt v (mkFp p))) by (intros v Hv; split; [reflexivity|exact Hv]).
  assert (R0 : 0 < r) by (destruct Hr; lia).
  split. { split; [exact W|]. split; [exact Hm|]. split; [exact R0|]. split; [exact Hl|]. split; apply VG; assumption. }
  destruct (WeierProps.weier_open e W) as (p' & Hp' & H2' & a' & b' & ef & ea & eb & NR & WP & WS & WM & WO).
  assert (Ep : p = p') by exact (f_equal modulus ef). destruct Ep.
  assert (Ea : a' = of_Z p a). { apply Zp_eq. exact (eq_sym (f_equal val ea)). }
  assert (Eb : b' = of_Z p b). { apply Zp_eq. exact (eq_sym (f_equal val eb)). }
  subst a' b'.
  destruct (wcheck_ok p Hp' a b gx gy r sl' km NR HC) as [OG OR].
  set (A := Aff (ZpF p Hp') (of_Z p gx) (of_Z p gy)) in *.
  assert (EA : ap p Hp' A = Affine gx gy) by (cbn; rewrite !Z.mod_small by lia; reflexivity).
  pose proof (proj1 (WO A) OG) as OG2. rewrite EA in OG2.
  destruct (proj1 (WeierProps.c23_new_point e (WCurve.c_gx e) (WCurve.c_gy e) W (VG _ Gx) (VG _ Gy)) OG2) as (P & HP & WPP).
  exists P. split; [exact HP|]. split; [exact WPP|]. cbn [w_gx w_gy w_r]. intro n. rewrite <- EA, (WM A n Infinity OG).
  pose proof (nonsing (ZpF p Hp') _ _ NR) as NS.
  rewrite <- (order_iff (pt (ZpF p Hp')) (fun n => nmul p Hp' F0 (of_Z p a) n A) (Inf _) r Hr eq_refl ltac:(discriminate) OR).
  - destruct (nmul p Hp' F0 (of_Z p a) n A); split; intro E; try reflexivity; discriminate.
  - intros m k E. rewrite <- (nmul_add p Hp' H2' F0 (of_Z p a) (of_Z p b) NS) by exact OG. rewrite E. reflexivity.
Qed.

Lemma m_noroot p (Hp : prime p) a s sl u : noroot_check p a 1 (- (s * s)) sl u = true ->
  2 < p /\ forall x : ZpF p Hp, Fadd (Fadd (Fmul (Fmul x x) x) (Fmul (of_Z p a : ZpF p Hp) (Fmul x x))) x <> Fmul (of_Z p s : ZpF p Hp) (of_Z p s : ZpF p Hp).
Proof.
  intro HN. destruct (noroot_cubic p Hp a 1 (- (s * s)) sl u HN) as [H2 NR]. split; [exact H2|]. intros x E.
  apply (NR x). rewrite of_Z_opp, of_Z_mul. exact (mont_cubic (ZpF p Hp) _ _ _ E).
Qed.
Lemma m_inst X p a s r h gx gy sl u sl' km : prime p -> prime r ->
  sqrt_modulus p -> 0 <= gx < p -> 0 <= gy < p -> Z.log2 r < 2 ^ 63 -> (a * a - 4) mod p <> 0 ->
  X = Ret (MCurve.mkCurve (mkFp p) (elt_of p a) (mkFpElt 1 (mkFp p)) (elt_of p s) r (mkFpElt gx (mkFp p)) (mkFpElt gy (mkFp p)) h) ->
  noroot_check p a 1 (- (s * s)) sl u = true -> mcheck p a s gx gy r sl' km = true ->
  m_shipped X (mkM p a s r h gx gy).
Proof.
  intros Hp Hr Hm Gx Gy Hl HA4 HX HN HC. set (e := MCurve.mkCurve _ _ _ _ _ _ _ _) in HX. exists e. split; [exact HX|].
  do 6 (split; [reflexivity|]). split; [exact Hp|]. split; [exact Hr|].
  destruct (m_noroot p Hp a s sl u HN) as [H2 NR0].
  assert (VG : forall v, 0 <= v < p -> valid p (mkFpElt v (mkFp p))) by (intros v Hv; split; [reflexivity|exact Hv]).
  assert (W : MPoints.mont e).
  { split; [exact Hp|]. cbn [MCurve.c_f e modulus]. split; [exact H2|]. split; [apply elt_valid; lia|]. split; [apply VG; lia|]. split; [apply elt_valid; lia|].
    split; [reflexivity|]. cbn [val MCurve.c_a MCurve.c_b MCurve.c_s e elt_of]. split.
    - intro D. apply HA4. rewrite Zminus_mod, (Z.mul_mod a a) by lia. rewrite <- Zminus_mod. apply Zdivide_mod, D.
    - intros x D. apply of_Z_div in D; [|lia]. apply (NR0 (of_Z p x)). revert D. pushZ. rewrite !of_Z_mod. exact (fun h => h). }
  clear NR0.
  assert (R0 : 0 < r) by (destruct Hr; lia).
  split. { split; [exact W|]. split; [exact Hm|]. split; [exact R0|]. split; [exact Hl|]. split; apply VG; assumption. }
  destruct (MontProps.mont_open e W) as (p' & Hp' & H2' & a' & b' & s' & ef & ea & eb & es & b1 & N4 & NR & WP & WS & WM & WO & WN).
  assert (Ep : p = p') by exact (f_equal modulus ef). destruct Ep.
  assert (Ea : a' = of_Z p a). { apply Zp_eq. exact (eq_sym (f_equal val ea)). }
  assert (Es : s' = of_Z p s). { apply Zp_eq. exact (eq_sym (f_equal val es)). }
  subst a' s'.
  destruct (mcheck_ok p Hp' a s gx gy r sl' km N4 NR HC) as [OG OR].
  set (A := Aff (ZpF p Hp') (of_Z p gx) (of_Z p gy)) in *.
  assert (EA : ap p Hp' A = Affine gx gy) by (cbn; rewrite !Z.mod_small by lia; reflexivity).
  pose proof (proj1 (WO A) OG) as OG2. rewrite EA in OG2.
  destruct (proj1 (MontProps.c33_new_point e (MCurve.c_gx e) (MCurve.c_gy e) W (VG _ Gx) (VG _ Gy)) OG2) as (P & HP & WPP).
  exists P. split; [exact HP|]. split; [exact WPP|]. cbn [m_gx m_gy m_r]. intro n. rewrite <- EA, (WM A n Infinity OG).
  pose proof (mont_nonsing (ZpF p Hp') _ _ N4 NR) as NS.
  rewrite <- (order_iff (pt (ZpF p Hp')) (fun n => nmul p Hp' (of_Z p a) F1 n A) (Inf _) r Hr eq_refl ltac:(discriminate) OR).
  - destruct (nmul p Hp' (of_Z p a) F1 n A); split; intro E; try reflexivity; discriminate.
  - intros m k E. rewrite <- (nmul_add p Hp' H2' (of_Z p a) F1 F0 NS) by exact OG. rewrite E. reflexivity.
Qed.

Lemma e_inst X p a d s r h gx gy sl sl' km : prime p -> prime r ->
  sqrt_modulus p -> 0 <= gx < p -> 0 <= gy < p -> Z.log2 r < 2 ^ 63 -> a mod p <> 0 -> (s * s - a) mod p = 0 -> (gx, gy) <> (0, 1) ->
  X = Ret (ECurve.mkCurve (mkFp p) (elt_of p a) (elt_of p d) r (mkFpElt gx (mkFp p)) (mkFpElt gy (mkFp p)) h) ->
  nonsq_check p d sl = true -> echeck p a d gx gy r sl' km = true ->
  e_shipped X (mkE p a d r h gx gy).
Proof.
  intros Hp Hr Hm Gx Gy Hl HA HS HG HX HN HC. set (e := ECurve.mkCurve _ _ _ _ _ _ _) in HX. exists e. split; [exact HX|].
  do 5 (split; [reflexivity|]). split; [exact Hp|]. split; [exact Hr|].
  destruct (nonsq_ok p Hp d sl HN) as [H2 ND0].
  assert (VG : forall v, 0 <= v < p -> valid p (mkFpElt v (mkFp p))) by (intros v Hv; split; [reflexivity|exact Hv]).
  assert (W : EPoints.edw e).
  { split; [exact Hp|]. cbn [ECurve.c_f e modulus]. split; [exact H2|]. split; [apply elt_valid; lia|]. split; [apply elt_valid; lia|].
    cbn [val ECurve.c_a ECurve.c_d e elt_of]. split; [|split].
    - intro D. apply HA. apply Zdivide_mod in D. rewrite Zmod_mod in D. exact D.
    - exists s. apply of_Z_div; [lia|]. rewrite of_Z_mod. apply of_Z_div; [lia|]. apply Zmod_divide; [lia|exact HS].
    - intros x D. apply of_Z_div in D; [|lia]. apply (ND0 (of_Z p x)). revert D. pushZ. rewrite !of_Z_mod. exact (fun h => h). }
  clear ND0.
  assert (R0 : 0 < r) by (destruct Hr; lia).
  split. { split; [exact W|]. split; [exact Hm|]. split; [exact R0|]. split; [exact Hl|]. split; apply VG; assumption. }
  destruct (EdwProps.edw_open e W) as (p' & Hp' & H2' & a' & d' & ef & ea & ed & AS & AN & DN & WP & WS & WM & WO & WN).
  assert (Ep : p = p') by exact (f_equal modulus ef). destruct Ep.
  assert (Ea : a' = of_Z p a). { apply Zp_eq. exact (eq_sym (f_equal val ea)). }
  assert (Ed : d' = of_Z p d). { apply Zp_eq. exact (eq_sym (f_equal val ed)). }
  subst a' d'.
  destruct (echeck_ok p Hp' a d gx gy r sl' km AS DN HC) as [OG OR].
  set (A := (of_Z p gx, of_Z p gy) : ZpF p Hp' * ZpF p Hp') in *.
  assert (EA : EdwP.zz p Hp' A = (gx, gy)) by (change ((gx mod p, gy mod p) = (gx, gy)); rewrite !Z.mod_small by lia; reflexivity).
  assert (E0 : EdwP.zz p Hp' (ezero (ZpF p Hp')) = (0, 1)) by (change ((0 mod p, 1 mod p) = (0, 1)); rewrite !Z.mod_small by lia; reflexivity).
  assert (ZZ : forall B C, EdwP.zz p Hp' B = EdwP.zz p Hp' C -> B = C).
  { intros [x y] [x' y'] E. unfold EdwP.zz in E. cbn in E. f_equal; apply Zp_eq; [exact (f_equal fst E)|exact (f_equal snd E)]. }
  pose proof (proj1 (WO A) OG) as OG2. rewrite EA in OG2.
  destruct (proj1 (EdwProps.c36_new_point e (ECurve.c_gx e) (ECurve.c_gy e) W (VG _ Gx) (VG _ Gy)) OG2) as (P & HP & WPP).
  exists P. split; [exact HP|]. split; [exact WPP|]. cbn [e_gx e_gy e_r]. intro n. rewrite <- EA, (WM A n (0, 1) OG).
  rewrite <- (order_iff (ZpF p Hp' * ZpF p Hp') (fun n => EdwP.enmul p Hp' (of_Z p a) (of_Z p d) n A) (ezero _) r Hr eq_refl).
  - rewrite <- E0. split; intro E; [apply ZZ; symmetry; exact E|rewrite E; reflexivity].
  - intro E. apply HG. rewrite <- EA, <- E0, <- E. f_equal. cbn [EdwP.enmul]. rewrite eadd_comm. symmetry. apply eadd_zero.
  - exact OR.
  - intros m k E. rewrite <- (EdwP.enmul_add p Hp' H2' (of_Z p a) (of_Z p d) AS DN) by exact OG. rewrite E. rewrite eadd_comm; apply eadd_zero.
Qed.
