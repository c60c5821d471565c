(** Edwards curves that need not be complete, on the whole group of the companion curve: C66. *)
From Coq Require Import ZArith Znumtheory Lia String Bool List.
From Verif.Math Require Import Fld Zp Residue EdOdd EdComp ECGroup.
From Verif.Spec Require Import Arith Curve Elements EPoints Exceptions.
From Verif.Model Require Import Out BigInt PrimeField Scalar.
From Verif.Model Require ECurve.
From Verif.Proofs Require Import FieldP FieldProps CurveP SmallP ExcepP ExcepProps EdCompP.
From Verif.Proofs Require EdOddP EdwP EdwProps.
Import ListNotations.
Open Scope Z_scope.

Lemma smooth_open e : edw_smooth e -> exists p (Hp : prime p) (Hp2 : 2 < p) (a d : ZpF p Hp),
  ECurve.c_f e = mkFp p /\ ECurve.c_a e = fe a /\ ECurve.c_d e = fe d /\ a <> F0 /\ d <> F0 /\ a <> d
  /\ (forall P A, epoint e P A <-> exists A', A = EdwP.zz p Hp A' /\ EdwP.wrep p Hp a d e P A')
  /\ (forall P M, e_stands e P M <-> exists M', M = ap p Hp M' /\ crep p Hp a d e P M').
Proof.
  intros (W & NA & ND & NS). destruct (edw_any_open _ W) as (p & Hp & Hp2 & a & d & ef & ea & ed & WP).
  rewrite ef, ea in NA. rewrite ef, ed in ND. rewrite ef, ea, ed in NS. cbn [modulus val fe] in *.
  exists p, Hp, Hp2, a, d. do 3 (split; [assumption|]). split; [exact (EdOddP.div_nz p Hp a NA)|]. split; [exact (EdOddP.div_nz p Hp d ND)|].
  split; [|split; [exact WP|exact (stands_ap p Hp Hp2 a d e ef ea ed)]]. intros ->. apply NS. rewrite Z.sub_diag. exists 0. reflexivity.
Qed.
Ltac open_s H := destruct (smooth_open _ H) as (p & Hp & Hp2 & a & d & ef & ea & ed & Na & Nd & Nad & WP & WC).
Ltac open_c WC H :=
  apply WC in H;
  let M' := fresh "M'" in let R := fresh "R" in destruct H as (M' & -> & R).

(** what can come out of the operations is a point of the companion curve or (0, 0, 0, 0); the points of the Edwards curve are
    among the former *)
Lemma c66_edw_tuples : forall e P, edw_smooth e ->
  (e_tuple e P <-> e_null e P \/ exists M, e_stands e P M)
  /\ (forall A, epoint e P A -> exists M, e_stands e P M /\ e_finite e M).
Proof.
  intros e P W. open_s W.
  assert (S : forall M, e_stands e P M <-> exists M', M = ap p Hp M' /\ crep p Hp a d e P M') by (intro M; apply WC).
  assert (T : e_tuple e P <-> e_null e P \/ exists M, e_stands e P M).
  { rewrite (EdOddP.tup_iff p Hp Hp2 a d e ef ea ed), (tup_crep p Hp Hp2 a d Nad e), (null_ap p Hp e ef). setoid_rewrite S.
    split; (intros [H|[M H]]; [left; exact H|right]); [eauto|]. destruct H as (M' & -> & H). eauto. }
  split; [exact T|]. intros A HP. pose proof HP as HQ. apply WP in HQ as (A' & -> & R).
  pose proof (EdOddP.wrep_tup p Hp a d e P A' R) as TU. apply (tup_crep p Hp Hp2 a d Nad e) in TU. destruct TU as [N|[M' HM]].
  - exfalso. rewrite (N : P = _) in R. destruct R as (_ & (X & Y & T' & Z & EC & R) & _). cbn [ECurve.pc qpt mkq zero4] in EC.
    apply (proj1 R). symmetry. apply (fe_inj p). exact (f_equal ECurve.pz EC).
  - exists (ap p Hp M'). split; [apply S; eauto|]. apply (finite_ap p Hp Hp2 a d e ef ea ed).
    apply (crep_wrep p Hp Hp2 a d Nad e P M' HM). eauto.
Qed.
(** what a tuple stands for is unique, and it is a point of the Edwards curve exactly when no denominator vanishes there *)
Lemma c66_edw_stands : forall e P M, edw_smooth e -> e_stands e P M ->
  (forall N, e_stands e P N <-> N = M) /\ ~ e_null e P /\ ((exists A, epoint e P A) <-> e_finite e M).
Proof.
  intros e P M W HP. open_s W. pose proof HP as HS. open_c WC HP.
  split; [|split].
  - intro N. split; [|intros ->; exact HS]. intro HN. open_c WC HN. f_equal. exact (crep_fun p Hp Hp2 a d Nad e P _ _ R0 R).
  - rewrite (null_ap p Hp e ef). intro HN. exact (null_no_crep p Hp Hp2 a d Nad e P M' HN R).
  - rewrite (finite_ap p Hp Hp2 a d e ef ea ed), <- (crep_wrep p Hp Hp2 a d Nad e P M' R). setoid_rewrite WP. split.
    + intros (A & A' & _ & H). eauto.
    + intros (A' & H). eauto.
Qed.
(** the coordinates: x = 2 u / v and y = (u - f) / (u + f) with f = a - d; the identity is Infinity and (0, -1) is (0, 0) *)
Lemma c66_edw_coordinates : forall e P x y, edw_smooth e -> epoint e P (x, y) ->
  let p := modulus (ECurve.c_f e) in let f := val (ECurve.c_a e) - val (ECurve.c_d e) in
  (e_stands e P Infinity -> x = 0 /\ y = 1) /\ (e_stands e P (Affine 0 0) -> x = 0 /\ y = p - 1)
  /\ forall u v, e_stands e P (Affine u v) -> u <> 0 -> (p | x * v - 2 * u) /\ (p | y * (u + f) - (u - f)).
Proof.
  intros e P x y W HP p f. pose proof W as ((PR & P2 & _) & _). fold p in PR, P2.
  destruct HP as (_ & _ & _ & _ & _ & (NZ & DX & DY & DT) & (CX & CY & _)). fold p in NZ, DX, DY, DT, CX, CY. cbn [fst snd] in *.
  assert (VV : forall M, e_stands e P M -> ~ (p | val (ECurve.pz (ECurve.pc P)))).
  { intros M (_ & _ & _ & _ & V & _) D. unfold valid in V. apply NZ. fold p in V. destruct D as [k E]. rewrite E in V |- *. assert (k = 0) by nia. subst k. reflexivity. }
  set (X := val (ECurve.px (ECurve.pc P))) in *. set (Y := val (ECurve.py (ECurve.pc P))) in *.
  set (T := val (ECurve.ptt (ECurve.pc P))) in *. set (Z := val (ECurve.pz (ECurve.pc P))) in *.
  assert (CAN : forall z w, (p | z * w) -> ~ (p | w) -> (p | z)).
  { intros z w D N. destruct (prime_mult p PR z w D) as [H|H]; [exact H|contradiction]. }
  assert (SM : forall z, coord p z -> (p | z) -> z = 0).
  { intros z [H1 H2] [k E]. rewrite E in *. assert (k = 0) by nia. subst k. reflexivity. }
  split; [|split].
  - intro H. pose proof (VV _ H) as N. destruct H as (_ & _ & _ & _ & _ & (l & Nl & EX & EY & ET & EZ) & _).
    fold p X Y T Z in EX, EY, ET, EZ. split.
    + apply SM; [exact CX|]. apply (CAN x Z); [|exact N]. rewrite EX in DX. destruct DX as [k E]. exists (- k). lia.
    + assert (D : (p | y - 1)).
      { apply (CAN _ Z); [|exact N]. destruct DY as [k1 E1], EY as [k2 E2], EZ as [k3 E3]. exists (- k1 + k2 - k3). lia. }
      destruct D as [k E]. destruct CY as [C1 C2]. assert (k = 0) by nia. lia.
  - intro H. pose proof (VV _ H) as N. destruct H as (_ & _ & _ & _ & _ & (l & Nl & [(_ & EX & EY & ET & EZ)|(U & _)]) & _); [|destruct (U eq_refl)].
    fold p X Y T Z in EX, EY, ET, EZ. split.
    + apply SM; [exact CX|]. apply (CAN x Z); [|exact N]. rewrite EX in DX. destruct DX as [k E]. exists (- k). lia.
    + assert (D : (p | y + 1)).
      { apply (CAN _ Z); [|exact N]. destruct DY as [k1 E1], EY as [k2 E2], EZ as [k3 E3]. exists (- k1 + k2 + k3). lia. }
      destruct D as [k E]. destruct CY as [C1 C2]. assert (k = 1) by nia. lia.
  - intros u v H U. pose proof (VV _ H) as N. destruct H as (_ & _ & _ & _ & _ & (l & Nl & [(U0 & _)|(_ & EX & EY & ET & EZ)]) & _); [contradiction|].
    fold p X Y T Z f in EX, EY, ET, EZ.
    assert (NZ2 : ~ (p | l * (v * (u + f)))).
    { intro D. apply N. replace Z with (Z - l * (v * (u + f)) + l * (v * (u + f))) by ring. apply Z.divide_add_r; assumption. }
    assert (Nv : ~ (p | l * v)) by (intro D; apply NZ2; replace (l * (v * (u + f))) with (l * v * (u + f)) by ring; apply Z.divide_mul_l, D).
    assert (Nu : ~ (p | l * (u + f))) by (intro D; apply NZ2; replace (l * (v * (u + f))) with (l * (u + f) * v) by ring; apply Z.divide_mul_l, D).
    split.
    + apply (CAN _ (l * (u + f))); [|exact Nu].
      replace ((x * v - 2 * u) * (l * (u + f))) with (- (X - x * Z) + (X - l * (2 * u * (u + f))) - x * (Z - l * (v * (u + f)))) by ring.
      apply Z.divide_sub_r; [apply Z.divide_add_r; [apply Z.divide_opp_r; exact DX|exact EX]|apply Z.divide_mul_r; exact EZ].
    + apply (CAN _ (l * v)); [|exact Nv].
      replace ((y * (u + f) - (u - f)) * (l * v)) with (- (Y - y * Z) + (Y - l * (v * (u - f))) - y * (Z - l * (v * (u + f)))) by ring.
      apply Z.divide_sub_r; [apply Z.divide_add_r; [apply Z.divide_opp_r; exact DY|exact EY]|apply Z.divide_mul_r; exact EZ].
Qed.
(** the sum of P and Q is the sum on the companion curve, unless P - Q is not a point of the Edwards curve: then it is (0, 0, 0, 0) *)
Lemma c66_edw_completed : forall e P Q M N, edw_smooth e -> e_stands e P M -> e_stands e Q N ->
  exists R D, ECurve.pt_add P Q = Ret R /\ e_csum e M (negative (modulus (ECurve.c_f e)) N) D
    /\ (~ e_finite e D -> e_null e R) /\ (e_finite e D -> forall C, e_stands e R C <-> e_csum e M N C).
Proof.
  intros e P Q M N W HP HQ. open_s W. open_c WC HP. open_c WC HQ.
  destruct (c_add p Hp Hp2 a d Na Nd Nad e ea ed P Q _ _ R R0) as (T & E & H).
  eexists T, (ap p Hp (padd _ _ _ M' (popp _ M'0))). split; [exact E|].
  rewrite ef. cbn [modulus]. rewrite <- (neg_ap p Hp).
  split; [apply (csum_ap p Hp Hp2 a d e ef ea ed); [apply R|apply on_popp, R0|reflexivity]|].
  rewrite (finite_ap p Hp Hp2 a d e ef ea ed), (null_ap p Hp e ef).
  destruct H as [[F N]|[F H]]; split; intro HF; try contradiction; [exact N|].
  intro C. rewrite (csum_ap p Hp Hp2 a d e ef ea ed) by apply R || apply R0. rewrite (stands_ap p Hp Hp2 a d e ef ea ed). split.
  - intros (C' & -> & HC). f_equal. exact (crep_fun p Hp Hp2 a d Nad e T _ _ HC H).
  - intros ->. eauto.
Qed.
(** adding a point to itself has no exception; neither has negation *)
Lemma c66_edw_doubling : forall e P M, edw_smooth e -> e_stands e P M ->
  (exists R, ECurve.pt_add P P = Ret R /\ forall C, e_stands e R C <-> e_csum e M M C)
  /\ exists R, ECurve.pt_neg P = Ret R /\ e_stands e R (negative (modulus (ECurve.c_f e)) M).
Proof.
  intros e P M W HP. open_s W. open_c WC HP. split.
  - destruct (c_double p Hp Hp2 a d Na Nd Nad e ea ed P _ R) as (T & E & H). exists T. split; [exact E|].
    intro C. rewrite (csum_ap p Hp Hp2 a d e ef ea ed) by apply R. rewrite (stands_ap p Hp Hp2 a d e ef ea ed). split.
    + intros (C' & -> & HC). f_equal. exact (crep_fun p Hp Hp2 a d Nad e T _ _ HC H).
    + intros ->. eauto.
  - destruct (c_neg p Hp Hp2 a d e ea ed P _ R) as (T & E & H). exists T. split; [exact E|].
    rewrite ef. cbn [modulus]. rewrite <- (neg_ap p Hp). apply (stands_ap p Hp Hp2 a d e ef ea ed). eauto.
Qed.
(** k P is the k-fold sum, unless an addition on the way meets such a difference: then it is (0, 0, 0, 0) *)
Lemma c66_edw_multiplication : forall oc e P M k, edw_smooth e -> e_stands e P M -> sr k = ECurve.c_r e -> 0 < sk k -> bits (sk k) < 2 ^ 64 ->
  exists R, ECurve.pt_mul oc P k = Ret R
    /\ (e_spoiled e M (sk k) -> e_null e R)
    /\ (~ e_spoiled e M (sk k) -> forall C, e_stands e R C <-> multiple (e_csum e) Infinity M (Z.to_nat (sk k)) C).
Proof.
  intros oc e P M k W HP Er Hk H64. open_s W. open_c WC HP.
  destruct (c_mul p Hp Hp2 a d Na Nd Nad e ef ea ed oc P _ k R Er Hk H64) as (T & E & H). exists T. split; [exact E|].
  rewrite (spoiled_ap p Hp Hp2 a d e ef ea ed) by apply R. rewrite (null_ap p Hp e ef).
  destruct H as [[F N]|[F H]]; split; intro HF; try contradiction; [exact N|].
  intro C. rewrite (cmul_ap p Hp Hp2 a d e ef ea ed) by apply R. rewrite (stands_ap p Hp Hp2 a d e ef ea ed). split.
  - intros (C' & -> & HC). f_equal. exact (crep_fun p Hp Hp2 a d Nad e T _ _ HC H).
  - intros ->. eauto.
Qed.
(** (0, 0, 0, 0) absorbs every operation, compares equal to everything and is not the identity *)
Lemma c66_edw_no_point : forall oc e N P k, edw_smooth e -> e_null e N -> e_tuple e P ->
  sr k = ECurve.c_r e -> 0 < sk k -> bits (sk k) < 2 ^ 64 ->
  ECurve.pt_add N P = Ret N /\ ECurve.pt_add P N = Ret N /\ ECurve.pt_sub N P = Ret N /\ ECurve.pt_sub P N = Ret N
  /\ ECurve.pt_neg N = Ret N /\ ECurve.pt_mul oc N k = Ret N
  /\ ECurve.pt_eqb N P = Ret true /\ ECurve.pt_eqb P N = Ret true
  /\ ECurve.pt_is_zero N = false /\ forall A, ~ epoint e N A.
Proof.
  intros oc e N P k W HN HP Er Hk H64. pose proof (proj1 (c66_edw_tuples e N W)) as TN.
  open_s W. apply (null_ap p Hp e ef) in HN. apply (EdOddP.tup_iff p Hp Hp2 a d e ef ea ed) in HP.
  assert (SH : forall Q, EdOddP.tup p Hp a d e Q -> shape p Hp e Q).
  { intros Q (X & Y & T & Z & -> & _). exists (X, Y, T, Z). reflexivity. }
  pose proof (null_neg p Hp Hp2 a d e ea ed N HN) as Neg.
  destruct (EdOddP.tup_neg p Hp Hp2 a d e ea ed P HP) as (P' & EP & RP).
  split; [exact (null_add_l p Hp Hp2 a d e ea ed N P HN (SH P HP))|].
  split; [exact (null_add_r p Hp Hp2 a d e ea ed N P HN (SH P HP))|].
  split; [unfold ECurve.pt_sub; rewrite EP; exact (null_add_l p Hp Hp2 a d e ea ed N P' HN (SH P' RP))|].
  split; [unfold ECurve.pt_sub; rewrite Neg; exact (null_add_r p Hp Hp2 a d e ea ed N P HN (SH P HP))|].
  split; [exact Neg|]. split; [exact (null_mul p Hp Hp2 a d Na Nd Nad e ef ea ed oc N k HN Er Hk H64)|].
  destruct (null_eqb p Hp Hp2 e N P HN (SH P HP)) as [E1 E2]. split; [exact E1|]. split; [exact E2|]. split; [rewrite HN; reflexivity|].
  intros A (_ & _ & _ & _ & _ & (NZ & _) & _). apply NZ. rewrite HN. reflexivity.
Qed.

Section D20.
  (** the curve 2 x^2 + y^2 = 1 + 4 x^2 y^2 modulo 13 again. The companion v^2 = u^3 + 12 u^2 + 4 u is cyclic of order 20; (5, 4) generates
      it and stands for (9, 11); (2, 5) and (2, 8), of order 4, are not points of the Edwards curve *)
  Definition D20 : ECurve.Curve := ECurve.mkCurve (mkFp 13) (n13 2) (n13 4) 20 (n13 9) (n13 11) 1.
  Definition d20 (x y t z : Z) : ECurve.Point := ECurve.mkPoint D20 (ECurve.mkProy (n13 x) (n13 y) (n13 t) (n13 z)).
  Lemma d20_smooth : edw_smooth D20.
  Proof.
    split; [split; [apply prime_small; reflexivity|]; cbn; split; [lia|]; split; split; (reflexivity || cbn; lia)|];
      cbn; repeat split; intro D; apply Zdivide_mod in D; discriminate D.
  Qed.
  Lemma d20_gen : e_stands D20 (d20 9 11 8 1) (Affine 5 4).
  Proof.
    unfold e_stands, valid. cbn. do 5 (split; [first [reflexivity|split; [reflexivity|lia]]|]). split.
    - exists 12. split; [intro D; apply Zdivide_mod in D; discriminate D|]. right. split; [lia|].
      repeat split; apply Zmod_divide; (lia || reflexivity).
    - unfold coord. split; [lia|]. split; [lia|]. apply Zmod_divide; (lia || reflexivity).
  Qed.
  (** 5 (9, 11) is no point of the curve, yet stands for (2, 5), and adding (9, 11) to it is right again; 7 (9, 11) is lost *)
  Example c66_edw_completed_ex : edw_smooth D20 /\ e_stands D20 (d20 9 11 8 1) (Affine 5 4) /\ epoint D20 (d20 9 11 8 1) (9, 11)
    /\ ECurve.pt_mul true (d20 9 11 8 1) (mkScalar 5 20) = Ret (d20 0 1 6 0) /\ e_stands D20 (d20 0 1 6 0) (Affine 2 5) /\ ~ e_finite D20 (Affine 2 5)
    /\ (exists R, ECurve.pt_add (d20 0 1 6 0) (d20 9 11 8 1) = Ret R /\ ECurve.pt_mul true (d20 9 11 8 1) (mkScalar 6 20) = Ret (d20 6 10 9 11)
          /\ ECurve.pt_eqb R (d20 6 10 9 11) = Ret true)
    /\ ECurve.pt_mul true (d20 9 11 8 1) (mkScalar 7 20) = Ret (d20 0 0 0 0) /\ e_spoiled D20 (Affine 5 4) 7.
  Proof.
    split; [exact d20_smooth|]. split; [exact d20_gen|].
    split; [repeat split; try reflexivity; cbn; try lia; try (apply Zmod_divide; [lia|reflexivity]); intro D; apply Zdivide_mod in D; discriminate D|].
    split; [vm_compute; reflexivity|]. split; [|split; [|split; [|split]]].
    - unfold e_stands, valid. cbn. do 5 (split; [first [reflexivity|split; [reflexivity|lia]]|]). split.
      + exists 2. split; [intro D; apply Zdivide_mod in D; discriminate D|]. right. split; [lia|].
        repeat split; apply Zmod_divide; (lia || reflexivity).
      + unfold coord. split; [lia|]. split; [lia|]. apply Zmod_divide; (lia || reflexivity).
    - intros [[H _]|[_ H]]; [discriminate H|]. apply H. cbn. exists 0. reflexivity.
    - eexists. split; [vm_compute; reflexivity|]. split; vm_compute; reflexivity.
    - vm_compute. reflexivity.
    - destruct (smooth_open D20 d20_smooth) as (p & Hp & Hp2 & a & d & ef & ea & ed & Na & Nd & Nad & WP & WC).
      destruct (proj1 (WC _ _) d20_gen) as (M & EM & R). rewrite EM.
      destruct (c_mul p Hp Hp2 a d Na Nd Nad D20 ef ea ed true (d20 9 11 8 1) M (mkScalar 7 20) R eq_refl eq_refl eq_refl) as (T & ET & [[S _]|[_ HT]]).
      + apply (spoiled_ap p Hp Hp2 a d D20 ef ea ed); [apply R|exact S].
      + exfalso. assert (T = d20 0 0 0 0) as -> by (vm_compute in ET; vm_compute; congruence).
        refine (null_no_crep p Hp Hp2 a d Nad D20 (d20 0 0 0 0) _ _ HT). apply (null_ap p Hp D20 ef). reflexivity.
  Qed.
End D20.
