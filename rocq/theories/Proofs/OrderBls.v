(** Points of y^2 = x^3 + b: parts of the group cut out by primes, and the count of the shipped BLS12-381 curve. *)
From Coq Require Import ZArith Znumtheory Lia String Ascii Bool List.
From Verif.Math Require Import Fld Zp RCB MontAdd Edwards FinGroup OrderAlg.
From Verif.Spec Require Import Arith Curve Order Instances.
From Verif.Model Require Import Out BigInt PrimeField.
From Verif.Proofs Require Import FieldP FieldProps CurveP InstP InstShip OrderP OrderTo OrderShip.
From Verif.Model Require WCurve.
From Verif.Proofs Require WeierP WeierProps.
From Verif.Math Require Import ECGroup.
Import ListNotations.
Open Scope Z_scope.

Section Part.
  Context {T : Type} (on : T -> Prop) (add : T -> T -> T) (opp : T -> T) (zero : T).
  Hypothesis HG : group on add opp zero.
  (** a subgroup with n elements, killed by q *)
  Definition part (q n : Z) (M : list T) : Prop := FinGroup.sub on add opp zero M /\ killed add opp zero q M /\ Z.of_nat (Datatypes.length M) = n.
  Lemma part_cyc A q : on A -> ord add opp zero A q -> part q q (cyc add zero A q).
  Proof.
    intros OA O. split; [apply (cyc_sub _ _ _ _ HG); assumption|]. split; [apply (cyc_killed _ _ _ _ HG); assumption|]. apply (cyc_len _ _ _ _ _ O).
  Qed.
  Lemma part_two A B q : on A -> on B -> prime q -> ord add opp zero A q -> ord add opp zero B q -> (forall k, B <> zmul add opp zero k A) ->
    part q (q * q) (lsum add (cyc add zero A q) (cyc add zero B q)).
  Proof.
    intros OA OB P HA HB N. destruct (part_cyc A q OA HA) as (SA & KA & LA), (part_cyc B q OB HB) as (SB & KB & LB).
    split; [apply (lsum_sub _ _ _ _ HG); [assumption..|]; apply (meet_prime _ _ _ _ HG); assumption|].
    split; [apply (lsum_killed _ _ _ _ HG); assumption|]. rewrite lsum_len, LA, LB. reflexivity.
  Qed.
  Lemma part_sum q n M q' n' M' : part q n M -> part q' n' M' -> Z.gcd q q' = 1 -> part (q * q') (n * n') (lsum add M M').
  Proof.
    intros (SM & KM & LM) (SM' & KM' & LM') E. split; [|split].
    - apply (lsum_sub _ _ _ _ HG); [assumption..|]. apply (meet_coprime _ _ _ _ HG q q'); assumption.
    - apply (lsum_killed _ _ _ _ HG); [assumption..| |].
      + apply (killed_more _ _ _ _ HG q); [assumption..|]. apply Z.divide_factor_l.
      + apply (killed_more _ _ _ _ HG q'); [assumption..|]. apply Z.divide_factor_r.
    - rewrite lsum_len, LM, LM'. reflexivity.
  Qed.
End Part.

Section Bls.
  Variable p : Z.
  Hypothesis Hp : prime p.
  Hypothesis H2 : 2 < p.
  Local Notation K := (ZpF p Hp).
  Local Notation O := (of_Z p : Z -> ZpF p Hp).
  Variables (b w : Z).
  Hypothesis NR : forall x : K, Fadd (Fadd (Fmul (Fmul x x) x) (Fmul (O 0) x)) (O b) <> F0.
  Local Notation won := (on K F0 (O 0) (O b)).
  Local Notation wadd := (padd K F0 (O 0)).
  Local Notation Zr := (Inf K).
  Definition NSb := nonsing K (O 0) (O b) NR.
  Definition HGb := cgroup p Hp H2 F0 (O 0) (O b) NSb.
  Lemma ord_check x y q sl km : prime q -> wcheck p 0 b x y q sl km = true ->
    won (Aff K (O x) (O y)) /\ ord wadd (popp K) Zr (Aff K (O x) (O y)) q.
  Proof.
    intros Q H. destruct (wcheck_ok p Hp 0 b x y q sl km NR H) as [OA E]. split; [exact OA|].
    apply (ord_prime _ _ _ _ HGb q _ OA Q); [|discriminate]. rewrite <- (Z2Nat.id q) by (destruct Q; lia). rewrite zmul_nat, mul_nmul. exact E.
  Qed.
  Lemma to_check x y n tx ty sl km : 0 <= n -> wto_check p 0 b x y n tx ty sl km = true ->
    zmul wadd (popp K) Zr n (Aff K (O x) (O y)) = Aff K (O tx) (O ty).
  Proof.
    intros N H. destruct (wto_ok p Hp 0 b x y n tx ty sl km NR H) as [_ E]. rewrite <- (Z2Nat.id n), zmul_nat, mul_nmul by exact N. exact E.
  Qed.
  Hypothesis W3 : (w * w + w + 1) mod p = 0.
  Hypothesis W1 : (w - 1) mod p <> 0.
  Hypothesis B0 : b mod p <> 0.
  Lemma w3 : Fadd (Fadd (Fmul (O w) (O w)) (O w)) F1 = F0 :> K.
  Proof. apply Zmod_divide in W3; [|lia]. apply of_Z_zero in W3; [|lia]. revert W3. pushZ. exact (fun h => h). Qed.
  Lemma w1 : O w <> F1.
  Proof. intro E. apply W1. apply Zdivide_mod, of_Z_div; [lia|exact E]. Qed.
  Lemma nb : O b <> F0.
  Proof. intro E. apply B0. apply Zdivide_mod, of_Z_zero; [lia|exact E]. Qed.
  Local Notation rt := (rot K (O w)).
  Lemma rt_on A : won A -> won (rt A).
  Proof. exact (on_rot K (O b) (O w) w3 A). Qed.
  Lemma rt_add A B : won A -> won B -> rt (wadd A B) = wadd (rt A) (rt B).
  Proof. exact (rot_add K (two_K p Hp H2) (O b) (O w) w3 A B). Qed.
  Lemma rt_sum A : won A -> wadd (wadd (rt (rt A)) (rt A)) A = Zr.
  Proof. exact (rot_sum K (two_K p Hp H2) (O b) (O w) w3 w1 nb A). Qed.
  Lemma rt_ord A q : won A -> prime q -> ord wadd (popp K) Zr A q -> ord wadd (popp K) Zr (rt A) q.
  Proof.
    intros OA Q OD. apply (ord_prime _ _ _ _ HGb q _ (rt_on A OA) Q).
    - rewrite <- (hom_zmul _ _ _ _ _ _ _ _ HGb HGb rt rt_on rt_add) by exact OA.
      rewrite (proj2 (proj2 OD q) (Z.divide_refl q)). reflexivity.
    - destruct A as [|x y]; [|discriminate]. exfalso. pose proof (proj1 (proj2 OD 1)) as D.
      specialize (D (zmul_1 _ _ _ _ HGb _ OA)). apply Z.divide_1_r_nonneg in D; destruct Q; lia.
  Qed.
  Lemma no_multiple A B : won A -> (forall k, B <> zmul wadd (popp K) Zr k A) ->
    forall n, ~ multiple (chord_tangent p 1 0 0) Infinity (ap p Hp A) n (ap p Hp B).
  Proof.
    intros OA N n M. apply (multiple_ap p Hp H2 F0 (O 0) (O b) n A OA) in M. apply ap_inj in M.
    apply (N (Z.of_nat n)). rewrite zmul_nat, mul_nmul. exact M.
  Qed.
  (** the curve's rotation has no eigenvalue modulo q *)
  Lemma indep_rot_check x y q sl km : prime q -> q mod 3 = 2 -> 3 < q -> wcheck p 0 b x y q sl km = true ->
    won (Aff K (O x) (O y)) /\ ord wadd (popp K) Zr (Aff K (O x) (O y)) q /\ forall k, Aff K (O (w * x)) (O y) <> zmul wadd (popp K) Zr k (Aff K (O x) (O y)).
  Proof.
    intros Q M3 L H. destruct (ord_check x y q sl km Q H) as [OA OD]. split; [exact OA|]. split; [exact OD|].
    rewrite of_Z_mul. apply (indep_rot _ _ _ _ HGb rt rt_on rt_add q _ OA OD (rt_sum _ OA)). intro i. apply no_cube_root; assumption.
  Qed.
  Lemma part_rot x y q sl km : prime q -> q mod 3 = 2 -> 3 < q -> wcheck p 0 b x y q sl km = true ->
    exists M, part won wadd (popp K) Zr q (q * q) M.
  Proof.
    intros Q M3 L H. destruct (indep_rot_check x y q sl km Q M3 L H) as (OA & OD & N). set (A := Aff K (O x) (O y)) in *.
    eexists. apply (part_two _ _ _ _ HGb A (rt A) q OA (rt_on A OA) Q OD (rt_ord A q OA Q OD)).
    intros k E. apply (N k). rewrite of_Z_mul. exact E.
  Qed.
  (** the curve's rotation has two *)
  Lemma indep_eigen_check x y x' y' c c' q sl km : prime q -> wcheck p 0 b x y q sl km = true -> wcheck p 0 b x' y' q sl km = true ->
    0 <= c -> 0 <= c' -> (c' - c) mod q <> 0 ->
    wto_check p 0 b x y c (w * x) y sl km = true -> wto_check p 0 b x' y' c' (w * x') y' sl km = true ->
    won (Aff K (O x) (O y)) /\ won (Aff K (O x') (O y')) /\ ord wadd (popp K) Zr (Aff K (O x) (O y)) q /\ ord wadd (popp K) Zr (Aff K (O x') (O y')) q
    /\ forall k, Aff K (O x') (O y') <> zmul wadd (popp K) Zr k (Aff K (O x) (O y)).
  Proof.
    intros Q H H' C C' N E E'. destruct (ord_check x y q sl km Q H) as [OA OD], (ord_check x' y' q sl km Q H') as [OA' OD'].
    do 4 (split; [assumption|]).
    apply to_check in E, E'; [|assumption..].
    apply (indep_eigen _ _ _ _ HGb rt rt_on rt_add q _ _ c c' OA OA' OD').
    - rewrite E. cbn [rot]. rewrite of_Z_mul. reflexivity.
    - rewrite E'. cbn [rot]. rewrite of_Z_mul. reflexivity.
    - intro D. apply N, Zdivide_mod, D.
  Qed.
  Lemma part_eigen x y x' y' c c' q sl km : prime q -> wcheck p 0 b x y q sl km = true -> wcheck p 0 b x' y' q sl km = true ->
    0 <= c -> 0 <= c' -> (c' - c) mod q <> 0 ->
    wto_check p 0 b x y c (w * x) y sl km = true -> wto_check p 0 b x' y' c' (w * x') y' sl km = true ->
    exists M, part won wadd (popp K) Zr q (q * q) M.
  Proof.
    intros Q H H' C C' N E E'. destruct (indep_eigen_check x y x' y' c c' q sl km Q H H' C C' N E E') as (OA & OA' & OD & OD' & I).
    eexists. exact (part_two _ _ _ _ HGb _ _ q OA OA' Q OD OD' I).
  Qed.
End Bls.

(** conclusion for a Weierstrass curve whose points outside the base point's group form a known odd part *)
Lemma w_parts X p a b r h0 h n gx gy : w_shipped X (mkW p a b r h0 gx gy) -> Z.odd (r * h) = true -> Z.gcd r h = 1 -> 0 <= h -> 2 * p + 1 < 3 * (r * n) ->
  (forall Hp : prime p, 2 < p -> (forall x : ZpF p Hp, Fadd (Fadd (Fmul (Fmul x x) x) (Fmul (of_Z p a : ZpF p Hp) x)) (of_Z p b : ZpF p Hp) <> F0) ->
     exists M, part (on (ZpF p Hp) F0 (of_Z p a) (of_Z p b)) (padd (ZpF p Hp) F0 (of_Z p a)) (popp (ZpF p Hp)) (Inf (ZpF p Hp)) h n M) ->
  exists e, X = Ret e /\ counted (WPoints.won e) (r * n) /\ clears (WPoints.won e) (WPoints.wsum e) Infinity (Affine gx gy) h r
  /\ exponent (WPoints.won e) (WPoints.wsum e) Infinity (h * r).
Proof.
  intros (e & HX & Ep & EAA & EBB & _ & _ & _ & Pr & (W & _) & G & _ & (_ & _ & _ & _ & _ & GO) & GM) Or Cp H0 B HM.
  cbn [w_p w_a w_b w_r w_gx w_gy w_h] in *. exists e. split; [exact HX|].
  destruct (WeierProps.weier_open e W) as (p' & Hp & H2 & a' & b' & ef & ea & eb & NR & WP & WS & WM & WO).
  assert (E : p = p') by (rewrite <- Ep, ef; reflexivity). destruct E. clear Ep.
  assert (Ea : a' = of_Z p a). { apply Zp_eq. rewrite ea in EAA. exact EAA. }
  assert (Eb : b' = of_Z p b). { apply Zp_eq. rewrite eb in EBB. exact EBB. }
  subst a' b'. destruct (HM Hp H2 NR) as (M & SM & KM & LM). clear HM EAA EBB.
  set (a' := of_Z p a : ZpF p Hp) in *. set (b' := of_Z p b : ZpF p Hp) in *.
  pose proof (nonsing (ZpF p Hp) a' b' NR) as NS.
  unfold WPoints.won in *. rewrite ef, ea, eb in *. destruct (on_cubic_unap p Hp H2 F0 a' b' _ GO) as (A & EA & OA). rewrite EA in *.
  assert (HG := cgroup p Hp H2 F0 a' b' NS).
  assert (OG : ord (padd (ZpF p Hp) F0 a') (popp (ZpF p Hp)) (Inf (ZpF p Hp)) A r).
  { apply (ord_of p Hp H2 F0 a' b' NS); [exact OA|destruct Pr; lia|]. intro k. rewrite <- GM, (WM A k Infinity OA). split; [intros ->; reflexivity|]. intro H. apply (ap_inj p Hp). symmetry. exact H. }
  pose proof (cyc_sub _ _ _ _ HG A r OA OG) as SL. pose proof (cyc_killed _ _ _ _ HG A r OA OG) as KL.
  assert (CM : meet (Inf (ZpF p Hp)) (cyc (padd (ZpF p Hp) F0 a') (Inf (ZpF p Hp)) A r) M).
  { apply (meet_coprime _ _ _ _ HG r h _ _ SL KL KM Cp). }
  assert (PC : part (on (ZpF p Hp) F0 a' b') (padd (ZpF p Hp) F0 a') (popp (ZpF p Hp)) (Inf (ZpF p Hp)) (r * h) (r * n)
    (lsum (padd (ZpF p Hp) F0 a') (cyc (padd (ZpF p Hp) F0 a') (Inf (ZpF p Hp)) A r) M)).
  { apply (part_sum _ _ _ _ HG); [apply (part_cyc _ _ _ _ HG); assumption|split; [|split]; assumption|exact Cp]. }
  destruct PC as (SP & KP & LP).
  assert (full : forall B, on (ZpF p Hp) F0 a' b' B -> In B (lsum (padd (ZpF p Hp) F0 a') (cyc (padd (ZpF p Hp) F0 a') (Inf (ZpF p Hp)) A r) M)).
  { apply (cubic_all p Hp H2 F0 a' b' NS _ SP).
    - rewrite LP. exact B.
    - intros C OC. apply (half_odd _ _ _ _ HG (r * h) _ C SP KP Or); [|exact OC]. intros D OD ED.
      apply (two_torsion (ZpF p Hp) (two_K p Hp H2) F0 a' b') in ED; [|assumption..]. destruct ED as [|(x & _ & C0)]; [assumption|exfalso].
      apply (NR x). rewrite (wc_aux (ZpF p Hp)). exact C0. }
  assert (m_on : forall C, WPoints.won e C <-> exists C', C = ap p Hp C' /\ on (ZpF p Hp) F0 a' b' C').
  { intro C. unfold WPoints.won. rewrite ef, ea, eb. split; [|intros (C' & -> & OC); apply WO, OC]. intro OC. exact (on_cubic_unap p Hp H2 F0 a' b' _ OC). }
  assert (m_mul : forall C n D, on (ZpF p Hp) F0 a' b' C -> (multiple (WPoints.wsum e) Infinity (ap p Hp C) n D <-> D = ap p Hp (FinGroup.mul (padd (ZpF p Hp) F0 a') (Inf (ZpF p Hp)) n C))).
  { intros C k D OC. rewrite mul_nmul. apply WM, OC. }
  unfold WPoints.won in m_on. rewrite ef, ea, eb in m_on. split; [|split].
  - rewrite <- LM. apply (spec_counted _ _ _ _ HG A r M OA OG SM full _ (ap p Hp) (ap_inj p Hp) m_on CM).
  - apply (spec_clears _ _ _ _ HG A r M h OA OG SM KM full _ _ _ (ap p Hp) m_on m_mul H0).
  - apply (spec_exponent _ _ _ _ HG A r M h OA OG SM KM full _ _ _ (ap p Hp) m_on m_mul); [reflexivity|exact H0].
Qed.

(** *** parts of an isogenous curve *)
Section Iso.
  Variable p : Z.
  Hypothesis Hp : prime p.
  Hypothesis H2 : 2 < p.
  Local Notation K := (ZpF p Hp).
  Local Notation O := (of_Z p : Z -> ZpF p Hp).
  Variables a b : Z.
  Hypothesis NR : forall x : K, Fadd (Fadd (Fmul (Fmul x x) x) (Fmul (O a) x)) (O b) <> F0.
  Local Notation won := (on K F0 (O a) (O b)).
  Local Notation wadd := (padd K F0 (O a)).
  Local Notation Zr := (Inf K).
  Definition HGi := cgroup p Hp H2 F0 (O a) (O b) (nonsing K (O a) (O b) NR).
  Lemma ord_check' x y q sl km : prime q -> wcheck p a b x y q sl km = true ->
    won (Aff K (O x) (O y)) /\ ord wadd (popp K) Zr (Aff K (O x) (O y)) q.
  Proof.
    intros Q H. destruct (wcheck_ok p Hp a b x y q sl km NR H) as [OA E]. split; [exact OA|].
    apply (ord_prime _ _ _ _ HGi q _ OA Q); [|discriminate]. rewrite <- (Z2Nat.id q) by (destruct Q; lia). rewrite zmul_nat, mul_nmul. exact E.
  Qed.
  Lemma part_prime x y q sl km : prime q -> wcheck p a b x y q sl km = true -> exists M, part won wadd (popp K) Zr q q M.
  Proof. intros Q H. destruct (ord_check' x y q sl km Q H) as [OA OD]. eexists. exact (part_cyc _ _ _ _ HGi _ q OA OD). Qed.
  Lemma ord_square x y tx ty q sl km : prime q -> wcheck p a b x y (q * q) sl km = true -> wto_check p a b x y q tx ty sl km = true ->
    won (Aff K (O x) (O y)) /\ ord wadd (popp K) Zr (Aff K (O x) (O y)) (q * q).
  Proof.
    intros Q H E. destruct (wcheck_ok p Hp a b x y (q * q) sl km NR H) as [OA E2]. destruct (wto_ok p Hp a b x y q tx ty sl km NR E) as [_ E1].
    assert (1 < q) by (destruct Q; lia). split; [exact OA|].
    replace (q * q) with (q ^ (1 + 1)) by (rewrite Z.pow_add_r, Z.pow_1_r by lia; reflexivity). apply (ord_power _ _ _ _ HGi q 1 _ OA Q); [lia| |].
    - replace (q ^ (1 + 1)) with (q * q) by (rewrite Z.pow_add_r, Z.pow_1_r by lia; reflexivity). rewrite <- (Z2Nat.id (q * q)) by nia. rewrite zmul_nat, mul_nmul. exact E2.
    - rewrite Z.pow_1_r, <- (Z2Nat.id q), zmul_nat, mul_nmul, E1 by lia. discriminate.
  Qed.
  Lemma part_square x y tx ty q sl km : prime q -> wcheck p a b x y (q * q) sl km = true -> wto_check p a b x y q tx ty sl km = true ->
    exists M, part won wadd (popp K) Zr (q * q) (q * q) M.
  Proof. intros Q H E. destruct (ord_square x y tx ty q sl km Q H E) as [OA OD]. eexists. exact (part_cyc _ _ _ _ HGi _ _ OA OD). Qed.
  (** two independent points, the independence being known from elsewhere *)
  Lemma part_indep x y x' y' q sl km : prime q -> 0 <= x < p -> 0 <= y < p -> 0 <= x' < p -> 0 <= y' < p ->
    wcheck p a b x y q sl km = true -> wcheck p a b x' y' q sl km = true ->
    (forall n, ~ multiple (chord_tangent p 1 0 (a mod p)) Infinity (Affine x y) n (Affine x' y')) ->
    exists M, part won wadd (popp K) Zr q (q * q) M.
  Proof.
    intros Q Rx Ry Rx' Ry' H H' N. destruct (ord_check' x y q sl km Q H) as [OA OD], (ord_check' x' y' q sl km Q H') as [OA' OD'].
    eexists. apply (part_two _ _ _ _ HGi _ _ q OA OA' Q OD OD'). intros k Ek. rewrite <- (ord_mod _ _ _ _ HGi _ _ k OA OD) in Ek.
    apply (N (Z.to_nat (k mod q))). rewrite <- (ap_aff p Hp x y), <- (ap_aff p Hp x' y') by assumption.
    assert (q0 : 0 < q) by apply OD. apply (multiple_ap p Hp H2 F0 (O a) (O b) _ _ OA). f_equal.
    rewrite Ek. rewrite <- mul_nmul, <- (zmul_nat _ (popp K)), Z2Nat.id by (apply Z.mod_pos_bound, q0). reflexivity.
  Qed.
End Iso.
