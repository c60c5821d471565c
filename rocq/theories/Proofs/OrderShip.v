(** Counting the points of the shipped curves. *)
From Coq Require Import ZArith Znumtheory Lia String Ascii Bool List.
From Verif.Math Require Import Fld Zp RCB MontAdd Edwards FinGroup OrderAlg.
From Verif.Spec Require Import Arith Curve Order Instances.
From Verif.Model Require Import Out BigInt PrimeField Scalar.
From Verif.Proofs Require Import FieldP FieldProps CurveP InstP InstShip OrderP.
From Verif.Model Require WCurve MCurve ECurve.
From Verif.Proofs Require WeierP MontP EdwP WeierProps MontProps EdwProps.
From Verif.Math Require Import ECGroup.
From Verif.Spec Require Export Shipped.
Import ListNotations.
Open Scope Z_scope.

Lemma mod_0 p : prime p -> 0 mod p = 0. Proof. reflexivity. Qed.
Lemma ap_aff p Hp x y : 0 <= x < p -> 0 <= y < p -> ap p Hp (Aff (ZpF p Hp) (of_Z p x) (of_Z p y)) = Affine x y.
Proof. intros. cbn. rewrite !Z.mod_small by assumption. reflexivity. Qed.

(** doubling j times *)
Inductive doubles {A : Type} (sum : A -> A -> A -> Prop) (P : A) : nat -> A -> Prop :=
| dbl_O : doubles sum P 0 P
| dbl_S j B C : doubles sum P j B -> sum B B C -> doubles sum P (S j) C.

(** *** curves of prime order *)
Lemma w_prime X p a b r gx gy : w_shipped X (mkW p a b r 1 gx gy) -> Z.odd r = true -> 2 * p + 1 < 3 * r ->
  w_order X (mkW p a b r 1 gx gy) r.
Proof.
  intros (e & HX & Ep & _ & _ & _ & _ & _ & Pr & (W & _) & G & _ & (_ & _ & _ & _ & _ & GO) & GM) Or B.
  unfold w_order. cbn [w_p w_r w_gx w_gy w_h] in *. exists e. split; [exact HX|].
  destruct (WeierProps.weier_open e W) as (p' & Hp & H2 & a' & b' & ef & ea & eb & NR & WP & WS & WM & WO).
  assert (E : p = p') by (rewrite <- Ep, ef; reflexivity). destruct E. clear Ep.
  pose proof (nonsing (ZpF p Hp) a' b' NR) as NS.
  rewrite ef, ea, eb in GO. destruct (on_cubic_unap p Hp H2 F0 a' b' _ GO) as (A & EA & OA). rewrite EA in *.
  assert (HG := cgroup p Hp H2 F0 a' b' NS).
  assert (OG : ord (padd _ F0 a') (popp _) (Inf _) A r).
  { apply (ord_of p Hp H2 F0 a' b' NS); [exact OA|destruct Pr; lia|]. intro n. rewrite <- GM, (WM A n Infinity OA). split; [intros ->; reflexivity|]. intro H. apply (ap_inj p Hp). symmetry. exact H. }
  pose proof (cyc_sub _ _ _ _ HG A r OA OG) as SL. pose proof (cyc_killed _ _ _ _ HG A r OA OG) as KL.
  assert (full0 : forall B, on _ F0 a' b' B -> In B (cyc (padd _ F0 a') (Inf _) A r)).
  { apply (cubic_all p Hp H2 F0 a' b' NS _ SL).
    - rewrite (cyc_len _ _ _ _ _ OG). exact B.
    - intros C OC. apply (half_odd _ _ _ _ HG r _ C SL KL Or); [|exact OC]. intros D OD ED.
      apply (two_torsion _ (two_K p Hp H2) F0 a' b') in ED; [|assumption..]. destruct ED as [|(x & _ & C0)]; [assumption|exfalso].
      apply (NR x). rewrite (wc_aux (ZpF p Hp)). exact C0. }
  assert (full : forall B, on _ F0 a' b' B -> In B (lsum (padd _ F0 a') (cyc (padd _ F0 a') (Inf _) A r) [Inf _])).
  { intros C OC. apply (lsum_trivial _ _ _ _ _ _ HG SL). apply full0, OC. }
  assert (m_on : forall C, WPoints.won e C <-> exists C', C = ap p Hp C' /\ on _ F0 a' b' C').
  { intro C. split; [|intros (C' & -> & OC); apply WO, OC]. intro OC. unfold WPoints.won in OC. rewrite ef, ea, eb in OC. exact (on_cubic_unap p Hp H2 F0 a' b' _ OC). }
  assert (m_mul : forall C n D, on _ F0 a' b' C -> (multiple (WPoints.wsum e) Infinity (ap p Hp C) n D <-> D = ap p Hp (FinGroup.mul (padd _ F0 a') (Inf _) n C))).
  { intros C n D OC. rewrite mul_nmul. apply WM, OC. }
  assert (KT : killed (padd _ F0 a') (popp (ZpF p Hp)) (Inf _) 1 [Inf _]).
  { intros C [<-|[]]. apply (zmul_zero _ _ _ _ HG). }
  pose proof (sub_trivial _ _ _ _ HG) as ST. split; [|split].
  - replace r with (r * Z.of_nat (Datatypes.length [Inf (ZpF p Hp)])) by (cbn; lia).
    eapply (spec_counted _ _ _ _ HG A r [Inf _] OA OG ST full _ (ap p Hp) (ap_inj p Hp) m_on).
    intros C _ [<-|[]]. reflexivity.
  - apply (spec_clears _ _ _ _ HG A r [Inf _] 1 OA OG ST KT full _ _ _ (ap p Hp) m_on m_mul). lia.
  - apply (spec_exponent _ _ _ _ HG A r [Inf _] 1 OA OG ST KT full _ _ _ (ap p Hp) m_on m_mul); [reflexivity|lia].
Qed.

(** *** curves whose points of 2-power order form a cyclic group generated by T *)
Lemma gcd_odd_pow r j : Z.odd r = true -> 0 <= j -> Z.gcd r (2 ^ j) = 1.
Proof.
  intros Or. revert j. apply natlike_ind; [apply Z.gcd_1_r|]. intros j J IH. rewrite Z.pow_succ_r by exact J.
  apply Zgcd_1_rel_prime, rel_prime_mult; [|apply Zgcd_1_rel_prime, IH]. apply rel_prime_sym, prime_rel_prime; [exact prime_2|].
  intro D. destruct D as [c ->]. rewrite Z.odd_mul in Or. cbn in Or. rewrite andb_false_r in Or. discriminate.
Qed.
Lemma m_cyclic X p a s r h gx gy tx ty l sl sl' : m_shipped X (mkM p a s r h gx gy) -> Z.odd r = true ->
  h = 2 * 2 ^ Z.of_nat (Datatypes.length l) -> 2 * p + 1 < 3 * (r * h) ->
  (ty * ty - (tx * tx * tx + a * (tx * tx) + tx)) mod p = 0 -> mdch p a tx ty l = true ->
  nonsq_check p tx sl = true -> nonsq_check p (a * a - 4) sl' = true -> m_order X (mkM p a s r h gx gy) (r * h).
Proof.
  intros (e & HX & Ep & EAA & EB1 & ES & _ & _ & _ & Pr & (W & _) & G & _ & (_ & _ & _ & _ & _ & GO) & GM) Or Eh B TO TC TN AN.
  unfold m_order. cbn [m_p m_a m_s m_r m_gx m_gy m_h] in *. exists e. split; [exact HX|].
  destruct (MontProps.mont_open e W) as (p' & Hp & H2 & a' & b' & s' & ef & ea & eb & es & b1 & N4 & NR & WP & WS & WM & WO & WU).
  assert (E : p = p') by (rewrite <- Ep, ef; reflexivity). destruct E. clear Ep.
  assert (Ea : a' = of_Z p a). { apply Zp_eq. rewrite ea in EAA. exact EAA. }
  subst a'. clear EAA. set (O := of_Z p) in *. set (a' := O a) in *.
  pose proof (mont_nonsing (ZpF p Hp) _ _ N4 NR) as NS. pose proof (two_K p Hp H2) as two.
  destruct (WU _ GO) as (A & EA & OA). rewrite EA in *.
  assert (HG := cgroup p Hp H2 a' F1 F0 NS).
  assert (OG : ord (padd (ZpF p Hp) a' F1) (popp (ZpF p Hp)) (Inf (ZpF p Hp)) A r).
  { apply (ord_of p Hp H2 a' F1 F0 NS); [exact OA|destruct Pr; lia|]. intro n. rewrite <- GM, (WM A n Infinity OA). split; [intros ->; reflexivity|]. intro H. apply (ap_inj p Hp). symmetry. exact H. }
  pose proof (cyc_sub _ _ _ _ HG A r OA OG) as SL. pose proof (cyc_killed _ _ _ _ HG A r OA OG) as KL.
  set (T := Aff (ZpF p Hp) (O tx) (O ty)).
  assert (OT : on (ZpF p Hp) a' F1 F0 T).
  { apply Zmod_divide in TO; [|lia]. apply of_Z_div in TO; [|lia]. unfold T, on, cubic. rewrite <- (mc_aux (ZpF p Hp)). revert TO. pushZ. exact (fun h => h). }
  pose proof (mdch_ok p Hp H2 a l tx ty NS OT TC) as T2. fold O a' T in T2. set (j := Z.of_nat (Datatypes.length l)) in *.
  assert (J : 0 <= j) by (unfold j; lia).
  assert (OT8 : ord (padd (ZpF p Hp) a' F1) (popp (ZpF p Hp)) (Inf (ZpF p Hp)) T (2 * 2 ^ j)).
  { rewrite <- Z.pow_succ_r by exact J. apply (ord_power _ _ _ _ HG 2 j T OT prime_2 J).
    - rewrite Z.pow_add_r, Z.mul_comm, (zmul_mul _ _ _ _ HG) by (exact OT || lia). rewrite T2, (zmul_2 _ _ _ _ HG).
      + cbn [padd]. destruct (Feqd F0 F0) as [_|N]; [|destruct (N eq_refl)].
        destruct (Feqd F0 (Fopp F0)) as [_|N]; [reflexivity|]. exfalso. apply N. symmetry. apply opp_0.
      + rewrite <- T2. apply (on_zmul _ _ _ _ HG), OT.
    - rewrite T2. discriminate. }
  rewrite <- Eh in OT8. set (M := cyc (padd (ZpF p Hp) a' F1) (Inf (ZpF p Hp)) T h).
  pose proof (cyc_sub _ _ _ _ HG T h OT OT8) as SM. pose proof (cyc_killed _ _ _ _ HG T h OT OT8) as KM.
  assert (CM : meet (Inf (ZpF p Hp)) (cyc (padd (ZpF p Hp) a' F1) (Inf (ZpF p Hp)) A r) M).
  { apply (meet_coprime _ _ _ _ HG r h _ _ SL KL KM). rewrite Eh, <- Z.pow_succ_r by exact J. apply gcd_odd_pow; [exact Or|lia]. }
  assert (full : forall B, on (ZpF p Hp) a' F1 F0 B -> In B (lsum (padd (ZpF p Hp) a' F1) (cyc (padd (ZpF p Hp) a' F1) (Inf (ZpF p Hp)) A r) M)).
  { apply (cubic_all p Hp H2 a' F1 F0 NS _ (lsum_sub _ _ _ _ HG _ _ SL SM CM)).
    - rewrite lsum_len, (cyc_len _ _ _ _ _ OG). unfold M. rewrite (cyc_len _ _ _ _ _ OT8). exact B.
    - intros C OC. unfold M. rewrite Eh in *. apply (half_even _ _ _ _ HG r (2 ^ j) _ T C SL KL Or OT OT8); [| |exact OC].
      + intros D OD ED. apply (two_torsion (ZpF p Hp) two a' F1 F0) in ED; [|assumption..]. destruct ED as [|(x & -> & C0)]; [left; assumption|right].
        rewrite T2. f_equal. apply (mont_two_torsion (ZpF p Hp) a'); [|exact C0].
        intros z Hz. apply (proj2 (nonsq_ok p Hp (a * a - 4) sl' AN) z). rewrite Hz. change 4 with ((1 + 1) * (1 + 1)). pushZ. reflexivity.
      + intros D OD ED. destruct D as [|x y]; [discriminate ED|]. destruct (Feqd y F0) as [->|Ny].
        * cbn [padd] in ED. destruct (Feqd x x) as [_|N]; [|destruct (N eq_refl)].
          destruct (Feqd F0 (Fopp F0)) as [_|N]; [discriminate ED|]. apply N. symmetry. apply opp_0.
        * destruct (mont_double_square (ZpF p Hp) two a' x y OD Ny) as (t & u & Et). rewrite Et in ED. unfold T in ED. injection ED as E1 _.
          apply (proj2 (nonsq_ok p Hp tx sl TN) t). apply Zp_eq. exact E1. }
  assert (m_on : forall C, MPoints.mon e C <-> exists C', C = ap p Hp C' /\ on (ZpF p Hp) a' F1 F0 C').
  { intro C. split; [apply WU|intros (C' & -> & OC); apply WO, OC]. }
  assert (m_mul : forall C n D, on (ZpF p Hp) a' F1 F0 C -> (multiple (MPoints.msum e) Infinity (ap p Hp C) n D <-> D = ap p Hp (FinGroup.mul (padd (ZpF p Hp) a' F1) (Inf (ZpF p Hp)) n C))).
  { intros C n D OC. rewrite mul_nmul. apply WM, OC. }
  split; [|split].
  - rewrite <- (cyc_len _ _ _ _ _ OT8) at 1. fold M.
    apply (spec_counted _ _ _ _ HG A r M OA OG SM full _ (ap p Hp) (ap_inj p Hp) m_on CM).
  - apply (spec_clears _ _ _ _ HG A r M h OA OG SM KM full _ _ _ (ap p Hp) m_on m_mul). rewrite Eh. lia.
  - apply (spec_exponent _ _ _ _ HG A r M h OA OG SM KM full _ _ _ (ap p Hp) m_on m_mul); [reflexivity|rewrite Eh; lia].
Qed.
Lemma e_cyclic X p a d r h gx gy tx ty l sl : e_shipped X (mkE p a d r h gx gy) -> Z.odd r = true ->
  h = 2 * 2 ^ Z.of_nat (Datatypes.length l) -> 2 * p < 3 * (r * h) ->
  (a * (tx * tx) + ty * ty - (1 + d * (tx * tx) * (ty * ty))) mod p = 0 -> edch p a d tx ty l = true ->
  nonsq_check p ((1 - ty * ty) * (a - d)) sl = true -> e_order X (mkE p a d r h gx gy) (r * h).
Proof.
  intros (e & HX & Ep & EAA & EDD & _ & _ & _ & Pr & (W & _) & G & _ & (_ & _ & _ & _ & _ & _ & GO) & GM) Or Eh B TO TC TN.
  unfold e_order. cbn [e_p e_a e_d e_r e_gx e_gy e_h] in *. exists e. split; [exact HX|].
  destruct (EdwProps.edw_open e W) as (p' & Hp & H2 & a' & d' & ef & ea & ed & AS & AN & DN & WP & WS & WM & WO & WU).
  assert (E : p = p') by (rewrite <- Ep, ef; reflexivity). destruct E. clear Ep.
  assert (Ea : a' = of_Z p a). { apply Zp_eq. rewrite ea in EAA. exact EAA. }
  assert (Ed : d' = of_Z p d). { apply Zp_eq. rewrite ed in EDD. exact EDD. }
  subst a' d'. clear EAA EDD. set (O := of_Z p) in *. set (a' := O a) in *. set (d' := O d) in *. pose proof (two_K p Hp H2) as two.
  destruct (WU _ GO) as (A & EA & OA). rewrite EA in *.
  assert (HG := egrp p Hp H2 a' d' AS DN).
  assert (E0 : EdwP.zz p Hp (ezero (ZpF p Hp)) = (0, 1)) by (change ((0 mod p, 1 mod p) = (0, 1)); rewrite !Z.mod_small by lia; reflexivity).
  assert (OG : ord (eadd (ZpF p Hp) a' d') (eopp (ZpF p Hp)) (ezero (ZpF p Hp)) A r).
  { apply (ord_ofe p Hp H2 a' d' AS DN); [exact OA|destruct Pr; lia|]. intro n. rewrite <- GM, (WM A n (0, 1) OA). rewrite <- E0. split; [intros ->; reflexivity|]. intro H. apply (EdwP.zz_inj p Hp). symmetry. exact H. }
  pose proof (cyc_sub _ _ _ _ HG A r OA OG) as SL. pose proof (cyc_killed _ _ _ _ HG A r OA OG) as KL.
  set (T := (O tx, O ty) : ZpF p Hp * ZpF p Hp).
  assert (OT : Edwards.eon (ZpF p Hp) a' d' T).
  { apply Zmod_divide in TO; [|lia]. apply of_Z_div in TO; [|lia]. unfold T, Edwards.eon. revert TO. pushZ. exact (fun h => h). }
  pose proof (edch_ok p Hp H2 a d l AS DN tx ty OT TC) as T2. fold O a' d' T in T2. set (j := Z.of_nat (Datatypes.length l)) in *.
  assert (J : 0 <= j) by (unfold j; lia).
  assert (M1 : forall x : ZpF p Hp, (x, Fopp F1) <> ezero (ZpF p Hp)).
  { intros x E. apply two. pose proof (f_equal snd E) as E1. cbn [snd ezero] in E1. rewrite <- E1 at 2. apply add_opp. }
  assert (OT8 : ord (eadd (ZpF p Hp) a' d') (eopp (ZpF p Hp)) (ezero (ZpF p Hp)) T (2 * 2 ^ j)).
  { rewrite <- Z.pow_succ_r by exact J. apply (ord_power _ _ _ _ HG 2 j T OT prime_2 J).
    - rewrite Z.pow_add_r, Z.mul_comm, (zmul_mul _ _ _ _ HG) by (exact OT || lia). rewrite T2.
      assert (OT2 : Edwards.eon (ZpF p Hp) a' d' (F0, Fopp F1)) by (rewrite <- T2; apply (on_zmul _ _ _ _ HG), OT).
      rewrite (zmul_2 _ _ _ _ HG) by exact OT2. exact (edw_minus_one (ZpF p Hp) a' d' two AS DN OT2).
    - rewrite T2. apply M1. }
  rewrite <- Eh in OT8. set (M := cyc (eadd (ZpF p Hp) a' d') (ezero (ZpF p Hp)) T h).
  pose proof (cyc_sub _ _ _ _ HG T h OT OT8) as SM. pose proof (cyc_killed _ _ _ _ HG T h OT OT8) as KM.
  assert (CM : meet (ezero (ZpF p Hp)) (cyc (eadd (ZpF p Hp) a' d') (ezero (ZpF p Hp)) A r) M).
  { apply (meet_coprime _ _ _ _ HG r h _ _ SL KL KM). rewrite Eh, <- Z.pow_succ_r by exact J. apply gcd_odd_pow; [exact Or|lia]. }
  assert (full : forall B, Edwards.eon (ZpF p Hp) a' d' B -> In B (lsum (eadd (ZpF p Hp) a' d') (cyc (eadd (ZpF p Hp) a' d') (ezero (ZpF p Hp)) A r) M)).
  { apply (edw_all p Hp H2 a' d' AS AN DN _ (lsum_sub _ _ _ _ HG _ _ SL SM CM)).
    - rewrite lsum_len, (cyc_len _ _ _ _ _ OG). unfold M. rewrite (cyc_len _ _ _ _ _ OT8). exact B.
    - intros C OC. unfold M. rewrite Eh in *. apply (half_even _ _ _ _ HG r (2 ^ j) _ T C SL KL Or OT OT8); [| |exact OC].
      + intros D OD ED. rewrite T2. exact (edw_two_torsion (ZpF p Hp) a' d' two AS DN D OD ED).
      + intros D OD ED. destruct (edw_double_square (ZpF p Hp) a' d' two AS DN D OD) as (t & Et). rewrite ED in Et. unfold T in Et. cbn [snd] in Et.
        apply (proj2 (nonsq_ok p Hp _ sl TN) t). rewrite Et. pushZ. reflexivity. }
  assert (m_on : forall C, EPoints.eon e C <-> exists C', C = EdwP.zz p Hp C' /\ Edwards.eon (ZpF p Hp) a' d' C').
  { intro C. split; [apply WU|intros (C' & -> & OC); apply WO, OC]. }
  assert (m_mul : forall C n D, Edwards.eon (ZpF p Hp) a' d' C -> (multiple (EPoints.esum e) (0, 1) (EdwP.zz p Hp C) n D <-> D = EdwP.zz p Hp (FinGroup.mul (eadd (ZpF p Hp) a' d') (ezero (ZpF p Hp)) n C))).
  { intros C n D OC. rewrite mul_enmul. apply WM, OC. }
  split; [|split].
  - rewrite <- (cyc_len _ _ _ _ _ OT8) at 1. fold M.
    apply (spec_counted _ _ _ _ HG A r M OA OG SM full _ (EdwP.zz p Hp) (EdwP.zz_inj p Hp) m_on CM).
  - apply (spec_clears _ _ _ _ HG A r M h OA OG SM KM full _ _ _ (EdwP.zz p Hp) m_on m_mul). rewrite Eh. lia.
  - apply (spec_exponent _ _ _ _ HG A r M h OA OG SM KM full _ _ _ (EdwP.zz p Hp) m_on m_mul); [exact E0|rewrite Eh; lia].
Qed.
