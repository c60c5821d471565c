(** C77: multiplying by the cofactor sends the same number of points to every multiple of the base point. *)
From Coq Require Import ZArith Znumtheory Lia String Bool List.
From Verif.Spec Require Import Arith Curve Order Elements.
From Verif.Spec Require WPoints MPoints EPoints.
From Verif.Spec Require Instances.
From Verif.Model Require Import Out BigInt PrimeField Scalar CurveExtras.
From Verif.Model Require WCurve MCurve ECurve.
From Verif.Model Require Instances.
From Verif.Proofs Require Import FieldProps ScalarProps ScLaw ScLawProps OrderRun Subgroup SubgroupRun Protocols ProtocolRun CountP ClearP.
From Verif.Proofs Require WeierProps MontProps EdwProps InstProps OrderProps SubgroupProps.
From Verif.Spec Require Export Shipped Membership Clearing.
Import Spec.Instances Model.Instances.
Import ListNotations.
Open Scope Z_scope.

Definition pair_dec (A B : Z * Z) : {A = B} + {A <> B}.
Proof. decide equality; apply Z.eq_dec. Defined.
Lemma gcd_small h r : prime r -> 0 < h < r -> Z.gcd h r = 1.
Proof. intros Pr H. apply Zgcd_1_rel_prime. apply rel_prime_le_prime; [exact Pr|lia]. Qed.

(** *** any curve whose base point G has the prime order r and whose points are all sent to multiples of G by h *)
Lemma c77_any_curve : forall e h n MG G, WPoints.weier e -> Z.log2 (WCurve.c_r e) < 2 ^ 63 -> prime (WCurve.c_r e) -> 0 < h < WCurve.c_r e ->
  WPoints.wpoint e MG G -> (forall m, multiple (WPoints.wsum e) Infinity G m Infinity <-> (WCurve.c_r e | Z.of_nat m)) ->
  clears (WPoints.won e) (WPoints.wsum e) Infinity G h (WCurve.c_r e) -> counted (WPoints.won e) n ->
  exists k f, WCurve.new_scalar e h = Ret k /\ n = WCurve.c_r e * f
  /\ (forall C, generated (WPoints.wsum e) Infinity G (WCurve.c_r e) C -> counted (sent_to (WPoints.wpoint e) WCurve.pt_mul k C) f)
  /\ (forall C A, sent_to (WPoints.wpoint e) WCurve.pt_mul k C A -> generated (WPoints.wsum e) Infinity G (WCurve.c_r e) C)
  /\ (forall A, WPoints.won e A -> exists C, sent_to (WPoints.wpoint e) WCurve.pt_mul k C A).
Proof.
  intros e h n MG G W L Pr Hh HG HM HC Cn. exists (mkScalar h (WCurve.c_r e)). pose proof (weier_laws e W L) as HL. open_laws HL LW. apply (l_point LW) in HG. destruct HG as (G' & -> & HG).
  assert (HS : forall A, WPoints.won e A <-> exists P, WPoints.wpoint e P A) by (intro A; split; [apply (WeierProps.c32_representation e W)|intros (P & HP); apply HP]).
  destruct (clear_fibres LW MG G' HG Pr HM apoint_dec (WPoints.won e) HS n Cn h Hh (gcd_small _ _ Pr Hh) HC) as (f & H). exists f. split; [apply small_scalar; exact Hh|exact H].
Qed.
Lemma c77_mont_any_curve : forall e h n MG G, MPoints.mont e -> Z.log2 (MCurve.c_r e) < 2 ^ 63 -> prime (MCurve.c_r e) -> 0 < h < MCurve.c_r e ->
  MPoints.mpoint e MG G -> (forall m, multiple (MPoints.msum e) Infinity G m Infinity <-> (MCurve.c_r e | Z.of_nat m)) ->
  clears (MPoints.mon e) (MPoints.msum e) Infinity G h (MCurve.c_r e) -> counted (MPoints.mon e) n ->
  exists k f, MCurve.new_scalar e h = Ret k /\ n = MCurve.c_r e * f
  /\ (forall C, generated (MPoints.msum e) Infinity G (MCurve.c_r e) C -> counted (sent_to (MPoints.mpoint e) MCurve.pt_mul k C) f)
  /\ (forall C A, sent_to (MPoints.mpoint e) MCurve.pt_mul k C A -> generated (MPoints.msum e) Infinity G (MCurve.c_r e) C)
  /\ (forall A, MPoints.mon e A -> exists C, sent_to (MPoints.mpoint e) MCurve.pt_mul k C A).
Proof.
  intros e h n MG G W L Pr Hh HG HM HC Cn. exists (mkScalar h (MCurve.c_r e)). pose proof (mont_laws e W L) as HL. open_laws HL LW. apply (l_point LW) in HG. destruct HG as (G' & -> & HG).
  assert (HS : forall A, MPoints.mon e A <-> exists P, MPoints.mpoint e P A) by (intro A; split; [apply (MontProps.c32_mont_representation e W)|intros (P & HP); apply HP]).
  destruct (clear_fibres LW MG G' HG Pr HM apoint_dec (MPoints.mon e) HS n Cn h Hh (gcd_small _ _ Pr Hh) HC) as (f & H). exists f. split; [apply small_scalar; exact Hh|exact H].
Qed.
Lemma c77_edw_any_curve : forall e h n MG G, EPoints.edw e -> Z.log2 (ECurve.c_r e) < 2 ^ 63 -> prime (ECurve.c_r e) -> 0 < h < ECurve.c_r e ->
  EPoints.epoint e MG G -> (forall m, multiple (EPoints.esum e) (0, 1) G m (0, 1) <-> (ECurve.c_r e | Z.of_nat m)) ->
  clears (EPoints.eon e) (EPoints.esum e) (0, 1) G h (ECurve.c_r e) -> counted (EPoints.eon e) n ->
  exists k f, ECurve.new_scalar e h = Ret k /\ n = ECurve.c_r e * f
  /\ (forall C, generated (EPoints.esum e) (0, 1) G (ECurve.c_r e) C -> counted (sent_to (EPoints.epoint e) ECurve.pt_mul k C) f)
  /\ (forall C A, sent_to (EPoints.epoint e) ECurve.pt_mul k C A -> generated (EPoints.esum e) (0, 1) G (ECurve.c_r e) C)
  /\ (forall A, EPoints.eon e A -> exists C, sent_to (EPoints.epoint e) ECurve.pt_mul k C A).
Proof.
  intros e h n MG G W L Pr Hh HG HM HC Cn. exists (mkScalar h (ECurve.c_r e)). pose proof (edw_laws e W L) as HL. open_laws HL LW. apply (l_point LW) in HG. destruct HG as (G' & -> & HG).
  assert (HS : forall A, EPoints.eon e A <-> exists P, EPoints.epoint e P A) by (intro A; split; [apply (EdwProps.c32_edw_representation e W)|intros (P & HP); apply HP]).
  destruct (clear_fibres LW MG G' HG Pr HM pair_dec (EPoints.eon e) HS n Cn h Hh (gcd_small _ _ Pr Hh) HC) as (f & H). exists f. split; [apply small_scalar; exact Hh|exact H].
Qed.

(** *** the curves shipped *)
Lemma w_fibres X s h f : w_shipped X s -> 0 < h < w_r s ->
  (exists e, X = Ret e /\ counted (WPoints.won e) (w_r s * f) /\ clears (WPoints.won e) (WPoints.wsum e) Infinity (Affine (w_gx s) (w_gy s)) h (w_r s)) ->
  exists e k, X = Ret e /\ WCurve.new_scalar e h = Ret k /\ w_get_cofactor e = w_h s
  /\ (forall C, generated (WPoints.wsum e) Infinity (Affine (w_gx s) (w_gy s)) (w_r s) C -> counted (sent_to (WPoints.wpoint e) WCurve.pt_mul k C) f)
  /\ (forall A, WPoints.won e A -> exists C, generated (WPoints.wsum e) Infinity (Affine (w_gx s) (w_gy s)) (w_r s) C /\ sent_to (WPoints.wpoint e) WCurve.pt_mul k C A).
Proof.
  intros (e & E & _ & _ & _ & Er & Eh & _ & Pr & WG & MG & _ & HG & HM) Hh (e' & E' & Cn & HC). assert (e' = e) by congruence. subst e'. rewrite <- Er in *.
  destruct WG as (W & _ & _ & L & _). destruct (c77_any_curve e h _ MG _ W L Pr Hh HG HM HC Cn) as (k & f' & Ek & En & H & H1 & H2).
  assert (f' = f) by nia. subst f'. exists e, k. split; [exact E|]. split; [exact Ek|]. split; [exact Eh|]. split; [exact H|]. intros A HA. destruct (H2 A HA) as (C & S). exists C. split; [exact (H1 C A S)|exact S].
Qed.
Lemma c77_shipped : forall X s, In (X, s) prime_curves -> exists e k, X = Ret e /\ WCurve.new_scalar e (w_get_cofactor e) = Ret k
  /\ (forall C, generated (WPoints.wsum e) Infinity (Affine (w_gx s) (w_gy s)) (w_r s) C -> counted (sent_to (WPoints.wpoint e) WCurve.pt_mul k C) 1)
  /\ (forall A, WPoints.won e A -> exists C, generated (WPoints.wsum e) Infinity (Affine (w_gx s) (w_gy s)) (w_r s) C /\ sent_to (WPoints.wpoint e) WCurve.pt_mul k C A).
Proof.
  intros X s H. destruct (OrderProps.prime_curves_order X s H) as (HS & (e' & E' & Cn & HC & _) & H1). assert (r1 : 1 < w_r s) by (destruct HS as (e & _ & _ & _ & _ & _ & _ & _ & Pr & _); destruct Pr; lia).
  destruct (w_fibres X s (w_h s) 1 HS ltac:(lia)) as (e & k & E & Ek & Eh & K); [exists e'; split; [exact E'|]; split; [rewrite Z.mul_1_r; exact Cn|exact HC]|].
  exists e, k. rewrite Eh. split; [exact E|]. split; [exact Ek|exact K].
Qed.
Lemma c77_bls : exists e k, BLS12381G1 = Ret e /\ WCurve.new_scalar e (w_get_cofactor e) = Ret k
  /\ (forall C, generated (WPoints.wsum e) Infinity (Affine (w_gx std_BLS12381G1) (w_gy std_BLS12381G1)) (w_r std_BLS12381G1) C ->
     counted (sent_to (WPoints.wpoint e) WCurve.pt_mul k C) 0x396C8C005555E1568C00AAAB0000AAAB)
  /\ (forall A, WPoints.won e A -> exists C, generated (WPoints.wsum e) Infinity (Affine (w_gx std_BLS12381G1) (w_gy std_BLS12381G1)) (w_r std_BLS12381G1) C /\ sent_to (WPoints.wpoint e) WCurve.pt_mul k C A).
Proof.
  destruct (w_fibres _ _ (w_h std_BLS12381G1) 0x396C8C005555E1568C00AAAB0000AAAB InstProps.c48_BLS12381G1) as (e & k & E & Ek & Eh & K).
  - OrderProps.small_h.
  - destruct OrderProps.c55_BLS12381G1 as ((e & E & C & HC & _) & _). exists e. split; [exact E|]. split; [exact C|exact HC].
  - exists e, k. rewrite Eh. split; [exact E|]. split; [exact Ek|exact K].
Qed.
(** the isogenous curve: eleven times its cofactor *)
Lemma c77_bls_iso : exists e k, BLS12381G1_11ISO = Ret e /\ WCurve.new_scalar e (11 * w_get_cofactor e) = Ret k
  /\ (forall C, generated (WPoints.wsum e) Infinity (Affine (w_gx std_BLS12381G1_11ISO) (w_gy std_BLS12381G1_11ISO)) (w_r std_BLS12381G1_11ISO) C ->
     counted (sent_to (WPoints.wpoint e) WCurve.pt_mul k C) 0x396C8C005555E1568C00AAAB0000AAAB)
  /\ (forall A, WPoints.won e A -> exists C, generated (WPoints.wsum e) Infinity (Affine (w_gx std_BLS12381G1_11ISO) (w_gy std_BLS12381G1_11ISO)) (w_r std_BLS12381G1_11ISO) C /\ sent_to (WPoints.wpoint e) WCurve.pt_mul k C A).
Proof.
  destruct (w_fibres _ _ (11 * w_h std_BLS12381G1_11ISO) 0x396C8C005555E1568C00AAAB0000AAAB InstProps.c48_BLS12381G1_11ISO) as (e & k & E & Ek & Eh & K).
  - OrderProps.small_h.
  - destruct OrderProps.c55_BLS12381G1_11ISO as (e & E & C & HC & _). exists e. split; [exact E|]. split; [exact C|exact HC].
  - exists e, k. rewrite Eh. split; [exact E|]. split; [exact Ek|exact K].
Qed.
Lemma c77_mont_shipped : forall X s, In (X, s) m_curves -> exists e k, X = Ret e /\ MCurve.new_scalar e (m_get_cofactor e) = Ret k
  /\ (forall C, generated (MPoints.msum e) Infinity (Affine (m_gx s) (m_gy s)) (m_r s) C -> counted (sent_to (MPoints.mpoint e) MCurve.pt_mul k C) (m_h s))
  /\ (forall A, MPoints.mon e A -> exists C, generated (MPoints.msum e) Infinity (Affine (m_gx s) (m_gy s)) (m_r s) C /\ sent_to (MPoints.mpoint e) MCurve.pt_mul k C A).
Proof.
  assert (K : forall X s, m_shipped X s -> m_order X s (m_r s * m_h s) -> 0 < m_h s < m_r s -> exists e k, X = Ret e /\ MCurve.new_scalar e (m_get_cofactor e) = Ret k
    /\ (forall C, generated (MPoints.msum e) Infinity (Affine (m_gx s) (m_gy s)) (m_r s) C -> counted (sent_to (MPoints.mpoint e) MCurve.pt_mul k C) (m_h s))
  /\ (forall A, MPoints.mon e A -> exists C, generated (MPoints.msum e) Infinity (Affine (m_gx s) (m_gy s)) (m_r s) C /\ sent_to (MPoints.mpoint e) MCurve.pt_mul k C A)).
  { intros X s (e & E & _ & _ & _ & _ & Er & Eh & _ & Pr & WG & MG & _ & HG & HM) (e' & E' & Cn & HC & _) Hh. assert (e' = e) by congruence. subst e'. rewrite <- Er in *.
    destruct WG as (W & _ & _ & L & _). destruct (c77_mont_any_curve e _ _ MG _ W L Pr Hh HG HM HC Cn) as (k & f' & Ek & En & H & H1 & H2).
    assert (f' = m_h s) by nia. subst f'. exists e, k. split; [exact E|]. unfold m_get_cofactor. rewrite Eh. split; [exact Ek|]. split; [exact H|]. intros A HA. destruct (H2 A HA) as (C & S). exists C. split; [exact (H1 C A S)|exact S]. }
  apply SubgroupProps.all_m.
  - exact (K _ _ InstProps.c48_CURVE25519 (proj1 OrderProps.c55_CURVE25519) ltac:(OrderProps.small_h)).
  - exact (K _ _ InstProps.c48_CURVE448 (proj1 OrderProps.c55_CURVE448) ltac:(OrderProps.small_h)).
Qed.
Lemma c77_edw_shipped : forall X s, In (X, s) e_curves -> exists e k, X = Ret e /\ ECurve.new_scalar e (e_get_cofactor e) = Ret k
  /\ (forall C, generated (EPoints.esum e) (0, 1) (e_gx s, e_gy s) (e_r s) C -> counted (sent_to (EPoints.epoint e) ECurve.pt_mul k C) (e_h s))
  /\ (forall A, EPoints.eon e A -> exists C, generated (EPoints.esum e) (0, 1) (e_gx s, e_gy s) (e_r s) C /\ sent_to (EPoints.epoint e) ECurve.pt_mul k C A).
Proof.
  assert (K : forall X s, e_shipped X s -> e_order X s (e_r s * e_h s) -> 0 < e_h s < e_r s -> exists e k, X = Ret e /\ ECurve.new_scalar e (e_get_cofactor e) = Ret k
    /\ (forall C, generated (EPoints.esum e) (0, 1) (e_gx s, e_gy s) (e_r s) C -> counted (sent_to (EPoints.epoint e) ECurve.pt_mul k C) (e_h s))
  /\ (forall A, EPoints.eon e A -> exists C, generated (EPoints.esum e) (0, 1) (e_gx s, e_gy s) (e_r s) C /\ sent_to (EPoints.epoint e) ECurve.pt_mul k C A)).
  { intros X s (e & E & _ & _ & _ & Er & Eh & _ & Pr & WG & MG & _ & HG & HM) (e' & E' & Cn & HC & _) Hh. assert (e' = e) by congruence. subst e'. rewrite <- Er in *.
    destruct WG as (W & _ & _ & L & _). destruct (c77_edw_any_curve e _ _ MG _ W L Pr Hh HG HM HC Cn) as (k & f' & Ek & En & H & H1 & H2).
    assert (f' = e_h s) by nia. subst f'. exists e, k. split; [exact E|]. unfold e_get_cofactor. rewrite Eh. split; [exact Ek|]. split; [exact H|]. intros A HA. destruct (H2 A HA) as (C & S). exists C. split; [exact (H1 C A S)|exact S]. }
  apply SubgroupProps.all_e.
  - exact (K _ _ InstProps.c48_EDWARDS25519 (proj1 OrderProps.c55_EDWARDS25519) ltac:(OrderProps.small_h)).
  - exact (K _ _ InstProps.c48_EDWARDS448 (proj1 OrderProps.c55_EDWARDS448) ltac:(OrderProps.small_h)).
Qed.

(** y^2 = x^3 + 6 x^2 + x modulo 19 has 20 points, the base point (7,6) has order 5 and the cofactor is 4: of the 19 affine
    points, 4 are sent to each of G, 2 G, 3 G, 4 G and 3 (with the point at infinity 4) to the identity *)
Example c77_ex : MPoints.mgroup MontProps.E19
  /\ (let l := map Z.of_nat (seq 0 19) in
      let pts := flat_map (fun x => flat_map (fun y => match MCurve.new_point MontProps.E19 (MontProps.n19 x) (MontProps.n19 y) with Ret P => [P] | _ => [] end) l) l in
      bind (MCurve.get_generator MontProps.E19) (fun G => bind (MCurve.new_scalar MontProps.E19 (m_get_cofactor MontProps.E19)) (fun k =>
      Ret (List.length pts, map (fun j => List.length (filter (fun P =>
        match bind (MCurve.pt_mul false P k) (fun Q => bind (MCurve.pt_mul false G (mkScalar j 5)) (fun C => MCurve.pt_eqb Q C)) with Ret true => true | _ => false end) pts)) [0; 1; 2; 3; 4])))
      = Ret (19%nat, [3%nat; 4%nat; 4%nat; 4%nat; 4%nat])).
Proof. split; [exact MontProps.mgroup19|]. vm_compute. reflexivity. Qed.
