(** From the number of points to what the code's scalar multiplication by the cofactor returns. *)
From Coq Require Import ZArith Znumtheory Lia String Ascii Bool List.
From Verif.Math Require Import Fld Zp RCB FinGroup OrderAlg.
From Verif.Spec Require Import Arith Curve Order Instances.
From Verif.Model Require Import Out BigInt PrimeField Scalar CurveExtras.
From Verif.Proofs Require Import FieldP FieldProps ScalarProps CurveP InstP InstShip OrderP OrderTo OrderShip OrderBls.
From Verif.Model Require WCurve MCurve ECurve.
From Verif.Proofs Require WeierP MontP EdwP WeierProps MontProps EdwProps.
From Verif.Math Require Import ECGroup.
From Verif.Spec Require Export Shipped.
Import ListNotations.
Open Scope Z_scope.

Lemma small_scalar h r : 0 < h < r -> scalar_new h r = Ret (mkScalar h r).
Proof.
  intro H. unfold scalar_new, mod_floor. destruct (Z.eqb_spec r 0); [lia|]. cbn [bind]. rewrite Z.mod_small by lia. reflexivity.
Qed.
Lemma w_cleared_of X s n : w_shipped X s -> w_order X s n -> 0 < w_h s < w_r s -> w_cleared X s.
Proof.
  intros (e & HX & Ep & _ & _ & Er & Eh & _ & _ & (W & _ & _ & L & _) & G & EG & HG & _) (e' & HX' & _ & HC & _) Hh.
  rewrite HX in HX'. injection HX' as <-. exists e, G, (mkScalar (w_h s) (w_r s)). split; [exact HX|]. split; [exact Er|]. split; [exact Ep|]. split; [exact EG|].
  split. { unfold WCurve.new_scalar, w_get_cofactor. rewrite Eh, Er. apply small_scalar, Hh. }
  intros oc P A HP. assert (OA : WPoints.won e A) by apply HP.
  destruct (HC A OA) as (C & MC & j & Hj & Mj).
  destruct (WeierProps.c26_scalar_multiplication oc e P A (mkScalar (w_h s) (w_r s)) W HP) as (Q & EQ & HQ); [split; [symmetry; exact Er|cbn [sk]; lia]|exact L|cbn [sk]; lia|].
  destruct (WeierProps.c26_scalar_multiplication false e G _ (mkScalar j (w_r s)) W HG) as (R & ER & HR); [split; [symmetry; exact Er|cbn [sk]; lia]|exact L|discriminate|].
  exists Q, j, R. split; [exact EQ|]. split; [exact Hj|]. split; [exact ER|].
  destruct (WeierProps.c32_equality e Q R C C W (proj2 (HQ C) MC) (proj2 (HR C) Mj)) as (t & -> & Ht).
  split; [f_equal; apply Ht; reflexivity|]. exists C. exact (conj (proj2 (HQ C) MC) (proj2 (HR C) Mj)).
Qed.
Lemma m_cleared_of X s n : m_shipped X s -> m_order X s n -> 0 < m_h s < m_r s -> m_cleared X s.
Proof.
  intros (e & HX & Ep & _ & _ & _ & Er & Eh & _ & _ & (W & _ & _ & L & _) & G & EG & HG & _) (e' & HX' & _ & HC & _) Hh.
  rewrite HX in HX'. injection HX' as <-. exists e, G, (mkScalar (m_h s) (m_r s)). split; [exact HX|]. split; [exact Er|]. split; [exact Ep|]. split; [exact EG|].
  split. { unfold MCurve.new_scalar, m_get_cofactor. rewrite Eh, Er. apply small_scalar, Hh. }
  intros oc P A HP. assert (OA : MPoints.mon e A) by apply HP.
  destruct (HC A OA) as (C & MC & j & Hj & Mj).
  destruct (MontProps.c34_scalar_multiplication oc e P A (mkScalar (m_h s) (m_r s)) W HP) as (Q & EQ & HQ); [split; [symmetry; exact Er|cbn [sk]; lia]|exact L|cbn [sk]; lia|].
  destruct (MontProps.c34_scalar_multiplication false e G _ (mkScalar j (m_r s)) W HG) as (R & ER & HR); [split; [symmetry; exact Er|cbn [sk]; lia]|exact L|discriminate|].
  exists Q, j, R. split; [exact EQ|]. split; [exact Hj|]. split; [exact ER|].
  destruct (MontProps.c32_mont_equality e Q R C C W (proj2 (HQ C) MC) (proj2 (HR C) Mj)) as (t & -> & Ht).
  split; [f_equal; apply Ht; reflexivity|]. exists C. exact (conj (proj2 (HQ C) MC) (proj2 (HR C) Mj)).
Qed.
Lemma e_cleared_of X s n : e_shipped X s -> e_order X s n -> 0 < e_h s < e_r s -> e_cleared X s.
Proof.
  intros (e & HX & Ep & _ & _ & Er & Eh & _ & _ & (W & _ & _ & L & _) & G & EG & HG & _) (e' & HX' & _ & HC & _) Hh.
  rewrite HX in HX'. injection HX' as <-. exists e, G, (mkScalar (e_h s) (e_r s)). split; [exact HX|]. split; [exact Er|]. split; [exact Ep|]. split; [exact EG|].
  split. { unfold ECurve.new_scalar, e_get_cofactor. rewrite Eh, Er. apply small_scalar, Hh. }
  intros oc P A HP. assert (OA : EPoints.eon e A) by apply HP.
  destruct (HC A OA) as (C & MC & j & Hj & Mj).
  destruct (EdwProps.c37_scalar_multiplication oc e P A (mkScalar (e_h s) (e_r s)) W HP) as (Q & EQ & HQ); [split; [symmetry; exact Er|cbn [sk]; lia]|exact L|cbn [sk]; lia|].
  destruct (EdwProps.c37_scalar_multiplication false e G _ (mkScalar j (e_r s)) W HG) as (R & ER & HR); [split; [symmetry; exact Er|cbn [sk]; lia]|exact L|discriminate|].
  exists Q, j, R. split; [exact EQ|]. split; [exact Hj|]. split; [exact ER|].
  destruct (EdwProps.c32_edw_equality e Q R C C W (proj2 (HQ C) MC) (proj2 (HR C) Mj)) as (t & -> & Ht).
  split; [f_equal; apply Ht; reflexivity|]. exists C. exact (conj (proj2 (HQ C) MC) (proj2 (HR C) Mj)).
Qed.

Lemma w_prime_of X s : w_shipped X s -> w_h s = 1 -> Z.odd (w_r s) = true -> 2 * w_p s + 1 < 3 * w_r s -> w_order X s (w_r s).
Proof. destruct s as [p a b r h gx gy]. cbn [w_p w_r w_h]. intros H ->. apply w_prime, H. Qed.

(** *** y^2 = x^3 + b with the torsion of BLS12-381 *)
Lemma bls_count X p b r h0 gx gy w y3 xA11 yA11 xA1 yA1 xB1 yB1 xA2 yA2 xB2 yB2 xA3 yA3 sl km : w_shipped X (mkW p 0 b r h0 gx gy) ->
  (w * w + w + 1) mod p = 0 -> (w - 1) mod p <> 0 -> b mod p <> 0 ->
  prime 10177 -> prime 859267 -> prime 52437899 ->
  Z.odd (r * (3 * 11 * 10177 * 859267 * 52437899)) = true -> Z.gcd r (3 * 11 * 10177 * 859267 * 52437899) = 1 ->
  2 * p + 1 < 3 * (r * (3 * (11 * 11) * (10177 * 10177) * (859267 * 859267) * (52437899 * 52437899))) ->
  wcheck p 0 b 0 y3 3 sl km = true -> wcheck p 0 b xA11 yA11 11 sl km = true ->
  wcheck p 0 b xA1 yA1 10177 sl km = true -> wcheck p 0 b xB1 yB1 10177 sl km = true ->
  wto_check p 0 b xA1 yA1 4773 (w * xA1) yA1 sl km = true -> wto_check p 0 b xB1 yB1 5403 (w * xB1) yB1 sl km = true ->
  wcheck p 0 b xA2 yA2 859267 sl km = true -> wcheck p 0 b xB2 yB2 859267 sl km = true ->
  wto_check p 0 b xA2 yA2 119571 (w * xA2) yA2 sl km = true -> wto_check p 0 b xB2 yB2 739695 (w * xB2) yB2 sl km = true ->
  wcheck p 0 b xA3 yA3 52437899 sl km = true ->
  exists e, X = Ret e /\ counted (WPoints.won e) (r * (3 * (11 * 11) * (10177 * 10177) * (859267 * 859267) * (52437899 * 52437899)))
  /\ clears (WPoints.won e) (WPoints.wsum e) Infinity (Affine gx gy) (3 * 11 * 10177 * 859267 * 52437899) r
  /\ exponent (WPoints.won e) (WPoints.wsum e) Infinity (3 * 11 * 10177 * 859267 * 52437899 * r).
Proof.
  intros HX W3 W1 B0 q1 q2 q3 Or Cp B C3 C11 CA1 CB1 RA1 RB1 CA2 CB2 RA2 RB2 CA3.
  apply (w_parts X p 0 b r h0 _ _ gx gy HX Or Cp ltac:(lia) B). intros Hp H2 NR. pose proof (HGi p Hp H2 0 b NR) as HG.
  destruct (part_prime p Hp H2 0 b NR 0 y3 3 sl km prime_3 C3) as (M0 & P0).
  destruct (part_rot p Hp H2 b w NR W3 W1 B0 xA11 yA11 11 sl km) as (M1 & P1); [apply (Pock.trial_prime 11 3); vm_compute; reflexivity|reflexivity|lia|exact C11|].
  destruct (part_eigen p Hp H2 b w NR W3 xA1 yA1 xB1 yB1 4773 5403 10177 sl km q1 CA1 CB1) as (M2 & P2); [lia|lia|discriminate|assumption..|].
  destruct (part_eigen p Hp H2 b w NR W3 xA2 yA2 xB2 yB2 119571 739695 859267 sl km q2 CA2 CB2) as (M3 & P3); [lia|lia|discriminate|assumption..|].
  destruct (part_rot p Hp H2 b w NR W3 W1 B0 xA3 yA3 52437899 sl km) as (M4 & P4); [exact q3|reflexivity|lia|exact CA3|].
  eexists. refine (part_sum _ _ _ _ HG _ _ _ _ _ _ (part_sum _ _ _ _ HG _ _ _ _ _ _ (part_sum _ _ _ _ HG _ _ _ _ _ _ (part_sum _ _ _ _ HG _ _ _ _ _ _ P0 P1 _) P2 _) P3 _) P4 _);
  vm_compute; reflexivity.
Qed.
(** a shipped curve over its own field *)
Lemma w_open X p a b r h gx gy : w_shipped X (mkW p a b r h gx gy) -> exists e (Hp : prime p), X = Ret e /\ 2 < p
  /\ (forall x : ZpF p Hp, Fadd (Fadd (Fmul (Fmul x x) x) (Fmul (of_Z p a : ZpF p Hp) x)) (of_Z p b : ZpF p Hp) <> F0)
  /\ modulus (WCurve.c_f e) = p /\ val (WCurve.c_a e) = a mod p
  /\ (forall A, on (ZpF p Hp) F0 (of_Z p a) (of_Z p b) A <-> WPoints.won e (ap p Hp A))
  /\ (forall A n C, on (ZpF p Hp) F0 (of_Z p a) (of_Z p b) A ->
        (multiple (WPoints.wsum e) Infinity (ap p Hp A) n C <-> C = ap p Hp (nmul p Hp F0 (of_Z p a) n A)))
  /\ exists G, on (ZpF p Hp) F0 (of_Z p a) (of_Z p b) G /\ ap p Hp G = Affine gx gy
     /\ ord (padd (ZpF p Hp) F0 (of_Z p a)) (popp (ZpF p Hp)) (Inf (ZpF p Hp)) G r.
Proof.
  intros (e & HX & Ep & EAA & EBB & _ & _ & _ & Pr & (W & _) & G & _ & (_ & _ & _ & _ & _ & GO) & GM).
  cbn [w_p w_a w_b w_r w_gx w_gy w_h] in *. exists e.
  destruct (WeierProps.weier_open e W) as (p' & Hp & H2 & a' & b' & ef & ea & eb & NR & WP & WS & WM & WO).
  assert (E : p = p') by (rewrite <- Ep, ef; reflexivity). destruct E.
  assert (Ea : a' = of_Z p a). { apply Zp_eq. rewrite ea in EAA. exact EAA. }
  assert (Eb : b' = of_Z p b). { apply Zp_eq. rewrite eb in EBB. exact EBB. }
  subst a' b'. exists Hp. do 5 (split; [assumption|]). split; [exact WO|]. split; [exact WM|].
  rewrite ef, ea, eb in GO. destruct (on_cubic_unap p Hp H2 F0 _ _ _ GO) as (A & EA & OA). exists A. split; [exact OA|]. split; [symmetry; exact EA|].
  apply (ord_of p Hp H2 F0 _ _ (nonsing (ZpF p Hp) _ _ NR)); [exact OA|destruct Pr; lia|]. intro k. rewrite <- GM, EA, (WM A k Infinity OA).
  split; [intros ->; reflexivity|]. intro H. apply (ap_inj p Hp). symmetry. exact H.
Qed.
Lemma bls_indep X p b r h gx gy w xA1 yA1 xB1 yB1 xA2 yA2 xB2 yB2 xA3 yA3 xB3 sl km : w_shipped X (mkW p 0 b r h gx gy) ->
  (w * w + w + 1) mod p = 0 -> (w - 1) mod p <> 0 -> b mod p <> 0 ->
  prime 10177 -> prime 859267 -> prime 52437899 ->
  Forall (fun z => 0 <= z < p) [xA1; yA1; xB1; yB1; xA2; yA2; xB2; yB2; xA3; yA3; xB3] -> (w * xA3 - xB3) mod p = 0 ->
  wcheck p 0 b xA1 yA1 10177 sl km = true -> wcheck p 0 b xB1 yB1 10177 sl km = true ->
  wto_check p 0 b xA1 yA1 4773 (w * xA1) yA1 sl km = true -> wto_check p 0 b xB1 yB1 5403 (w * xB1) yB1 sl km = true ->
  wcheck p 0 b xA2 yA2 859267 sl km = true -> wcheck p 0 b xB2 yB2 859267 sl km = true ->
  wto_check p 0 b xA2 yA2 119571 (w * xA2) yA2 sl km = true -> wto_check p 0 b xB2 yB2 739695 (w * xB2) yB2 sl km = true ->
  wcheck p 0 b xA3 yA3 52437899 sl km = true ->
  forall n, ~ multiple (chord_tangent p 1 0 0) Infinity (Affine xA1 yA1) n (Affine xB1 yB1)
  /\ ~ multiple (chord_tangent p 1 0 0) Infinity (Affine xA2 yA2) n (Affine xB2 yB2)
  /\ ~ multiple (chord_tangent p 1 0 0) Infinity (Affine xA3 yA3) n (Affine xB3 yA3).
Proof.
  intros HX W3 W1 B0 q1 q2 q3 F EB CA1 CB1 RA1 RB1 CA2 CB2 RA2 RB2 CA3 n. destruct (w_open _ _ _ _ _ _ _ _ HX) as (e & Hp & _ & H2 & NR & _).
  rewrite !Forall_cons_iff in F. destruct F as (F1 & F2 & F3 & F4 & F5 & F6 & F7 & F8 & F9 & F10 & F11 & _).
  rewrite <- (ap_aff p Hp xA1 yA1), <- (ap_aff p Hp xB1 yB1), <- (ap_aff p Hp xA2 yA2), <- (ap_aff p Hp xB2 yB2), <- (ap_aff p Hp xA3 yA3), <- (ap_aff p Hp xB3 yA3) by assumption.
  destruct (indep_eigen_check p Hp H2 b w NR W3 xA1 yA1 xB1 yB1 4773 5403 10177 sl km q1 CA1 CB1) as (O1 & _ & _ & _ & I1); [lia|lia|discriminate|assumption..|].
  destruct (indep_eigen_check p Hp H2 b w NR W3 xA2 yA2 xB2 yB2 119571 739695 859267 sl km q2 CA2 CB2) as (O2 & _ & _ & _ & I2); [lia|lia|discriminate|assumption..|].
  destruct (indep_rot_check p Hp H2 b w NR W3 W1 B0 xA3 yA3 52437899 sl km) as (O3 & _ & I3); [exact q3|reflexivity|lia|exact CA3|].
  split; [|split].
  - exact (no_multiple p Hp H2 b _ _ O1 I1 n).
  - exact (no_multiple p Hp H2 b _ _ O2 I2 n).
  - apply (no_multiple p Hp H2 b _ _ O3). rewrite <- (mod_O p H2 _ _ EB). exact I3.
Qed.

(** *** the domain of the isogeny: the same torsion except for the part of order 121 *)
Lemma iso_count X p a b r h0 gx gy x3 y3 x121 y121 x11 y11 xA1 yA1 xB1 yB1 xA2 yA2 xB2 yB2 xA3 yA3 xB3 yB3 sl km : w_shipped X (mkW p a b r h0 gx gy) ->
  prime 10177 -> prime 859267 -> prime 52437899 ->
  Z.odd (r * (3 * (11 * 11) * 10177 * 859267 * 52437899)) = true -> Z.gcd r (3 * (11 * 11) * 10177 * 859267 * 52437899) = 1 ->
  2 * p + 1 < 3 * (r * (3 * (11 * 11) * (10177 * 10177) * (859267 * 859267) * (52437899 * 52437899))) ->
  Forall (fun z => 0 <= z < p) [xA1; yA1; xB1; yB1; xA2; yA2; xB2; yB2; xA3; yA3; xB3; yB3] ->
  wcheck p a b x3 y3 3 sl km = true -> wcheck p a b x121 y121 (11 * 11) sl km = true -> wto_check p a b x121 y121 11 x11 y11 sl km = true ->
  wcheck p a b xA1 yA1 10177 sl km = true -> wcheck p a b xB1 yB1 10177 sl km = true ->
  wcheck p a b xA2 yA2 859267 sl km = true -> wcheck p a b xB2 yB2 859267 sl km = true ->
  wcheck p a b xA3 yA3 52437899 sl km = true -> wcheck p a b xB3 yB3 52437899 sl km = true ->
  (forall n, ~ multiple (chord_tangent p 1 0 (a mod p)) Infinity (Affine xA1 yA1) n (Affine xB1 yB1)) ->
  (forall n, ~ multiple (chord_tangent p 1 0 (a mod p)) Infinity (Affine xA2 yA2) n (Affine xB2 yB2)) ->
  (forall n, ~ multiple (chord_tangent p 1 0 (a mod p)) Infinity (Affine xA3 yA3) n (Affine xB3 yB3)) ->
  exists e, X = Ret e /\ counted (WPoints.won e) (r * (3 * (11 * 11) * (10177 * 10177) * (859267 * 859267) * (52437899 * 52437899)))
  /\ clears (WPoints.won e) (WPoints.wsum e) Infinity (Affine gx gy) (3 * (11 * 11) * 10177 * 859267 * 52437899) r
  /\ exponent (WPoints.won e) (WPoints.wsum e) Infinity (3 * (11 * 11) * 10177 * 859267 * 52437899 * r).
Proof.
  intros HX q1 q2 q3 Or Cp B F C3 C121 C11 CA1 CB1 CA2 CB2 CA3 CB3 I1 I2 I3.
  rewrite !Forall_cons_iff in F. destruct F as (F1 & F2 & F3 & F4 & F5 & F6 & F7 & F8 & F9 & F10 & F11 & F12 & _).
  apply (w_parts X p a b r h0 _ _ gx gy HX Or Cp ltac:(lia) B). intros Hp H2 NR. pose proof (HGi p Hp H2 a b NR) as HG.
  destruct (part_prime p Hp H2 a b NR x3 y3 3 sl km prime_3 C3) as (M0 & P0).
  destruct (part_square p Hp H2 a b NR x121 y121 x11 y11 11 sl km) as (M1 & P1); [apply (Pock.trial_prime 11 3); vm_compute; reflexivity|assumption..|].
  destruct (part_indep p Hp H2 a b NR xA1 yA1 xB1 yB1 10177 sl km q1) as (M2 & P2); [assumption..|].
  destruct (part_indep p Hp H2 a b NR xA2 yA2 xB2 yB2 859267 sl km q2) as (M3 & P3); [assumption..|].
  destruct (part_indep p Hp H2 a b NR xA3 yA3 xB3 yB3 52437899 sl km q3) as (M4 & P4); [assumption..|].
  eexists. refine (part_sum _ _ _ _ HG _ _ _ _ _ _ (part_sum _ _ _ _ HG _ _ _ _ _ _ (part_sum _ _ _ _ HG _ _ _ _ _ _ (part_sum _ _ _ _ HG _ _ _ _ _ _ P0 P1 _) P2 _) P3 _) P4 _);
  vm_compute; reflexivity.
Qed.
Lemma w_check_on X p a b r h gx gy x y q sl km : w_shipped X (mkW p a b r h gx gy) -> 0 <= x < p -> 0 <= y < p -> wcheck p a b x y q sl km = true ->
  exists e, X = Ret e /\ WPoints.won e (Affine x y).
Proof.
  intros HX Rx Ry H. destruct (w_open _ _ _ _ _ _ _ _ HX) as (e & Hp & E & H2 & NR & _ & _ & WO & _). exists e. split; [exact E|].
  rewrite <- (ap_aff p Hp x y) by assumption. apply WO. apply (wcheck_ok p Hp a b x y q sl km NR H).
Qed.
(** a point of order q^2 whose h-fold sum is no multiple of the base point *)
Lemma w_not_cleared X p a b r h0 gx gy x y tx ty q h sl km : w_shipped X (mkW p a b r h0 gx gy) -> 0 <= x < p -> 0 <= y < p -> prime q -> 0 <= h ->
  wcheck p a b x y (q * q) sl km = true -> wto_check p a b x y q tx ty sl km = true -> (r * h) mod (q * q) <> 0 ->
  exists e, X = Ret e /\ WPoints.won e (Affine x y)
  /\ (forall n, multiple (WPoints.wsum e) Infinity (Affine x y) n Infinity <-> (q * q | Z.of_nat n))
  /\ forall C n, multiple (WPoints.wsum e) Infinity (Affine x y) (Z.to_nat h) C -> ~ multiple (WPoints.wsum e) Infinity (Affine gx gy) n C.
Proof.
  intros HX Rx Ry Q H0 H H' N. destruct (w_open _ _ _ _ _ _ _ _ HX) as (e & Hp & E & H2 & NR & _ & _ & WO & WM & G & OG & EG & OdG). exists e. split; [exact E|].
  destruct (ord_square p Hp H2 a b NR x y tx ty q sl km Q H H') as [OA OD].
  rewrite <- (ap_aff p Hp x y), <- EG by assumption. split; [apply WO, OA|]. split.
  { intro n. rewrite (WM _ _ _ OA), <- mul_nmul, <- (zmul_nat _ (popp (ZpF p Hp))), <- (proj2 OD). split; [|intros ->; reflexivity].
    intro Z. apply (ap_inj p Hp). symmetry. exact Z. }
  intros C n MA MG. apply (WM _ _ _ OA) in MA. apply (WM _ _ _ OG) in MG.
  rewrite MA in MG. apply (ap_inj p Hp) in MG. rewrite <- !mul_nmul, <- !(zmul_nat _ (popp (ZpF p Hp))), Z2Nat.id in MG by exact H0.
  apply N. apply Zdivide_mod. apply OD. pose proof (HGi p Hp H2 a b NR) as HG.
  rewrite (zmul_mul _ _ _ _ HG), MG, (zmul_comm _ _ _ _ HG), (proj2 (proj2 OdG r)) by (assumption || apply Z.divide_refl). apply (zmul_zero _ _ _ _ HG).
Qed.
Lemma w_multiple e A n : WPoints.weier e -> WPoints.won e A -> exists C, multiple (WPoints.wsum e) Infinity A n C.
Proof.
  intros W OA. destruct (WeierProps.weier_open e W) as (p & Hp & H2 & a & b & ef & ea & eb & NR & WP & WS & WM & WO).
  unfold WPoints.won in OA. rewrite ef, ea, eb in OA. destruct (on_cubic_unap p Hp H2 F0 _ _ _ OA) as (A' & -> & O). eexists. apply (WM _ _ _ O). reflexivity.
Qed.
(** (0,0) of a Montgomery curve has order 2, so the residues of scalars modulo an odd r do not act on it *)
Lemma even_multiple e n : multiple (MPoints.msum e) Infinity (Affine 0 0) (2 * n) Infinity.
Proof.
  induction n as [|n IH]; [apply mult_O|]. replace (2 * S n)%nat with (S (S (2 * n))) by lia.
  apply (mult_S _ _ _ _ (Affine 0 0)); [apply (mult_S _ _ _ _ Infinity); [exact IH|apply ct_left]|]. apply ct_opposite. apply Z.divide_0_r.
Qed.
Lemma m_no_action X s : m_shipped X s -> Z.odd (m_r s) = true -> 1 < m_r s -> exists e P k l, X = Ret e /\ MPoints.mpoint e P (Affine 0 0)
  /\ valid_scalar (MCurve.c_r e) k /\ valid_scalar (MCurve.c_r e) l
  /\ bind (bind (MCurve.pt_mul false P k) (fun Y => bind (MCurve.pt_mul false P l) (fun Z => MCurve.pt_add Y Z)))
       (fun L => bind (bind (sc_add k l) (fun m => MCurve.pt_mul false P m)) (fun M => MCurve.pt_eqb L M)) = Ret false.
Proof.
  intros (e & HX & Ep & _ & _ & _ & Er & _ & Hp & _ & (W & _ & _ & L & _) & _) Od R1.
  assert (p1 : 1 < m_p s) by (destruct Hp; lia).
  exists e, (MCurve.mkPoint e (MCurve.mkProy (mkFpElt 0 (MCurve.c_f e)) (mkFpElt 0 (MCurve.c_f e)) (mkFpElt 1 (MCurve.c_f e)))), (mkScalar 1 (m_r s)), (mkScalar (m_r s - 1) (m_r s)).
  set (P := MCurve.mkPoint _ _). split; [exact HX|].
  assert (HP : MPoints.mpoint e P (Affine 0 0)).
  { unfold MPoints.mpoint, P, valid. cbn [MCurve.pe MCurve.pc MCurve.px MCurve.py MCurve.pz val fld]. rewrite Ep.
    assert (EF : MCurve.c_f e = mkFp (m_p s)) by (rewrite <- Ep; destruct (MCurve.c_f e); reflexivity). rewrite EF.
    repeat split; try lia; apply Z.divide_0_r || (exists 0; ring). }
  assert (Vk : valid_scalar (MCurve.c_r e) (mkScalar 1 (m_r s))) by (split; cbn [sk sr]; lia).
  assert (Vl : valid_scalar (MCurve.c_r e) (mkScalar (m_r s - 1) (m_r s))) by (split; cbn [sk sr]; lia).
  split; [exact HP|]. split; [exact Vk|]. split; [exact Vl|].
  destruct (MontProps.c34_scalar_multiplication false e P _ _ W HP Vk L) as (Q & -> & HQ); [discriminate|].
  destruct (MontProps.c34_scalar_multiplication false e P _ _ W HP Vl L) as (R & -> & HR); [discriminate|]. cbn [bind].
  assert (Q1 : MPoints.mpoint e Q (Affine 0 0)). { apply HQ. apply (mult_S _ _ _ _ Infinity); [apply mult_O|apply ct_left]. }
  assert (R1' : MPoints.mpoint e R Infinity).
  { apply HR. cbn [sk]. apply Z.odd_spec in Od. destruct Od as [h Hh]. replace (Z.to_nat (m_r s - 1)) with (2 * Z.to_nat h)%nat by lia. apply even_multiple. }
  destruct (MontProps.c33_addition e Q R _ _ W Q1 R1') as (S & -> & HS). cbn [bind].
  destruct (proj1 (c20_scalar_ring (m_r s) (mkScalar 1 (m_r s)) (mkScalar (m_r s - 1) (m_r s)) ltac:(lia) eq_refl eq_refl)) as (c & -> & Ec & Rc). cbn [bind sk] in *.
  assert (C0 : sk c = 0). { destruct Rc as [B [d D]]. assert (d = 1) by nia. subst d. lia. }
  assert (Vc : valid_scalar (MCurve.c_r e) c) by (split; lia).
  destruct (MontProps.c34_scalar_multiplication false e P _ c W HP Vc L) as (T & -> & HT); [discriminate|]. cbn [bind].
  destruct (MontProps.c32_mont_equality e S T (Affine 0 0) Infinity W) as ([] & -> & Ht); [apply HS; apply ct_right|apply HT; rewrite C0; apply mult_O|discriminate (proj1 Ht eq_refl)|reflexivity].
Qed.
