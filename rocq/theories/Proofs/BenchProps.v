(** C74: the programs shipped beside the library: the benchmark loops for any number of rounds, the example and the documentation's example. *)
From Coq Require Import ZArith Znumtheory Zpow_facts Lia String Ascii Bool List.
From Verif.Math Require Import Fld Zp RCB.
From Verif.Spec Require Import Arith Curve Elements Text.
From Verif.Spec Require Instances.
From Verif.Model Require Import Out BigInt PrimeField Scalar OpForms Display CurveExtras Benches.
From Verif.Model Require Instances.
From Verif.Model Require WCurve MCurve.
From Verif.Proofs Require Import FieldP FieldProps ScalarProps CurveP WeierP.
From Verif.Proofs Require WeierProps MontProps InstProps LawProps DisplayProps TextP.
From Verif.Spec Require Export Shipped Benches.
Import Spec.Instances Model.Instances.
From Verif.Math Require Import ECGroup.
Import ListNotations.
Open Scope Z_scope.
Local Open Scope out_scope.

(** a loop keeps what its step keeps *)
Lemma iter_inv {A} (step : A -> out A) (I : nat -> A -> Prop) x : I O x ->
  (forall n y, I n y -> exists z, step y = Ret z /\ I (S n) z) -> forall n, exists y, b_iter step n x = Ret y /\ I n y.
Proof.
  intros H0 HS n. enough (E : forall n m x, I m x -> exists y, b_iter step n x = Ret y /\ I (m + n)%nat y) by exact (E n O x H0).
  clear - HS. induction n as [|n IH]; intros m x H.
  - exists x. split; [reflexivity|]. rewrite Nat.add_0_r. exact H.
  - destruct (HS m x H) as (z & E & Hz). cbn [b_iter]. rewrite E. cbn [bind]. destruct (IH (S m) z Hz) as (y & Ey & Hy).
    exists y. split; [exact Ey|]. rewrite Nat.add_succ_r. exact Hy.
Qed.

Lemma res_valid p n x : 0 < p -> fld x = mkFp p -> residue p n (val x) -> valid p x.
Proof. intros Hp E (H & _). split; assumption. Qed.
Lemma fp_runs X s : w_shipped X s -> 2 < w_p s -> fp_bench_runs X.
Proof.
  intros (e & HX & Ep & _ & _ & _ & _ & Pp & _) H2. exists e. split; [exact HX|]. intros n p.
  assert (Ep' : p = w_p s) by exact Ep. assert (Ef : w_get_field e = mkFp p) by (unfold p; destruct (w_get_field e); reflexivity).
  assert (Hp : 0 < p) by lia.
  destruct (c01_elt_is_the_residue p (-1) Hp) as (x & _ & Ex & Fx & Rx), (c01_elt_is_the_residue p 15 Hp) as (y & _ & Ey & Fy & Ry).
  change (fp_new p) with (mkFp p) in *. rewrite <- Ef in Ex, Ey.
  unfold bench_fp_add, bench_fp_mul, bench_fp_inv. rewrite HX. cbn [bind]. rewrite Ex, Ey. cbn [bind]. rewrite Ef.
  assert (Vy : valid p y) by (split; [exact Fy|apply Ry]).
  split; [|split].
  - destruct (iter_inv (fun x0 => add x0 y) (fun n x => fld x = mkFp p /\ residue p (-1 + 15 * Z.of_nat n) (val x)) x) with (n := n) as (z & E & F & R); [|
    |exists z; repeat (split; [assumption|]); exact R].
    + split; [exact Fx|exact Rx].
    + intros m z (F & R). destruct (c02_expressions_are_modular p (fun i => match i with O => z | _ => y end) (EAdd (EVar 0) (EVar 1)) Hp) as (w & Ew & Fw & Rw).
      { intros [|i]; [split; [exact F|apply R]|exact Vy]. }
      cbn in Ew. exists w. split; [exact Ew|]. split; [exact Fw|]. cbn in Rw. destruct Rw as (B & D1), R as (_ & D2), Ry as (_ & D3).
      split; [exact B|]. destruct D1 as [a A1], D2 as [b A2], D3 as [c A3]. rewrite Nat2Z.inj_succ. exists (a + b + c). lia.
  - destruct (iter_inv (fun x0 => mul x0 y) (fun n x => fld x = mkFp p /\ residue p (- 15 ^ Z.of_nat n) (val x)) x) with (n := n) as (z & E & F & R); [|
    |exists z; repeat (split; [assumption|]); exact R].
    + split; [exact Fx|exact Rx].
    + intros m z (F & R). destruct (c02_expressions_are_modular p (fun i => match i with O => z | _ => y end) (EMul (EVar 0) (EVar 1)) Hp) as (w & Ew & Fw & Rw).
      { intros [|i]; [split; [exact F|apply R]|exact Vy]. }
      cbn in Ew. exists w. split; [exact Ew|]. split; [exact Fw|]. cbn in Rw. destruct Rw as (B & D1), R as (_ & D2), Ry as (_ & D3).
      split; [exact B|]. destruct D1 as [a A1], D2 as [b A2], D3 as [c A3]. rewrite Nat2Z.inj_succ, Z.pow_succ_r by lia. exists (a + 15 * b + val z * c).
      replace (- (15 * 15 ^ Z.of_nat m) - val w) with ((- 15 ^ Z.of_nat m - val z) * 15 + val z * (15 - val y) + (val z * val y - val w)) by ring.
      rewrite A1, A2, A3. ring.
  - assert (Vx1 : val x = p - 1). { destruct Rx as (B & [c C]). assert (c = -1) by nia. subst c. lia. }
    destruct (iter_inv (fun x2 => u32_div 1 x2) (fun _ z => z = x) x) with (n := n) as (z & E & ->); [reflexivity| |exists x; split; [exact E|split; assumption]].
    intros _ z ->. exists x. split; [|reflexivity].
    assert (Vx : valid p x) by (split; [exact Fx|lia]). rewrite <- Ep' in Pp.
    destruct (c03_inverse p x Pp Vx ltac:(lia)) as (i & o & Eo & Ei & _ & _ & _ & U). rewrite Ei. f_equal. symmetry. apply U; [exact Vx|].
    destruct (c02_expressions_are_modular p (fun i => x) (EMul (EVar 0) (EVar 1)) Hp ltac:(intros; exact Vx)) as (w & Ew & Fw & Rw).
    cbn in Ew. rewrite Ew. rewrite <- Eo. destruct (c01_zero_and_one p Hp) as (z0 & o' & _ & Eo' & _ & Fo & _ & Ro). rewrite Eo'. f_equal.
    cbn in Rw. rewrite Vx1 in Rw. destruct Rw as (B1 & [c C1]), Ro as (B2 & [d D1]).
    assert (val w = val o'). { assert ((c - d) * p = (p-1)*(p-1) - 1 - (val w - val o')) by nia. assert ((p | val w - val o')) by (exists (p - 2 - (c - d)); nia).
      destruct H0 as [q Q]. assert (q = 0) by nia. subst q. lia. }
    destruct w, o'. cbn in *. subst. reflexivity.
Qed.
(** benches/field.rs *)
Lemma c74_field_bench : Forall fp_bench_runs bench_curves.
Proof.
  repeat constructor; [exact (fp_runs _ _ InstProps.c48_P256 eq_refl)|exact (fp_runs _ _ InstProps.c48_P384 eq_refl)|exact (fp_runs _ _ InstProps.c48_P521 eq_refl)].
Qed.

Lemma odd_prime_pow r n : prime r -> 2 < r -> ~ (r | Z.of_nat (2 ^ n)).
Proof.
  intros Hr H2 D. rewrite Nat2Z.inj_pow in D. change (Z.of_nat 2) with 2 in D. apply prime_power_prime in D; [lia|lia|exact Hr|exact prime_2].
Qed.
Lemma ec_runs X s : w_shipped X s -> 2 < w_r s -> ec_bench_runs X s.
Proof.
  intros (e & HX & Ep & _ & _ & Er & _ & _ & Pr & (W & _ & _ & L & _) & MG & EG & HG & HM) H2. exists e. split; [exact HX|]. intros n oc G.
  fold G in HG, HM. unfold bench_ec_add, bench_ec_mul. rewrite HX. cbn [bind]. rewrite EG. cbn [bind].
  pose proof W as W0. WeierProps.open_curve W. pose proof (proj1 (WP MG G) HG) as (A & EA & RG).
  assert (OA : on (ZpF p Hp) F0 a b A) by apply RG.
  assert (KA : nmul p Hp F0 a (Z.to_nat (w_r s)) A = Inf _).
  { pose proof (proj2 (HM (Z.to_nat (w_r s)))) as K. rewrite Z2Nat.id in K by lia. specialize (K (Z.divide_refl _)). rewrite EA in K.
    apply WM in K; [|exact OA]. change Infinity with (ap p Hp (Inf (ZpF p Hp))) in K. symmetry in K. apply ap_inj in K. exact K. }
  split.
  - destruct (iter_inv (fun g0 => WCurve.pt_add g0 g0) (fun n P => wrep p Hp a b e P (nmul p Hp F0 a (2 ^ n) A)) MG) with (n := n) as (P & E & HP).
    + cbn [Nat.pow]. cbn [nmul]. rewrite padd_inf_l. exact RG.
    + intros m P HP. destruct (add_wrep p Hp Hp2 a b e ea eb NR P P _ _ HP HP) as (Q & EQ & HQ). exists Q. split; [exact EQ|].
      rewrite (nmul_add p Hp Hp2 F0 a b (nonsing _ a b NR)) in HQ by exact OA.
      replace (2 ^ S m)%nat with (2 ^ m + 2 ^ m)%nat by (cbn [Nat.pow]; lia). exact HQ.
    + exists P. split; [exact E|]. split.
      * intro C. rewrite EA, WM by exact OA. apply (WeierProps.wrep_iff _ _ _ _ _ _ _ WP HP).
      * destruct (WCurve.pt_is_zero P) eqn:Z; [|reflexivity]. exfalso.
        assert (HP' : WPoints.wpoint e P (ap p Hp (nmul p Hp F0 a (2 ^ n) A))) by (apply WP; eexists; split; [reflexivity|exact HP]).
        destruct (WeierProps.c27_is_zero e P _ W0 HP') as (_ & _ & _ & K & _). apply K in Z.
        apply (odd_prime_pow (w_r s) n Pr H2). apply HM. rewrite EA. apply WM; [exact OA|]. symmetry. exact Z.
  - assert (Ek : WCurve.new_scalar e (-1) = Ret (mkScalar (w_r s - 1) (w_r s))).
    { unfold WCurve.new_scalar. rewrite Er. destruct (c20_new_scalar (w_r s) (-1) ltac:(lia)) as (k & Ek & Sk & Rk). rewrite Ek. f_equal.
      destruct k as [k r]. cbn [sk sr] in *. subst r. destruct Rk as (B & [c C]). assert (c = -1) by nia. subst c. f_equal. lia. }
    rewrite Ek. cbn [bind w_scalar_mul]. set (k := mkScalar (w_r s - 1) (w_r s)).
    assert (N1 : nmul p Hp F0 a (Z.to_nat (w_r s - 1)) A = popp _ A).
    { apply (padd_inf_opp (ZpF p Hp) F0 a b (two_K p Hp Hp2) (nonsing _ a b NR)); [exact OA|apply on_nmul; assumption|].
      transitivity (nmul p Hp F0 a (1 + Z.to_nat (w_r s - 1)) A).
      - rewrite <- (nmul_add p Hp Hp2 F0 a b (nonsing _ a b NR)) by exact OA. f_equal.
      - replace (1 + Z.to_nat (w_r s - 1))%nat with (Z.to_nat (w_r s)) by lia. exact KA. }
    assert (N2 : nmul p Hp F0 a (Z.to_nat (w_r s - 1)) (popp _ A) = A).
    { rewrite <- N1 at 1. rewrite (nmul_mul p Hp Hp2 F0 a b (nonsing _ a b NR)) by exact OA. rewrite <- Z2Nat.inj_mul by lia.
      rewrite <- (WeierProps.nmul_mod p Hp Hp2 a b NR (w_r s)) by (assumption || nia).
      replace (((w_r s - 1) * (w_r s - 1)) mod w_r s) with 1; [reflexivity|]. apply Z.mod_unique with (w_r s - 2); lia. }
    destruct (iter_inv (fun g1 => WCurve.pt_mul oc g1 k) (fun n P => wrep p Hp a b e P (if Nat.even n then A else popp _ A)) MG) with (n := n) as (P & E & HP).
    + exact RG.
    + intros m P HP. assert (B : bits (sk k) < 2 ^ 64). { apply (WeierProps.bits_small (w_r s) (sk k)); [cbn [sk k]; lia|rewrite <- Er; exact L]. }
      destruct (mul_wrep p Hp Hp2 a b e ef ea eb NR oc P _ k HP (eq_sym Er) ltac:(cbn [sk k]; lia) B) as (Q & EQ & HQ).
      exists Q. split; [exact EQ|]. cbn [sk k] in HQ. rewrite Nat.even_succ, <- Nat.negb_even. destruct (Nat.even m); cbn [negb]; [rewrite N1 in HQ|rewrite N2 in HQ]; exact HQ.
    + exists P. split; [exact E|]. intro C. rewrite (WeierProps.wrep_iff _ _ _ _ _ _ _ WP HP).
      assert (Epp : w_p s = p) by (rewrite <- Ep, ef; reflexivity). rewrite Epp, EA. destruct (Nat.even n); [reflexivity|]. rewrite neg_ap. reflexivity.
Qed.
(** benches/curve.rs, in both build profiles *)
Lemma c74_curve_bench : ec_bench_runs P256 std_P256 /\ ec_bench_runs P384 std_P384 /\ ec_bench_runs P521 std_P521.
Proof.
  split; [|split]; [exact (ec_runs _ _ InstProps.c48_P256 eq_refl)|exact (ec_runs _ _ InstProps.c48_P384 eq_refl)|exact (ec_runs _ _ InstProps.c48_P521 eq_refl)].
Qed.

Lemma w_print X s : w_shipped X s -> exists e P t A, X = Ret e /\ (MG <- WCurve.get_generator e ;; MG' <- WCurve.get_generator e ;; WCurve.pt_add MG MG') = Ret P
  /\ w_double s A /\ wpoint_show P = Ret t /\ point_text (w_p s) A t /\ valid (w_p s) (WCurve.c_a e) /\ valid (w_p s) (WCurve.c_b e)
  /\ val (WCurve.c_a e) = w_a s mod w_p s /\ val (WCurve.c_b e) = w_b s mod w_p s.
Proof.
  intros (e & HX & Ep & Ea & Eb & _ & _ & _ & _ & (W & _) & MG & EG & HG & _). pose proof W as (_ & _ & Va & Vb & _). rewrite Ep in Va, Vb.
  destruct (WeierProps.c24_addition e MG MG _ _ W HG HG) as (P & EP & HP). destruct (LawProps.c24_law_is_total e _ _ W (proj2 (proj2 (proj2 (proj2 (proj2 HG))))) (proj2 (proj2 (proj2 (proj2 (proj2 HG)))))) as (A & _ & HA).
  pose proof (proj2 (HA A) eq_refl) as SA. pose proof (proj2 (HP A) SA) as (_ & Vx & Vy & Vz & PR & _). rewrite Ep in *.
  destruct (proj1 (DisplayProps.c52_points (w_p s)) P Vx Vy Vz) as (x & y & z & Dx & Dy & Dz & ET).
  exists e, P. eexists. exists A. split; [exact HX|]. rewrite EG. cbn [bind]. split; [exact EP|].
  split; [unfold w_double; rewrite <- Ea, <- Ep; exact SA|]. split; [exact ET|]. split; [|repeat split; assumption || apply Va || apply Vb].
  exists x, y, z. do 3 eexists. repeat (split; [eassumption|]). split; [apply Vx|]. split; [apply Vy|]. split; [apply Vz|]. split; [exact PR|reflexivity].
Qed.
Lemma m_print X s : m_shipped X s -> exists e P t A, X = Ret e /\ (MG <- MCurve.get_generator e ;; MG' <- MCurve.get_generator e ;; MCurve.pt_add MG MG') = Ret P
  /\ m_double s A /\ mpoint_show P = Ret t /\ point_text (m_p s) A t /\ valid (m_p s) (MCurve.c_a e) /\ valid (m_p s) (MCurve.c_b e)
  /\ val (MCurve.c_a e) = m_a s mod m_p s /\ val (MCurve.c_b e) = 1.
Proof.
  intros (e & HX & Ep & Ea & Eb & _ & _ & _ & _ & _ & (W & _) & MG & EG & HG & _). pose proof W as (_ & _ & Va & Vb & _). rewrite Ep in Va, Vb.
  destruct (MontProps.c33_addition e MG MG _ _ W HG HG) as (P & EP & HP). destruct (LawProps.c33_law_is_total e _ _ W (proj2 (proj2 (proj2 (proj2 (proj2 HG))))) (proj2 (proj2 (proj2 (proj2 (proj2 HG)))))) as (A & _ & HA).
  pose proof (proj2 (HA A) eq_refl) as SA. pose proof (proj2 (HP A) SA) as (_ & Vx & Vy & Vz & PR & _). rewrite Ep in *.
  destruct (proj1 (proj2 (DisplayProps.c52_points (m_p s))) P Vx Vy Vz) as (x & y & z & Dx & Dy & Dz & ET).
  exists e, P. eexists. exists A. split; [exact HX|]. rewrite EG. cbn [bind]. split; [exact EP|].
  split; [unfold m_double; rewrite <- Ea, <- Ep; unfold MPoints.msum in SA; rewrite Eb in SA; exact SA|]. split; [exact ET|]. split; [|repeat split; assumption || apply Va || apply Vb].
  exists x, y, z. do 3 eexists. repeat (split; [eassumption|]). split; [apply Vx|]. split; [apply Vy|]. split; [apply Vz|]. split; [exact PR|reflexivity].
Qed.
Lemma bind3 {A B C D} (x : out A) (y : A -> out B) (z : A -> B -> out C) (f : C -> out D) :
  (a <- x ;; b <- y a ;; c <- z a b ;; f c) = (c <- (a <- x ;; b <- y a ;; z a b) ;; f c).
Proof. destruct x as [a|]; cbn [bind]; [|reflexivity]. destruct (y a) as [b|]; reflexivity. Qed.
(** examples/call01.rs runs to its end and prints the version, a line of text and the doubles of three base points *)
Lemma c74_example : exists t u v A B C, call01 = Ret ["0.2.3"; "Example!"; "G: " ++ t ++ " "; "G: " ++ u ++ " "; "G: " ++ v ++ " "]%string
  /\ w_double std_P256 A /\ point_text (w_p std_P256) A t
  /\ w_double std_P384 B /\ point_text (w_p std_P384) B u
  /\ m_double std_CURVE25519 C /\ point_text (m_p std_CURVE25519) C v.
Proof.
  destruct (w_print _ _ InstProps.c48_P256) as (e1 & P1 & t & A & X1 & E1 & D1 & T1 & Q1 & _), (w_print _ _ InstProps.c48_P384) as (e2 & P2 & u & B & X2 & E2 & D2 & T2 & Q2 & _),
    (m_print _ _ InstProps.c48_CURVE25519) as (e3 & P3 & v & C & X3 & E3 & D3 & T3 & Q3 & _).
  exists t, u, v, A, B, C. split; [|repeat (split; [assumption|]); assumption].
  unfold call01, print_w, print_m. rewrite X1, X2, X3. cbn [bind]. rewrite !bind3, E1, E2, E3. cbn [bind]. rewrite T1, T2, T3. reflexivity.
Qed.
(** and so does the example in the documentation, which prints the curves too *)
Lemma c74_documentation : exists a b t a' b' t' A A', doc_example = Ret
    ["Weierstrass Curve y^2=x^3+ax+b" ++ NL ++ "a: " ++ a ++ NL ++ "b: " ++ b ++ NL ++ "2G: " ++ t ++ " ";
     "Montgomery Curve by^2=x^3+ax^2+x" ++ NL ++ "a: " ++ a' ++ NL ++ "b: " ++ b' ++ NL ++ "2G: " ++ t' ++ " "]%string
  /\ decimal a (w_a std_P256 mod w_p std_P256) /\ decimal b (w_b std_P256 mod w_p std_P256) /\ w_double std_P256 A /\ point_text (w_p std_P256) A t
  /\ decimal a' (m_a std_CURVE25519 mod m_p std_CURVE25519) /\ decimal b' 1 /\ m_double std_CURVE25519 A' /\ point_text (m_p std_CURVE25519) A' t'.
Proof.
  destruct (w_print _ _ InstProps.c48_P256) as (e1 & P1 & t & A & X1 & E1 & D1 & T1 & Q1 & Va & Vb & Ea & Eb),
    (m_print _ _ InstProps.c48_CURVE25519) as (e3 & P3 & v & C & X3 & E3 & D3 & T3 & Q3 & Va' & Vb' & Ea' & Eb').
  destruct (proj1 (DisplayProps.c52_curves (w_p std_P256)) e1 Va Vb) as (a & b & Da & Db & S), (proj1 (proj2 (DisplayProps.c52_curves (m_p std_CURVE25519))) e3 Va' Vb') as (a' & b' & Da' & Db' & S').
  exists a, b, t, a', b', v, A, C. rewrite Ea in Da. rewrite Eb in Db. rewrite Ea' in Da'. rewrite Eb' in Db'. split; [|repeat (split; [assumption|]); assumption].
  unfold doc_example, doc_w, doc_m. rewrite X1, X3. cbn [bind]. rewrite !bind3, E1, E3. cbn [bind]. rewrite S, S', T1, T3. cbn [bind].
  rewrite !TextP.sapp_assoc. reflexivity.
Qed.
(** the same loops on y^2 = x^3 + x + 6 modulo 7, whose base point (1,1) has order 11: 2^5 = -1 modulo 11, so five doublings give -G,
    as do three multiplications by -1; and -1 + 15 * 3 = 2, -(15^3) = 6 modulo 7. On P-256 the second round gives 29 *)
Example c74_ex :
  (P <- bench_ec_add (Ret WeierProps.E7) 5 ;; WCurve.pt_eqb P (WeierProps.pt7 1 6 1)) = Ret true
  /\ (P <- bench_ec_mul true (Ret WeierProps.E7) 3 ;; WCurve.pt_eqb P (WeierProps.pt7 1 6 1)) = Ret true
  /\ (P <- bench_ec_mul true (Ret WeierProps.E7) 4 ;; WCurve.pt_eqb P (WeierProps.pt7 1 1 1)) = Ret true
  /\ (x <- bench_fp_add (Ret WeierProps.E7) 3 ;; Ret (val x)) = Ret 2
  /\ (x <- bench_fp_mul (Ret WeierProps.E7) 3 ;; Ret (val x)) = Ret 6
  /\ (x <- bench_fp_inv (Ret WeierProps.E7) 3 ;; Ret (val x)) = Ret 6
  /\ (x <- bench_fp_add P256 2 ;; Ret (val x)) = Ret 29.
Proof. repeat split; vm_compute; reflexivity. Qed.
