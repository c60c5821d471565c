(** The protocols of Spec/Protocols.v on any group in which the operations of a curve compute. *)
From Coq Require Import ZArith Znumtheory Lia Bool List.
From Verif.Math Require Import FinGroup.
From Verif.Spec Require Import Arith Curve Order Elements Protocols.
From Verif.Model Require Import Out BigInt PrimeField Scalar.
From Verif.Proofs Require Import ScalarProps ScLaw Subgroup.
Import ListNotations.
Open Scope Z_scope.

(** *** scalars, as integers modulo r *)
Lemma sc_add_cong r a b : valid_scalar r a -> valid_scalar r b -> exists c, sc_add a b = Ret c /\ valid_scalar r c /\ (r | sk c - (sk a + sk b)).
Proof.
  intros Va Vb. assert (H : 0 < r) by (destruct Va; lia). destruct (c20_scalar_ring r a b H (proj1 Va) (proj1 Vb)) as ((c & E & S & R) & _).
  exists c. split; [exact E|]. destruct R as (R & D). split; [split; assumption|]. apply Z.divide_opp_r in D. replace (sk c - (sk a + sk b)) with (- (sk a + sk b - sk c)) by lia. exact D.
Qed.
Lemma sc_sub_cong r a b : valid_scalar r a -> valid_scalar r b -> exists c, sc_sub a b = Ret c /\ valid_scalar r c /\ (r | sk c - (sk a - sk b)).
Proof.
  intros Va Vb. assert (H : 0 < r) by (destruct Va; lia). destruct (c20_scalar_ring r a b H (proj1 Va) (proj1 Vb)) as (_ & (c & E & S & R) & _).
  exists c. split; [exact E|]. destruct R as (R & D). split; [split; assumption|]. apply Z.divide_opp_r in D. replace (sk c - (sk a - sk b)) with (- (sk a - sk b - sk c)) by lia. exact D.
Qed.
Lemma sc_mul_cong r a b : valid_scalar r a -> valid_scalar r b -> exists c, sc_mul a b = Ret c /\ valid_scalar r c /\ (r | sk c - sk a * sk b).
Proof.
  intros Va Vb. assert (H : 0 < r) by (destruct Va; lia). destruct (c20_scalar_ring r a b H (proj1 Va) (proj1 Vb)) as (_ & _ & (c & E & S & R) & _).
  exists c. split; [exact E|]. destruct R as (R & D). split; [split; assumption|]. apply Z.divide_opp_r in D. replace (sk c - sk a * sk b) with (- (sk a * sk b - sk c)) by lia. exact D.
Qed.
Lemma sc_div_cong r a b : prime r -> valid_scalar r a -> valid_scalar r b -> sk b <> 0 -> exists c, sc_div a b = Ret c /\ valid_scalar r c /\ (r | sk c * sk b - sk a).
Proof.
  intros Pr Va Vb N. destruct (c20_scalar_division r a b Pr Va Vb N) as (q & i & E & V & M & _). exists q. split; [exact E|]. split; [exact V|].
  destruct (sc_mul_cong r q b V Vb) as (c & Ec & _ & D). rewrite M in Ec. injection Ec as <-. apply Z.divide_opp_r in D.
  replace (sk q * sk b - sk a) with (- (sk a - sk q * sk b)) by lia. exact D.
Qed.
Lemma scalar_same r a b : valid_scalar r a -> valid_scalar r b -> ((r | sk a - sk b) <-> a = b).
Proof.
  destruct a as [x rx], b as [y ry]. intros (E1 & H1) (E2 & H2). cbn [sk sr] in *. subst rx ry. split; intro H.
  - destruct H as [q Hq]. assert (-1 < q < 1) by nia. assert (q = 0) by lia. subst q. f_equal. lia.
  - injection H as ->. rewrite Z.sub_diag. apply Z.divide_0_r.
Qed.
(** a linear combination of things r divides *)
Lemma div_comb r x a u : (r | a) -> x = u * a -> (r | x).
Proof. intros H ->. apply Z.divide_mul_r, H. Qed.
Lemma div_comb2 r x a b u v : (r | a) -> (r | b) -> x = u * a + v * b -> (r | x).
Proof. intros H1 H2 ->. apply Z.divide_add_r; apply Z.divide_mul_r; assumption. Qed.
Lemma div_comb3 r x a b c u v w : (r | a) -> (r | b) -> (r | c) -> x = u * a + v * b + w * c -> (r | x).
Proof. intros H1 H2 H3 ->. repeat apply Z.divide_add_r; apply Z.divide_mul_r; assumption. Qed.
Lemma unit_of r a : valid_scalar r a -> sk a <> 0 -> ~ (r | sk a).
Proof. intros (_ & H) N D. apply Z.divide_pos_le in D; lia. Qed.

Section Protocols.
  Context {MP S T : Type} {point : MP -> S -> Prop} {ssum : S -> S -> S -> Prop} {szero : S} {r : Z}
    {mmul : bool -> MP -> Scalar -> out MP} {madd msub : MP -> MP -> out MP} {mneg : MP -> out MP} {meqb : MP -> MP -> out bool}
    {on : T -> Prop} {add : T -> T -> T} {opp : T -> T} {zero : T} {rep : MP -> T -> Prop} {enc : T -> S}.
  Hypothesis LW : laws point ssum szero r mmul madd msub mneg meqb on add opp zero rep enc.
  Local Notation mul := (FinGroup.mul add zero).
  Local Notation zmul := (FinGroup.zmul add opp zero).
  Let HG := l_grp LW.
  Let smul := law_mul add opp zero rep r mmul (l_mul LW).

  Lemma eqb_same P Q A B : rep P A -> rep Q B -> A = B -> meqb P Q = Ret true.
  Proof. intros HP HQ E. destruct (l_eqb LW _ _ _ _ HP HQ) as (t & -> & Ht). f_equal. apply Ht, E. Qed.
  Lemma eqb_diff P Q A B : rep P A -> rep Q B -> A <> B -> meqb P Q = Ret false.
  Proof. intros HP HQ E. destruct (l_eqb LW _ _ _ _ HP HQ) as (t & -> & Ht). destruct t; [destruct E; apply Ht; reflexivity|reflexivity]. Qed.

  (** *** ElGamal, on all points *)
  Lemma elgamal_law : elgamal_opens point r mmul madd msub meqb.
  Proof.
    intros oc P A0 M B0 a k HP HM (Va & Na) (Vk & Nk). apply (l_point LW) in HP. destruct HP as (A & -> & HP). apply (l_point LW) in HM. destruct HM as (B & -> & HM).
    pose proof (l_on LW _ _ HP) as OA. pose proof (l_on LW _ _ HM) as OB.
    destruct (smul oc P A a HP Va Na) as (Q & EQ & HQ). destruct (smul oc P A k HP Vk Nk) as (D & ED & HD).
    destruct (smul oc Q _ k HQ Vk Nk) as (X & EX & HX). destruct (l_add LW _ _ _ _ HM HX) as (C & EC & HC).
    destruct (smul oc D _ a HD Va Na) as (Y & EY & HY). destruct (l_sub LW _ _ _ _ HC HY) as (F & EF & HF).
    exists Q, (D, C), F. split; [exact EQ|]. unfold elgamal_encrypt, elgamal_decrypt. cbn [fst snd].
    rewrite ED. cbn [bind]. rewrite EX. cbn [bind]. rewrite EC. cbn [bind]. split; [reflexivity|]. rewrite EY. cbn [bind]. split; [exact EF|].
    apply (eqb_same _ _ _ _ HF HM). rewrite (zmul_comm _ _ _ _ HG (sk a) (sk k) A OA).
    assert (OK : on (zmul (sk k) (zmul (sk a) A))) by (repeat apply (on_zmul _ _ _ _ HG); exact OA).
    rewrite (g_assoc _ _ _ _ HG), (g_inv _ _ _ _ HG), (g_id _ _ _ _ HG); [reflexivity|assumption..|apply (g_opp _ _ _ _ HG), OK].
  Qed.

  Variables (MG : MP) (G : T).
  Hypothesis Grep : rep MG G.
  Hypothesis Pr : prime r.
  Hypothesis ordG : forall n, multiple ssum szero (enc G) n szero <-> (r | Z.of_nat n).
  Let OG : on G := l_on LW _ _ Grep.
  Let r1 : 1 < r.
  Proof. destruct Pr; assumption. Qed.
  Lemma ord0 : zmul r G = zero.
  Proof. apply (rG0 LW MG G Grep r1). apply ordG. rewrite Z2Nat.id by lia. apply Z.divide_refl. Qed.
  Lemma zG0 z : zmul z G = zero <-> (r | z).
  Proof.
    assert (R : residue r z (z mod r)).
    { split; [apply Z.mod_pos_bound; lia|]. exists (z / r). rewrite (Z.div_mod z r) at 1 by lia. lia. }
    rewrite <- (kill_res on add opp zero HG r G z _ OG ord0 R).
    rewrite <- (killed_of LW G (z mod r) OG) by apply R. rewrite ordG, Z2Nat.id by apply R. destruct R as (_ & D). split; intro H.
    - replace z with (z - z mod r + z mod r) by lia. apply Z.divide_add_r; assumption.
    - replace (z mod r) with (z - (z - z mod r)) by lia. apply Z.divide_sub_r; assumption.
  Qed.
  Lemma zG_eq x y : zmul x G = zmul y G <-> (r | x - y).
  Proof.
    rewrite <- zG0. replace (x - y) with (x + - y) by lia. rewrite (zmul_add _ _ _ _ HG), (zmul_opp _ _ _ _ HG) by exact OG.
    pose proof (on_zmul _ _ _ _ HG x G OG) as OX. pose proof (on_zmul _ _ _ _ HG y G OG) as OY. pose proof (g_opp _ _ _ _ HG _ OY) as ON. split; intro H.
    - rewrite H. apply (g_inv _ _ _ _ HG), OY.
    - assert (Q : add (add (zmul x G) (opp (zmul y G))) (zmul y G) = add zero (zmul y G)) by (rewrite H; reflexivity).
      rewrite (g_assoc _ _ _ _ HG) in Q by assumption. rewrite (g_comm _ _ _ _ HG (opp _) _) in Q by assumption.
      rewrite (g_inv _ _ _ _ HG) in Q by assumption. rewrite (g_id _ _ _ _ HG) in Q by assumption. rewrite (idl _ _ _ _ HG) in Q by assumption. exact Q.
  Qed.
  Lemma zG_mul x y : zmul x (zmul y G) = zmul (x * y) G.
  Proof. symmetry. apply (zmul_mul _ _ _ _ HG), OG. Qed.
  Lemma zG_add x y : add (zmul x G) (zmul y G) = zmul (x + y) G.
  Proof. symmetry. apply (zmul_add _ _ _ _ HG), OG. Qed.

  (** *** Schnorr *)
  Lemma check_of oc P A R B c t : rep P A -> rep R B -> usable oc r c -> usable oc r t ->
    exists b, schnorr_check (mmul oc) madd meqb MG P R c t = Ret b /\ (b = true <-> zmul (sk t) G = add B (zmul (sk c) A)).
  Proof.
    intros HP HR (Vc & Nc) (Vt & Nt). unfold schnorr_check.
    destruct (smul oc MG G t Grep Vt Nt) as (L & -> & HL). cbn [bind]. destruct (smul oc P A c HP Vc Nc) as (V & -> & HV). cbn [bind].
    destruct (l_add LW _ _ _ _ HR HV) as (E & -> & HE). cbn [bind]. exact (l_eqb LW _ _ _ _ HL HE).
  Qed.
  Lemma schnorr_law : schnorr_exact r mmul madd meqb MG.
  Proof.
    intros oc a k c Ua Uk Uc. pose proof Ua as (Va & Na). pose proof Uk as (Vk & Nk). pose proof Uc as (Vc & Nc).
    destruct (smul oc MG G a Grep Va Na) as (A & EA & HA). destruct (smul oc MG G k Grep Vk Nk) as (R & ER & HR).
    destruct (sc_mul_cong r c a Vc Va) as (t & Et & Vt & Dt). destruct (sc_add_cong r k t Vk Vt) as (s & Es & Vs & Ds).
    exists A, R, s. split; [exact EA|]. split; [exact ER|]. split; [unfold schnorr_respond; rewrite Et; exact Es|]. split; [exact Vs|].
    intros u Uu. destruct (check_of oc A _ R _ c u HA HR Uc Uu) as (b & Eb & Hb). exists b. split; [exact Eb|]. rewrite Hb.
    rewrite zG_mul, zG_add, zG_eq, <- (scalar_same r u s (proj1 Uu) Vs). split; intro H.
    - eapply (div_comb3 r _ _ _ _ 1 (-1) (-1)); [exact H|exact Ds|exact Dt|ring].
    - eapply (div_comb3 r _ _ _ _ 1 1 1); [exact H|exact Ds|exact Dt|ring].
  Qed.
  Lemma generated_of A : on A -> generated ssum szero (enc G) r (enc A) -> exists z, A = zmul z G.
  Proof. intros OA H. apply (gen_iff LW MG G Grep r1); [|exact OA|exact H]. apply ordG. rewrite Z2Nat.id by lia. apply Z.divide_refl. Qed.
  Lemma multiple_of x : 0 <= x -> multiple ssum szero (enc G) (Z.to_nat x) (enc (zmul x G)).
  Proof. intro H. apply (l_mult LW _ _ _ OG). rewrite <- (FinGroup.zmul_nat add opp zero), Z2Nat.id by exact H. reflexivity. Qed.
  Lemma extract_law : schnorr_extracts point ssum szero r mmul madd meqb MG (enc G).
  Proof.
    intros oc P A0 R B0 c1 s1 c2 s2 HP HA HR U1 U2 U3 U4 NE C1 C2.
    apply (l_point LW) in HP. destruct HP as (A & -> & HP). apply (l_point LW) in HR. destruct HR as (B & -> & HR).
    pose proof (l_on LW _ _ HP) as OA. pose proof (l_on LW _ _ HR) as OB. destruct (generated_of A OA HA) as (z & ->).
    destruct (check_of oc P _ R B c1 s1 HP HR U1 U2) as (b & Eb & Hb). rewrite C1 in Eb. injection Eb as <-.
    destruct (check_of oc P _ R B c2 s2 HP HR U3 U4) as (b & Eb & Hb'). rewrite C2 in Eb. injection Eb as <-.
    assert (D : (r | (sk s1 - sk s2) - (sk c1 - sk c2) * z)).
    { pose proof (proj1 Hb eq_refl) as Q1. pose proof (proj1 Hb' eq_refl) as Q2. rewrite zG_mul in Q1, Q2.
      replace ((sk s1 - sk s2) - (sk c1 - sk c2) * z) with ((sk s1 + - (sk c1 * z)) - (sk s2 + - (sk c2 * z))) by ring. apply zG_eq.
      rewrite !(zmul_add _ _ _ _ HG), !(zmul_opp _ _ _ _ HG) by exact OG. rewrite Q1, Q2.
      rewrite !(g_assoc _ _ _ _ HG) by (try apply (g_opp _ _ _ _ HG); try apply (on_zmul _ _ _ _ HG); assumption).
      rewrite !(g_inv _ _ _ _ HG) by (apply (on_zmul _ _ _ _ HG); exact OG). reflexivity. }
    destruct U1 as (V1 & _), U2 as (V2 & _), U3 as (V3 & _), U4 as (V4 & _).
    destruct (sc_sub_cong r s1 s2 V2 V4) as (d & Ed & Vd & Dd). destruct (sc_sub_cong r c1 c2 V1 V3) as (e & Ee & Ve & De).
    assert (Ne : ~ (r | sk e)).
    { intro H. apply NE. apply (scalar_same r c1 c2 V1 V3). replace (sk c1 - sk c2) with (sk e - (sk e - (sk c1 - sk c2))) by ring. apply Z.divide_sub_r; assumption. }
    destruct (sc_div_cong r d e Pr Vd Ve) as (x & Ex & Vx & Dx); [intro E0; apply Ne; rewrite E0; apply Z.divide_0_r|].
    assert (K : (r | sk x - z)).
    { destruct (prime_mult r Pr (sk e) (sk x - z)) as [H|H]; [|contradiction|exact H].
      apply (div_comb3 r _ (sk x * sk e - sk d) (sk d - (sk s1 - sk s2)) ((sk s1 - sk s2) - (sk c1 - sk c2) * z + z * ((sk c1 - sk c2) - sk e)) 1 1 1); [assumption|assumption| |ring].
      apply Z.divide_add_r; [exact D|]. apply Z.divide_mul_r. apply Z.divide_opp_r in De. replace (sk c1 - sk c2 - sk e) with (- (sk e - (sk c1 - sk c2))) by ring. exact De. }
    exists x. unfold schnorr_extract. rewrite Ed. cbn [bind]. rewrite Ee. cbn [bind]. split; [exact Ex|]. split; [exact Vx|].
    apply zG_eq in K. rewrite <- K. split; [apply multiple_of; destruct Vx; lia|]. intros (_ & Nx).
    destruct (smul oc MG G x Grep Vx Nx) as (Q & EQ & HQ). exists Q. split; [exact EQ|]. apply (eqb_same _ _ _ _ HQ HP). exact K.
  Qed.
  Lemma schnorr_fooled_of P A q : point P A -> 0 < q -> 2 * q < r -> multiple ssum szero A (Z.to_nat q) szero -> A <> szero -> schnorr_fooled r mmul madd meqb MG P.
  Proof.
    intros HP H0 H2 M NZ. apply (l_point LW) in HP. destruct HP as (A' & -> & HP). pose proof (l_on LW _ _ HP) as OA.
    apply (killed_of LW A' q OA) in M; [|lia]. set (sc k := mkScalar k r).
    assert (V : forall k, 0 <= k < r -> valid_scalar r (sc k)) by (intros k Hk; split; [reflexivity|exact Hk]).
    assert (U : forall k, 0 < k < r -> usable true r (sc k)) by (intros k Hk; split; [apply V; lia|cbn; lia]).
    destruct (sc_sub_cong r (sc 1) (sc 1) (V 1 ltac:(lia)) (V 1 ltac:(lia))) as (d & Ed & Vd & Dd).
    destruct (sc_sub_cong r (sc q) (sc (2 * q)) (V q ltac:(lia)) (V (2 * q) ltac:(lia))) as (e & Ee & Ve & De). cbn [sk] in *.
    assert (Ne : ~ (r | sk e)).
    { intro H. assert (D : (r | q)). { replace q with ((sk e - (q - 2 * q)) - sk e) by ring. apply Z.divide_sub_r; assumption. } apply Z.divide_pos_le in D; lia. }
    destruct (sc_div_cong r d e Pr Vd Ve) as (x & Ex & Vx & Dx); [intro E0; apply Ne; rewrite E0; apply Z.divide_0_r|].
    assert (Dd' : (r | sk d)) by (replace (sk d) with (sk d - (1 - 1)) by ring; exact Dd).
    assert (X0 : (r | sk x)).
    { destruct (prime_mult r Pr (sk e) (sk x)) as [H|H]; [|contradiction|exact H]. replace (sk e * sk x) with ((sk x * sk e - sk d) + sk d) by ring. apply Z.divide_add_r; assumption. }
    destruct (smul false MG G x Grep Vx) as (Q & EQ & HQ); [discriminate|]. apply zG0 in X0. rewrite X0 in HQ.
    exists MG, (sc q), (sc 1), (sc (2 * q)), (sc 1), x, Q. split; [apply U; lia|]. split; [apply U; lia|]. split; [apply U; lia|]. split; [apply U; lia|].
    split; [intro E; apply (f_equal sk) in E; change (q = 2 * q) in E; lia|]. assert (K : forall c oc, (q | c) -> 0 < c < r -> schnorr_check (mmul oc) madd meqb MG P MG (sc c) (sc 1) = Ret true).
    { intros c oc [m Hm] Hc. assert (W : forall k, 0 < k < r -> usable oc r (sc k)) by (intros k Hk; split; [apply V; lia|cbn; lia]).
      destruct (check_of oc P A' MG G (sc c) (sc 1) HP Grep (W c Hc) (W 1 ltac:(lia))) as (b & Eb & Hb). rewrite Eb. f_equal. apply Hb. cbn [sc sk].
      rewrite Hm, (zmul_mul _ _ _ _ HG) by exact OA. rewrite M, (zmul_zero _ _ _ _ HG), (zmul_1 _ _ _ _ HG) by exact OG. symmetry. apply (g_id _ _ _ _ HG), OG. }
    split; [intro oc; split; apply K; [apply Z.divide_refl|lia|apply Z.divide_factor_r|lia]|].
    unfold schnorr_extract. rewrite Ed. cbn [bind]. rewrite Ee. cbn [bind]. split; [exact Ex|]. split; [exact EQ|].
    apply (eqb_diff _ _ _ _ HQ HP). intro E. apply NZ. rewrite <- E. apply (l_zero LW).
  Qed.

  (** *** ECDSA *)
  Lemma ecdsa_law : ecdsa_exact r mmul madd meqb MG.
  Proof.
    intros oc z rho d k (Vz & Nz) (Vh & Nh) (Vd & Nd) Vk Nk.
    destruct (smul oc MG G d Grep Vd Nd) as (Q & EQ & HQ). destruct (smul oc MG G k Grep Vk (fun _ => Nk)) as (R & ER & HR).
    destruct (sc_mul_cong r rho d Vh Vd) as (m & Em & Vm & Dm). destruct (sc_add_cong r z m Vz Vm) as (w & Ew & Vw & Dw).
    destruct (sc_div_cong r w k Pr Vw Vk Nk) as (s & Es & Vs & Ds).
    exists Q, R, s. split; [exact EQ|]. split; [exact ER|]. split; [unfold ecdsa_sign; rewrite Em; cbn [bind]; rewrite Ew; exact Es|]. split; [exact Vs|].
    intros t Vt Nt. destruct (sc_div_cong r z t Pr Vz Vt Nt) as (u & Eu & Vu & Du). destruct (sc_div_cong r rho t Pr Vh Vt Nt) as (v & Ev & Vv & Dv).
    assert (NZ : forall a b, valid_scalar r a -> (oc = true -> sk a <> 0) -> (r | sk b * sk t - sk a) -> oc = true -> sk b <> 0).
    { intros a b Va Na D O E. rewrite E in D. apply (unit_of r a Va (Na O)). apply Z.divide_opp_r in D. replace (sk a) with (- (0 * sk t - sk a)) by ring. exact D. }
    destruct (smul oc MG G u Grep Vu (NZ z u Vz Nz Du)) as (U & EU & HU). destruct (smul oc Q _ v HQ Vv (NZ rho v Vh Nh Dv)) as (V & EV & HV).
    destruct (l_add LW _ _ _ _ HU HV) as (W & EW & HW). destruct (l_eqb LW _ _ _ _ HW HR) as (b & Eb & Hb).
    exists W, b. unfold ecdsa_point. rewrite Eu. cbn [bind]. rewrite Ev. cbn [bind]. rewrite EU. cbn [bind]. rewrite EV. cbn [bind].
    split; [exact EW|]. split; [exact Eb|]. rewrite Hb, zG_mul, zG_add, zG_eq, <- (scalar_same r t s Vt Vs).
    pose proof (unit_of r k Vk Nk) as Uk. pose proof (unit_of r t Vt Nt) as Ut.
    (* t (u + v d - k) = z + rho d - t k = s k - t k *)
    assert (C : (r | sk t * (sk u + sk v * sk d - sk k) - sk k * (sk s - sk t))).
    { replace (sk t * (sk u + sk v * sk d - sk k) - sk k * (sk s - sk t))
        with ((sk u * sk t - sk z) + sk d * (sk v * sk t - sk rho) - (sk s * sk k - sk w) - (sk w - (sk z + sk m)) - (sk m - sk rho * sk d)) by ring.
      apply Z.divide_sub_r; [apply Z.divide_sub_r; [apply Z.divide_sub_r; [apply Z.divide_add_r; [|apply Z.divide_mul_r]|]|]|]; assumption. }
    split; intro H.
    - destruct (prime_mult r Pr (sk k) (sk t - sk s)) as [K|K]; [|contradiction|exact K].
      replace (sk k * (sk t - sk s)) with (sk t * (sk u + sk v * sk d - sk k) - sk k * (sk s - sk t) - sk t * (sk u + sk v * sk d - sk k)) by ring.
      apply Z.divide_sub_r; [exact C|apply Z.divide_mul_r, H].
    - destruct (prime_mult r Pr (sk t) (sk u + sk v * sk d - sk k)) as [K|K]; [|contradiction|exact K].
      replace (sk t * (sk u + sk v * sk d - sk k)) with (sk t * (sk u + sk v * sk d - sk k) - sk k * (sk s - sk t) + (- sk k) * (sk t - sk s)) by ring.
      apply Z.divide_add_r; [exact C|apply Z.divide_mul_r, H].
  Qed.

  (** *** blinded evaluation *)
  Lemma oprf_law : oprf_exact point ssum szero r mmul meqb (enc G).
  Proof.
    intros oc P A0 b k HP HA Vb Nb (Vk & Nk). apply (l_point LW) in HP. destruct HP as (A & -> & HP). pose proof (l_on LW _ _ HP) as OA. destruct (generated_of A OA HA) as (z & ->).
    destruct (c20_scalar_division r b b Pr Vb Vb Nb) as (_ & i & _ & _ & _ & Ei & Vi & Di).
    destruct (smul oc P _ b HP Vb (fun _ => Nb)) as (B & EB & HB). destruct (smul oc B _ k HB Vk Nk) as (E & EE & HE).
    destruct (smul oc E _ i HE Vi) as (F & EF & HF).
    { intros _ E0. rewrite E0 in Di. apply Z.divide_opp_r in Di. replace (- (0 * sk b - 1)) with 1 in Di by ring. apply Z.divide_pos_le in Di; lia. }
    destruct (smul oc P _ k HP Vk Nk) as (H & EH & HH).
    exists F, H. unfold oprf. rewrite EB. cbn [bind]. rewrite EE. cbn [bind]. rewrite Ei. cbn [bind]. split; [exact EF|]. split; [exact EH|].
    apply (eqb_same _ _ _ _ HF HH). rewrite !zG_mul. apply zG_eq. apply (div_comb r _ (sk i * sk b - 1) (sk k * z) Di). ring.
  Qed.
  Lemma oprf_hides_law : oprf_hides point ssum szero r mmul meqb (enc G).
  Proof.
    intros oc P A0 Q B0 HP HA NA HQ HB NB.
    apply (l_point LW) in HP. destruct HP as (A & -> & HP). pose proof (l_on LW _ _ HP) as OA. destruct (generated_of A OA HA) as (x & ->).
    apply (l_point LW) in HQ. destruct HQ as (B & -> & HQ). pose proof (l_on LW _ _ HQ) as OB. destruct (generated_of B OB HB) as (y & ->).
    assert (Nx : ~ (r | x)) by (intro H; apply NA; apply zG0 in H; rewrite H; apply (l_zero LW)).
    assert (Ny : ~ (r | y)) by (intro H; apply NB; apply zG0 in H; rewrite H; apply (l_zero LW)).
    set (sc k := mkScalar (k mod r) r). assert (V : forall k, valid_scalar r (sc k)) by (intro k; split; [reflexivity|apply Z.mod_pos_bound; lia]).
    assert (D : forall k, (r | sk (sc k) - k)) by (intro k; cbn [sc sk]; exists (- (k / r)); rewrite (Z.div_mod k r) at 2 by lia; ring).
    destruct (sc_div_cong r (sc y) (sc x) Pr (V y) (V x)) as (b & Eb & Vb & Db).
    { intro E0. apply Nx. pose proof (D x) as Dx. rewrite E0 in Dx. apply Z.divide_opp_r in Dx. replace x with (- (0 - x)) by ring. exact Dx. }
    assert (C : (r | sk b * x - y)).
    { replace (sk b * x - y) with ((sk b * sk (sc x) - sk (sc y)) - sk b * (sk (sc x) - x) + (sk (sc y) - y)) by ring.
      apply Z.divide_add_r; [apply Z.divide_sub_r; [exact Db|apply Z.divide_mul_r, D]|apply D]. }
    exists b. split; [exact Vb|]. split.
    { intro E0. apply Ny. rewrite E0 in C. apply Z.divide_opp_r in C. replace y with (- (0 * x - y)) by ring. exact C. }
    intros c Vc Nc. destruct (smul oc P _ c HP Vc (fun _ => Nc)) as (X & EX & HX). destruct (l_eqb LW _ _ _ _ HX HQ) as (t & Et & Ht).
    exists X, t. split; [exact EX|]. split; [exact Et|]. rewrite Ht, zG_mul, zG_eq, <- (scalar_same r c b Vc Vb). split; intro H.
    - destruct (prime_mult r Pr x (sk c - sk b)) as [K|K]; [|contradiction|exact K].
      replace (x * (sk c - sk b)) with ((sk c * x - y) - (sk b * x - y)) by ring. apply Z.divide_sub_r; assumption.
    - replace (sk c * x - y) with (x * (sk c - sk b) + (sk b * x - y)) by ring. apply Z.divide_add_r; [apply Z.divide_mul_r|]; assumption.
  Qed.
  Lemma oprf_fooled_of P A q : point P A -> 0 < q < r -> multiple ssum szero A (Z.to_nat q) szero -> A <> szero -> oprf_fooled r mmul meqb P.
  Proof.
    intros HP H0 M NZ. apply (l_point LW) in HP. destruct HP as (A' & -> & HP). pose proof (l_on LW _ _ HP) as OA.
    apply (killed_of LW A' q OA) in M; [|lia].
    assert (Vq : valid_scalar r (mkScalar q r)) by (split; [reflexivity|cbn; lia]). assert (Nq : sk (mkScalar q r) <> 0) by (cbn; lia).
    assert (V1 : valid_scalar r (mkScalar 1 r)) by (split; [reflexivity|cbn; lia]). assert (N1 : sk (mkScalar 1 r) <> 0) by (cbn; lia).
    exists (mkScalar q r), (mkScalar 1 r). split; [split; [exact Vq|intros _; exact Nq]|]. split; [split; [exact V1|intros _; exact N1]|]. intro oc.
    destruct (c20_scalar_division r _ _ Pr Vq Vq Nq) as (_ & i & _ & _ & _ & Ei & Vi & Di).
    destruct (smul oc P _ _ HP Vq (fun _ => Nq)) as (B & EB & HB). destruct (smul oc B _ _ HB V1 (fun _ => N1)) as (E & EE & HE).
    destruct (smul oc E _ i HE Vi) as (F & EF & HF).
    { intros _ E0. rewrite E0 in Di. apply Z.divide_opp_r in Di. cbn [sk] in Di. replace (- (0 * q - 1)) with 1 in Di by ring. apply Z.divide_pos_le in Di; lia. }
    destruct (smul oc P _ _ HP V1 (fun _ => N1)) as (H & EH & HH).
    exists F, H. unfold oprf. rewrite EB. cbn [bind]. rewrite EE. cbn [bind]. rewrite Ei. cbn [bind]. split; [exact EF|]. split; [exact EH|].
    apply (eqb_diff _ _ _ _ HF HH). cbn [sk]. rewrite M, !(zmul_zero _ _ _ _ HG), (zmul_1 _ _ _ _ HG) by exact OA.
    intro E0. apply NZ. rewrite <- E0. apply (l_zero LW).
  Qed.
End Protocols.
