(** C60: is a point a multiple of the base point? Tests a caller can write with the API. *)
From Coq Require Import ZArith Znumtheory Lia String Ascii Bool List.
From Verif.Spec Require Import Arith Curve Order.
From Verif.Spec Require Instances.
From Verif.Model Require Import Out BigInt PrimeField Scalar CurveExtras.
From Verif.Model Require Instances.
From Verif.Model Require WCurve MCurve ECurve.
From Verif.Proofs Require Import FieldProps ScalarProps ScLaw ScLawProps OrderRun Subgroup SubgroupRun.
From Verif.Proofs Require WeierProps MontProps EdwProps InstProps OrderProps.
From Verif.Spec Require Export Shipped Membership.
Import Spec.Instances Model.Instances.
Import ListNotations.
Open Scope Z_scope.

Lemma w_of_order X s n : w_shipped X s -> w_order X s n -> 0 <= w_h s -> Z.gcd (w_h s) (w_r s) = 1 -> w_member_test X s.
Proof. intros HS (e & HX & _ & HC & _) H0 H1. exact (w_member_of X s (w_h s) HS H0 H1 (ex_intro _ e (conj HX HC))). Qed.
Lemma m_of_order X s n : m_shipped X s -> m_order X s n -> 0 <= m_h s -> Z.gcd (m_h s) (m_r s) = 1 -> m_member_test X s.
Proof. intros HS (e & HX & _ & HC & _) H0 H1. exact (m_member_of X s (m_h s) HS H0 H1 (ex_intro _ e (conj HX HC))). Qed.
Lemma e_of_order X s n : e_shipped X s -> e_order X s n -> 0 <= e_h s -> Z.gcd (e_h s) (e_r s) = 1 -> e_member_test X s.
Proof. intros HS (e & HX & _ & HC & _) H0 H1. exact (e_member_of X s (e_h s) HS H0 H1 (ex_intro _ e (conj HX HC))). Qed.
Ltac nn := vm_compute; discriminate.
Lemma all_w (Q : out WCurve.Curve -> weierstrass -> Prop) : Q P256 std_P256 -> Q P384 std_P384 -> Q P521 std_P521 -> Q SECP256K1 std_SECP256K1 -> Q SECP256K1_3ISO std_SECP256K1_3ISO ->
  Q BLS12381G1 std_BLS12381G1 -> Q BLS12381G1_11ISO std_BLS12381G1_11ISO -> forall X s, In (X, s) w_curves -> Q X s.
Proof.
  intros H1 H2 H3 H4 H5 H6 H7 X s H.
  assert (F : Forall (fun c => Q (fst c) (snd c)) w_curves) by (repeat (apply Forall_cons; [assumption|]); apply Forall_nil).
  rewrite Forall_forall in F. exact (F (X, s) H).
Qed.
Lemma all_m (Q : out MCurve.Curve -> montgomery -> Prop) : Q CURVE25519 std_CURVE25519 -> Q CURVE448 std_CURVE448 -> forall X s, In (X, s) m_curves -> Q X s.
Proof.
  intros H1 H2 X s H. assert (F : Forall (fun c => Q (fst c) (snd c)) m_curves) by (repeat (apply Forall_cons; [assumption|]); apply Forall_nil).
  rewrite Forall_forall in F. exact (F (X, s) H).
Qed.
Lemma all_e (Q : out ECurve.Curve -> edwards -> Prop) : Q EDWARDS25519 std_EDWARDS25519 -> Q EDWARDS448 std_EDWARDS448 -> forall X s, In (X, s) e_curves -> Q X s.
Proof.
  intros H1 H2 X s H. assert (F : Forall (fun c => Q (fst c) (snd c)) e_curves) by (repeat (apply Forall_cons; [assumption|]); apply Forall_nil).
  rewrite Forall_forall in F. exact (F (X, s) H).
Qed.

(** *** on any curve of the right kind whose cofactor h is prime to the order, P times (order - 1) equals -P exactly when
    P is a multiple of the base point G *)
Lemma c60_any_curve : forall e h MG G, WPoints.weier e -> Z.log2 (WCurve.c_r e) < 2 ^ 63 -> 1 < WCurve.c_r e -> 0 <= h -> Z.gcd h (WCurve.c_r e) = 1 ->
  WPoints.wpoint e MG G -> multiple (WPoints.wsum e) Infinity G (Z.to_nat (WCurve.c_r e)) Infinity -> clears (WPoints.won e) (WPoints.wsum e) Infinity G h (WCurve.c_r e) ->
  exists k, WCurve.new_scalar e (w_get_order e - 1) = Ret k
  /\ forall oc P A, WPoints.wpoint e P A -> exists S T b, WCurve.pt_mul oc P k = Ret S /\ WCurve.pt_neg P = Ret T /\ WCurve.pt_eqb S T = Ret b
     /\ (b = true <-> generated (WPoints.wsum e) Infinity G (WCurve.c_r e) A).
Proof.
  intros e h MG G W L r1 h0 Hg HG HM HC. exists (mkScalar (WCurve.c_r e - 1) (WCurve.c_r e)). split; [apply small_scalar; unfold w_get_order; lia|].
  intros oc P A HP. pose proof (weier_laws e W L) as HL. open_laws HL LW. apply (l_point LW) in HG. destruct HG as (G' & -> & HG).
  apply (member_test LW MG G' HG r1 HM h h0 Hg oc P A HP). apply HC. apply HP.
Qed.
Lemma c60_mont_any_curve : forall e h MG G, MPoints.mont e -> Z.log2 (MCurve.c_r e) < 2 ^ 63 -> 1 < MCurve.c_r e -> 0 <= h -> Z.gcd h (MCurve.c_r e) = 1 ->
  MPoints.mpoint e MG G -> multiple (MPoints.msum e) Infinity G (Z.to_nat (MCurve.c_r e)) Infinity -> clears (MPoints.mon e) (MPoints.msum e) Infinity G h (MCurve.c_r e) ->
  exists k, MCurve.new_scalar e (m_get_order e - 1) = Ret k
  /\ forall oc P A, MPoints.mpoint e P A -> exists S T b, MCurve.pt_mul oc P k = Ret S /\ MCurve.pt_neg P = Ret T /\ MCurve.pt_eqb S T = Ret b
     /\ (b = true <-> generated (MPoints.msum e) Infinity G (MCurve.c_r e) A).
Proof.
  intros e h MG G W L r1 h0 Hg HG HM HC. exists (mkScalar (MCurve.c_r e - 1) (MCurve.c_r e)). split; [apply small_scalar; unfold m_get_order; lia|].
  intros oc P A HP. pose proof (mont_laws e W L) as HL. open_laws HL LW. apply (l_point LW) in HG. destruct HG as (G' & -> & HG).
  apply (member_test LW MG G' HG r1 HM h h0 Hg oc P A HP). apply HC. apply HP.
Qed.
Lemma c60_edw_any_curve : forall e h MG G, EPoints.edw e -> Z.log2 (ECurve.c_r e) < 2 ^ 63 -> 1 < ECurve.c_r e -> 0 <= h -> Z.gcd h (ECurve.c_r e) = 1 ->
  EPoints.epoint e MG G -> multiple (EPoints.esum e) (0, 1) G (Z.to_nat (ECurve.c_r e)) (0, 1) -> clears (EPoints.eon e) (EPoints.esum e) (0, 1) G h (ECurve.c_r e) ->
  exists k, ECurve.new_scalar e (e_get_order e - 1) = Ret k
  /\ forall oc P A, EPoints.epoint e P A -> exists S T b, ECurve.pt_mul oc P k = Ret S /\ ECurve.pt_neg P = Ret T /\ ECurve.pt_eqb S T = Ret b
     /\ (b = true <-> generated (EPoints.esum e) (0, 1) G (ECurve.c_r e) A).
Proof.
  intros e h MG G W L r1 h0 Hg HG HM HC. exists (mkScalar (ECurve.c_r e - 1) (ECurve.c_r e)). split; [apply small_scalar; unfold e_get_order; lia|].
  intros oc P A HP. pose proof (edw_laws e W L) as HL. open_laws HL LW. apply (l_point LW) in HG. destruct HG as (G' & -> & HG).
  apply (member_test LW MG G' HG r1 HM h h0 Hg oc P A HP). apply HC. apply HP.
Qed.

(** *** in particular on the shipped curves *)
Lemma c60_membership : forall X s, In (X, s) w_curves -> w_member_test X s.
Proof.
  apply all_w.
  - exact (w_of_order _ _ _ InstProps.c48_P256 (proj1 OrderProps.c55_P256) ltac:(nn) ltac:(done_vm)).
  - exact (w_of_order _ _ _ InstProps.c48_P384 (proj1 OrderProps.c55_P384) ltac:(nn) ltac:(done_vm)).
  - exact (w_of_order _ _ _ InstProps.c48_P521 (proj1 OrderProps.c55_P521) ltac:(nn) ltac:(done_vm)).
  - exact (w_of_order _ _ _ InstProps.c48_SECP256K1 (proj1 OrderProps.c55_SECP256K1) ltac:(nn) ltac:(done_vm)).
  - exact (w_of_order _ _ _ InstProps.c48_SECP256K1_3ISO (proj1 OrderProps.c55_SECP256K1_3ISO) ltac:(nn) ltac:(done_vm)).
  - exact (w_of_order _ _ _ InstProps.c48_BLS12381G1 (proj1 OrderProps.c55_BLS12381G1) ltac:(nn) ltac:(done_vm)).
  - destruct OrderProps.c55_BLS12381G1_11ISO as (e & HX & _ & HC & _).
    exact (w_member_of _ _ (11 * w_h std_BLS12381G1_11ISO) InstProps.c48_BLS12381G1_11ISO ltac:(nn) ltac:(done_vm) (ex_intro _ e (conj HX HC))).
Qed.
Lemma c60_mont_membership : forall X s, In (X, s) m_curves -> m_member_test X s.
Proof.
  apply all_m.
  - exact (m_of_order _ _ _ InstProps.c48_CURVE25519 (proj1 OrderProps.c55_CURVE25519) ltac:(nn) ltac:(done_vm)).
  - exact (m_of_order _ _ _ InstProps.c48_CURVE448 (proj1 OrderProps.c55_CURVE448) ltac:(nn) ltac:(done_vm)).
Qed.
Lemma c60_edw_membership : forall X s, In (X, s) e_curves -> e_member_test X s.
Proof.
  apply all_e.
  - exact (e_of_order _ _ _ InstProps.c48_EDWARDS25519 (proj1 OrderProps.c55_EDWARDS25519) ltac:(nn) ltac:(done_vm)).
  - exact (e_of_order _ _ _ InstProps.c48_EDWARDS448 (proj1 OrderProps.c55_EDWARDS448) ltac:(nn) ltac:(done_vm)).
Qed.

(** *** the order itself makes the zero scalar *)
Lemma c60_order_scalar : forall X s, In (X, s) w_curves -> w_order_scalar X.
Proof.
  apply (all_w (fun X _ => w_order_scalar X)).
  - exact (w_order_scalar_of _ _ InstProps.c48_P256).
  - exact (w_order_scalar_of _ _ InstProps.c48_P384).
  - exact (w_order_scalar_of _ _ InstProps.c48_P521).
  - exact (w_order_scalar_of _ _ InstProps.c48_SECP256K1).
  - exact (w_order_scalar_of _ _ InstProps.c48_SECP256K1_3ISO).
  - exact (w_order_scalar_of _ _ InstProps.c48_BLS12381G1).
  - exact (w_order_scalar_of _ _ InstProps.c48_BLS12381G1_11ISO).
Qed.
Lemma c60_mont_order_scalar : forall X s, In (X, s) m_curves -> m_order_scalar X.
Proof. apply (all_m (fun X _ => m_order_scalar X)); [exact (m_order_scalar_of _ _ InstProps.c48_CURVE25519)|exact (m_order_scalar_of _ _ InstProps.c48_CURVE448)]. Qed.
Lemma c60_edw_order_scalar : forall X s, In (X, s) e_curves -> e_order_scalar X.
Proof. apply (all_e (fun X _ => e_order_scalar X)); [exact (e_order_scalar_of _ _ InstProps.c48_EDWARDS25519)|exact (e_order_scalar_of _ _ InstProps.c48_EDWARDS448)]. Qed.

(** points of small order *)
Definition w_small (X : out WCurve.Curve) (s : weierstrass) (A : apoint) (q : Z) : Prop :=
  forall e, X = Ret e -> WPoints.weier e -> modulus (WCurve.c_f e) = w_p s -> (exists P, WPoints.wpoint e P A) /\ multiple (WPoints.wsum e) Infinity A (Z.to_nat q) Infinity.
Definition m_small (X : out MCurve.Curve) (s : montgomery) (A : apoint) (q : Z) : Prop :=
  forall e, X = Ret e -> MPoints.mont e -> modulus (MCurve.c_f e) = m_p s -> (exists P, MPoints.mpoint e P A) /\ multiple (MPoints.msum e) Infinity A (Z.to_nat q) Infinity.
Definition e_small (X : out ECurve.Curve) (s : edwards) (A : Z * Z) (q : Z) : Prop :=
  forall e, X = Ret e -> EPoints.edw e -> modulus (ECurve.c_f e) = e_p s -> (exists P, EPoints.epoint e P A) /\ multiple (EPoints.esum e) (0, 1) A (Z.to_nat q) (0, 1).
Lemma bls_small : w_small BLS12381G1 std_BLS12381G1 (Affine 0 2) 3.
Proof.
  pose proof InstProps.c48_BLS12381G1 as HS.
  destruct HS as (e0 & HX0 & Ep0 & Ea & Eb & _ & _ & Hp & _).
  intros e HX W Ep. rewrite HX0 in HX. injection HX as <-. change (w_a std_BLS12381G1) with 0 in Ea. change (w_b std_BLS12381G1) with 4 in Eb.
  assert (p4 : 4 < w_p std_BLS12381G1) by done_vm. set (p := w_p std_BLS12381G1) in *. clearbody p. rewrite Z.mod_0_l in Ea by lia. rewrite Z.mod_small in Eb by lia.
  assert (O : WPoints.won e0 (Affine 0 2)).
  { unfold WPoints.won. cbn [on_cubic]. rewrite Ep, Ea, Eb. unfold coord. split; [lia|]. split; [lia|]. exists 0. reflexivity. }
  split.
  - assert (V : forall z, 0 <= z < p -> valid (modulus (WCurve.c_f e0)) (mkFpElt z (WCurve.c_f e0))).
    { intros z Hz. unfold valid. cbn [val fld]. rewrite Ep. split; [rewrite <- Ep; destruct (WCurve.c_f e0); reflexivity|lia]. }
    destruct (proj1 (WeierProps.c23_new_point e0 (mkFpElt 0 (WCurve.c_f e0)) (mkFpElt 2 (WCurve.c_f e0)) W (V 0 ltac:(lia)) (V 2 ltac:(lia))) O) as (P & _ & HP).
    exists P. exact HP.
  - change (Z.to_nat 3) with 3%nat. apply (mult_S _ _ _ _ (Affine 0 (p - 2))).
    + apply (mult_S _ _ _ _ (Affine 0 2)).
      * apply (mult_S _ _ _ _ Infinity); [apply mult_O|apply ct_left].
      * unfold WPoints.wsum. rewrite Ep, Ea. apply (ct_tangent _ _ _ _ 0 2 0); [intro D; apply Z.divide_pos_le in D; lia|exists 0; reflexivity|].
        unfold third_point, coord. split; [lia|]. split; [lia|]. split; [exists 0; reflexivity|exists 1; ring].
    + unfold WPoints.wsum. rewrite Ep. apply ct_opposite. exists 1. ring.
Qed.
Lemma mont_small X s : m_small X s (Affine 0 0) 2.
Proof.
  intros e HX W Ep. split.
  - assert (p2 : 2 < modulus (MCurve.c_f e)) by apply W.
    assert (V : valid (modulus (MCurve.c_f e)) (mkFpElt 0 (MCurve.c_f e))).
    { unfold valid. cbn [val fld]. split; [destruct (MCurve.c_f e); reflexivity|lia]. }
    destruct (proj1 (MontProps.c33_new_point e _ _ W V V)) as (P & _ & HP).
    + unfold MPoints.mon. cbn [on_cubic val]. unfold coord. split; [lia|]. split; [lia|]. exists 0. ring.
    + exists P. exact HP.
  - exact (even_multiple e 1).
Qed.
Lemma edw_small X s : 2 < e_p s -> e_small X s (0, e_p s - 1) 2.
Proof.
  intro p2. intros e HX W Ep.
  set (p := e_p s) in *. clearbody p. split.
  - assert (V : forall z, 0 <= z < p -> valid (modulus (ECurve.c_f e)) (mkFpElt z (ECurve.c_f e))).
    { intros z Hz. unfold valid. cbn [val fld]. rewrite Ep. split; [rewrite <- Ep; destruct (ECurve.c_f e); reflexivity|lia]. }
    destruct (proj1 (EdwProps.c36_new_point e _ _ W (V 0 ltac:(lia)) (V (p - 1) ltac:(lia)))) as (P & _ & HP).
    + unfold EPoints.eon. cbn [on_edwards val]. rewrite Ep. unfold coord. split; [lia|]. split; [lia|]. exists (p - 2). ring.
    + exists P. exact HP.
  - change (Z.to_nat 2) with 2%nat.
    assert (N1 : forall u, ~ (p | 1 + u * 0)) by (intros u D; apply Z.divide_pos_le in D; lia).
    assert (N2 : forall u, ~ (p | 1 - u * 0)) by (intros u D; apply Z.divide_pos_le in D; lia).
    apply (mult_S _ _ _ _ (0, p - 1)); [apply (mult_S _ _ _ _ (0, 1)); [apply mult_O|]|]; unfold EPoints.esum; cbn [edwards_sum]; rewrite Ep; unfold coord;
      (split; [lia|]; split; [lia|]; split; [intro D; apply Z.divide_pos_le in D; lia|]; split; [intro D; apply Z.divide_pos_le in D; lia|]; split).
    + exists 0. ring.
    + exists 0. ring.
    + exists 0. ring.
    + exists (2 - p). ring.
Qed.

(** *** so 'P times order is the identity' does not decide membership *)
(** a point of order 3 of BLS12-381 G1 *)
Lemma c60_order_check_refuted : w_order_fooled BLS12381G1 std_BLS12381G1 (Affine 0 2).
Proof. apply (w_fooled_of _ _ _ 3 InstProps.c48_BLS12381G1); [lia|done_vm|discriminate|exact bls_small]. Qed.
(** (0,0) on the Montgomery curves *)
Lemma c60_mont_order_check_refuted : forall X s, In (X, s) m_curves -> m_order_fooled X s (Affine 0 0).
Proof.
  assert (H : forall X s, m_shipped X s -> Z.gcd 2 (m_r s) = 1 -> m_order_fooled X s (Affine 0 0)).
  { intros X s HS Hg. apply (m_fooled_of _ _ _ 2 HS); [lia|exact Hg|discriminate|apply mont_small]. }
  apply all_m; [exact (H _ _ InstProps.c48_CURVE25519 ltac:(done_vm))|exact (H _ _ InstProps.c48_CURVE448 ltac:(done_vm))].
Qed.
(** (0,-1) on the Edwards curves *)
Lemma c60_edw_order_check_refuted : forall X s, In (X, s) e_curves -> e_order_fooled X s (0, e_p s - 1).
Proof.
  assert (H : forall X s, e_shipped X s -> Z.gcd 2 (e_r s) = 1 -> e_order_fooled X s (0, e_p s - 1)).
  { intros X s HS Hg. assert (p2 : 2 < e_p s) by (destruct HS as (e & _ & <- & _ & _ & _ & _ & _ & _ & (W & _) & _); apply W).
    apply (e_fooled_of _ _ _ 2 HS); [lia|exact Hg|intro E; injection E; lia|exact (edw_small X s p2)]. }
  apply all_e; [exact (H _ _ InstProps.c48_EDWARDS25519 ltac:(done_vm))|exact (H _ _ InstProps.c48_EDWARDS448 ltac:(done_vm))].
Qed.

(** *** concrete runs on small curves *)
(** y^2 = x^3 + ..., order 5, cofactor 4 (Montgomery): the test, the naive check, and whether 5 P is the identity when
    computed with repeated additions, for all points *)
Definition all19 : list (Z * Z) := flat_map (fun x => map (fun y => (Z.of_nat x, Z.of_nat y)) (seq 0 19)) (seq 0 19).
Open Scope out_scope.
Definition sort19 (xy : Z * Z) : option (bool * bool * bool) :=
  let e := MontProps.E19 in
  match (P <- MCurve.new_point e (mkFpElt (fst xy) (mkFp 19)) (mkFpElt (snd xy) (mkFp 19)) ;;
         k <- MCurve.new_scalar e (m_get_order e - 1) ;; A <- MCurve.pt_mul true P k ;; B <- MCurve.pt_neg P ;; t <- MCurve.pt_eqb A B ;;
         z <- MCurve.new_scalar e (m_get_order e) ;; N <- MCurve.pt_mul false P z ;;
         P2 <- MCurve.pt_add P P ;; P4 <- MCurve.pt_add P2 P2 ;; P5 <- MCurve.pt_add P4 P ;; Ret (t, MCurve.pt_is_zero N, MCurve.pt_is_zero P5)) with
  | Ret r => Some r
  | Panic _ => None
  end.
Definition how_many (r : bool * bool * bool) : nat := List.length (filter (fun xy => match sort19 xy with Some (a, b, c) => let '(a', b', c') := r in Bool.eqb a a' && Bool.eqb b b' && Bool.eqb c c' | None => false end) all19).
(** 4 affine points pass the test, and they are the ones of order 5; the other 15 fail it, but the naive check accepts them *)
Example c60_mont_ex : how_many (true, true, true) = 4%nat /\ how_many (false, true, false) = 15%nat
  /\ List.length (filter (fun xy => match sort19 xy with Some _ => true | None => false end) all19) = 19%nat.
Proof. split; [|split]; done_vm. Qed.
(** -x^2 + y^2 = 1 + 2 x^2 y^2 modulo 29, order 7, cofactor 4: the base point passes, (0,-1) does not, the naive check accepts both *)
Example c60_edw_ex : map (fun xy : Z * Z => let e := EdwProps.E29 in
    P <- ECurve.new_point e (mkFpElt (fst xy) (mkFp 29)) (mkFpElt (snd xy) (mkFp 29)) ;;
    k <- ECurve.new_scalar e (e_get_order e - 1) ;; A <- ECurve.pt_mul true P k ;; B <- ECurve.pt_neg P ;; t <- ECurve.pt_eqb A B ;;
    z <- ECurve.new_scalar e (e_get_order e) ;; N <- ECurve.pt_mul false P z ;; Ret (t, ECurve.pt_is_zero N)) [(2, 22); (0, 28)]
  = [Ret (true, true); Ret (false, true)].
Proof. done_vm. Qed.
(** y^2 = x^3 + x + 6 modulo 7, order 11, cofactor 1: 10 P = -P, and 11 P is computed as 0 P *)
Example c60_ex : (let e := WeierProps.E7 in P <- WCurve.get_generator e ;; k <- WCurve.new_scalar e (w_get_order e - 1) ;;
    A <- WCurve.pt_mul true P k ;; B <- WCurve.pt_neg P ;; t <- WCurve.pt_eqb A B ;;
    z <- WCurve.new_scalar e (w_get_order e) ;; N <- WCurve.pt_mul false P z ;; Ret (t, WCurve.pt_is_zero N, WCurve.pt_mul true P z))
  = Ret (true, true, Panic "attempt to subtract with overflow").
Proof. done_vm. Qed.
