(** C75: key agreement over bytes. *)
From Coq Require Import ZArith Znumtheory Lia String Ascii Bool List.
From Verif.Math Require Import FinGroup.
From Verif.Spec Require Import Arith Curve Order Elements.
From Verif.Spec Require Instances.
From Verif.Model Require Import Out BigInt PrimeField Scalar CurveExtras.
From Verif.Model Require Instances.
From Verif.Model Require WCurve MCurve ECurve.
From Verif.Proofs Require Import FieldProps BytesP ScalarProps ScLaw ScLawProps OrderRun Subgroup SubgroupRun SubgroupProps Protocols ProtocolRun WireP.
From Verif.Proofs Require WeierProps MontProps EdwProps InstProps EncProps OrderProps.
From Verif.Spec Require Export Shipped Membership Wire.
Import Spec.Instances Model.Instances.
Import ListNotations.
Open Scope Z_scope.
Local Open Scope out_scope.

(** *** what the encodings provide *)
Lemma w_wire e : WPoints.weier e -> sqrt_modulus (modulus (WCurve.c_f e)) ->
  forall P A c, WPoints.wpoint e P A -> A <> Infinity -> exists buf Q, WCurve.encode P c = Ret buf /\ WCurve.decode e buf = Ret (Ok Q) /\ WPoints.wpoint e Q A.
Proof.
  intros W SM P [|x y] c HP N; [destruct N; reflexivity|]. destruct (WeierProps.c28_round_trip e P x y c W SM HP) as (buf & Q & E & D & HQ & _).
  exists buf, Q. exact (conj E (conj D HQ)).
Qed.
Lemma w_bytes e : WPoints.weier e ->
  forall P Q A B c, WPoints.wpoint e P A -> WPoints.wpoint e Q B -> A <> Infinity -> B <> Infinity -> (WCurve.encode P c = WCurve.encode Q c <-> WCurve.pt_eqb P Q = Ret true).
Proof.
  intros W P Q A B c HP HQ NA NB. rewrite (proj2 (EncProps.c57_same_bytes e P Q A B c W HP HQ)). split; [|tauto].
  intros [H|(_ & y & _ & [(H & _)|(_ & H)])]; [exact H|contradiction..].
Qed.
Lemma m_wire e : MPoints.mont e -> sqrt_modulus (modulus (MCurve.c_f e)) ->
  forall P A c, MPoints.mpoint e P A -> A <> Infinity -> exists buf Q, MCurve.encode P c = Ret buf /\ MCurve.decode e buf = Ret (Ok Q) /\ MPoints.mpoint e Q A.
Proof.
  intros W SM P [|x y] c HP N; [destruct N; reflexivity|]. destruct (MontProps.c35_round_trip e P x y c W SM HP) as (buf & Q & E & D & HQ & _).
  exists buf, Q. exact (conj E (conj D HQ)).
Qed.
Lemma m_bytes e : MPoints.mont e ->
  forall P Q A B c, MPoints.mpoint e P A -> MPoints.mpoint e Q B -> A <> Infinity -> B <> Infinity -> (MCurve.encode P c = MCurve.encode Q c <-> MCurve.pt_eqb P Q = Ret true).
Proof.
  intros W P Q A B c HP HQ NA NB. rewrite (proj2 (EncProps.c57_mont_same_bytes e P Q A B c W HP HQ)). split; [|tauto].
  intros [H|[(H & _)|(_ & H)]]; [exact H|contradiction..].
Qed.
Lemma e_wire e : EPoints.edw e -> sqrt_modulus (modulus (ECurve.c_f e)) ->
  forall P A c, EPoints.epoint e P A -> A <> (0, 1) -> exists buf Q, ECurve.encode P c = Ret buf /\ ECurve.decode e buf = Ret (Ok Q) /\ EPoints.epoint e Q A.
Proof.
  intros W SM P A c HP _. destruct (EdwProps.c39_round_trip e P A c W SM HP) as (buf & Q & E & D & HQ & _).
  exists buf, Q. exact (conj E (conj D HQ)).
Qed.
Lemma e_bytes e : EPoints.edw e ->
  forall P Q A B c, EPoints.epoint e P A -> EPoints.epoint e Q B -> A <> (0, 1) -> B <> (0, 1) -> (ECurve.encode P c = ECurve.encode Q c <-> ECurve.pt_eqb P Q = Ret true).
Proof. intros W P Q A B c HP HQ _ _. exact (proj2 (EncProps.c57_edw_same_bytes e P Q A B c c W HP HQ)). Qed.

(** *** a run gives both ends the same bytes, on any curve with a base point of prime order *)
Lemma c75_any_curve : forall e MG G, WPoints.wgroup e -> prime (WCurve.c_r e) -> WPoints.wpoint e MG G ->
  (forall n, multiple (WPoints.wsum e) Infinity G n Infinity <-> (WCurve.c_r e | Z.of_nat n)) ->
  agrees (WPoints.wpoint e) (WPoints.wsum e) Infinity (WCurve.c_r e) WCurve.pt_mul WCurve.encode (WCurve.decode e) MG G
  /\ key_exact (WCurve.c_r e) WCurve.pt_mul WCurve.encode (WCurve.decode e) MG.
Proof.
  intros e MG G (W & SM & _ & L & _) Pr HG HM. pose proof (weier_laws e W L) as HL. open_laws HL LW. apply (l_point LW) in HG. destruct HG as (G' & -> & HG).
  split; [exact (agrees_law LW _ _ (w_wire e W SM) (w_bytes e W) MG G' HG Pr HM)|exact (key_exact_law LW _ _ (w_wire e W SM) (w_bytes e W) MG G' HG Pr HM)].
Qed.
Lemma c75_mont_any_curve : forall e MG G, MPoints.mgroup e -> prime (MCurve.c_r e) -> MPoints.mpoint e MG G ->
  (forall n, multiple (MPoints.msum e) Infinity G n Infinity <-> (MCurve.c_r e | Z.of_nat n)) ->
  agrees (MPoints.mpoint e) (MPoints.msum e) Infinity (MCurve.c_r e) MCurve.pt_mul MCurve.encode (MCurve.decode e) MG G
  /\ key_exact (MCurve.c_r e) MCurve.pt_mul MCurve.encode (MCurve.decode e) MG.
Proof.
  intros e MG G (W & SM & _ & L & _) Pr HG HM. pose proof (mont_laws e W L) as HL. open_laws HL LW. apply (l_point LW) in HG. destruct HG as (G' & -> & HG).
  split; [exact (agrees_law LW _ _ (m_wire e W SM) (m_bytes e W) MG G' HG Pr HM)|exact (key_exact_law LW _ _ (m_wire e W SM) (m_bytes e W) MG G' HG Pr HM)].
Qed.
Lemma c75_edw_any_curve : forall e MG G, EPoints.egroup e -> prime (ECurve.c_r e) -> EPoints.epoint e MG G ->
  (forall n, multiple (EPoints.esum e) (0, 1) G n (0, 1) <-> (ECurve.c_r e | Z.of_nat n)) ->
  agrees (EPoints.epoint e) (EPoints.esum e) (0, 1) (ECurve.c_r e) ECurve.pt_mul ECurve.encode (ECurve.decode e) MG G
  /\ key_exact (ECurve.c_r e) ECurve.pt_mul ECurve.encode (ECurve.decode e) MG.
Proof.
  intros e MG G (W & SM & _ & L & _) Pr HG HM. pose proof (edw_laws e W L) as HL. open_laws HL LW. apply (l_point LW) in HG. destruct HG as (G' & -> & HG).
  split; [exact (agrees_law LW _ _ (e_wire e W SM) (e_bytes e W) MG G' HG Pr HM)|exact (key_exact_law LW _ _ (e_wire e W SM) (e_bytes e W) MG G' HG Pr HM)].
Qed.

(** *** in particular on the shipped curves, with the base point they return *)
Lemma c75_shipped : forall X s, In (X, s) w_curves -> exists e MG, X = Ret e /\ WCurve.get_generator e = Ret MG
  /\ agrees (WPoints.wpoint e) (WPoints.wsum e) Infinity (w_get_order e) WCurve.pt_mul WCurve.encode (WCurve.decode e) MG (Affine (w_gx s) (w_gy s))
  /\ key_exact (w_get_order e) WCurve.pt_mul WCurve.encode (WCurve.decode e) MG.
Proof.
  intros X s HI. destruct (w_all X s HI) as (e & HX & _ & _ & _ & Er & _ & _ & Pr & WG & MG & EG & HG & HM). rewrite <- Er in *.
  exists e, MG. split; [exact HX|]. split; [exact EG|]. exact (c75_any_curve e MG _ WG Pr HG HM).
Qed.
Lemma c75_mont_shipped : forall X s, In (X, s) m_curves -> exists e MG, X = Ret e /\ MCurve.get_generator e = Ret MG
  /\ agrees (MPoints.mpoint e) (MPoints.msum e) Infinity (m_get_order e) MCurve.pt_mul MCurve.encode (MCurve.decode e) MG (Affine (m_gx s) (m_gy s))
  /\ key_exact (m_get_order e) MCurve.pt_mul MCurve.encode (MCurve.decode e) MG.
Proof.
  intros X s HI. destruct (m_all X s HI) as (e & HX & _ & _ & _ & _ & Er & _ & _ & Pr & WG & MG & EG & HG & HM). rewrite <- Er in *.
  exists e, MG. split; [exact HX|]. split; [exact EG|]. exact (c75_mont_any_curve e MG _ WG Pr HG HM).
Qed.
Lemma c75_edw_shipped : forall X s, In (X, s) e_curves -> exists e MG, X = Ret e /\ ECurve.get_generator e = Ret MG
  /\ agrees (EPoints.epoint e) (EPoints.esum e) (0, 1) (e_get_order e) ECurve.pt_mul ECurve.encode (ECurve.decode e) MG (e_gx s, e_gy s)
  /\ key_exact (e_get_order e) ECurve.pt_mul ECurve.encode (ECurve.decode e) MG.
Proof.
  intros X s HI. destruct (e_all X s HI) as (e & HX & _ & _ & _ & Er & _ & _ & Pr & WG & MG & EG & HG & HM). rewrite <- Er in *.
  exists e, MG. split; [exact HX|]. split; [exact EG|]. exact (c75_edw_any_curve e MG _ WG Pr HG HM).
Qed.

(** *** against a peer that sends any bytes it likes: on the curves of prime order each key still decides the result *)
Lemma w_contributory e MG G : WPoints.wgroup e -> prime (WCurve.c_r e) -> WPoints.wpoint e MG G ->
  (forall n, multiple (WPoints.wsum e) Infinity G n Infinity <-> (WCurve.c_r e | Z.of_nat n)) ->
  (forall A, WPoints.won e A -> generated (WPoints.wsum e) Infinity G (WCurve.c_r e) A) ->
  contributory (WCurve.c_r e) WCurve.pt_mul WCurve.encode (WCurve.decode e) WCurve.pt_is_zero.
Proof.
  intros (W & SM & _ & L & _) Pr HG HM HA. pose proof (weier_laws e W L) as HL. open_laws HL LW. apply (l_point LW) in HG. destruct HG as (G' & -> & HG).
  refine (contributory_law LW _ _ (w_wire e W SM) (w_bytes e W) MG G' HG Pr HM _ _ _).
  - intros P A HP Z. destruct (WeierProps.c27_is_zero e P A W HP) as (_ & _ & _ & H & _). apply H, Z.
  - intros buf Q B D. assert (p0 : 0 < modulus (WCurve.c_f e)) by (destruct W; lia).
    destruct (proj1 (WeierProps.c29_decode_ok e buf _ W SM B (size_byte_size _ p0)) Q D) as (c & x & y & _ & O & HQ). exists (Affine x y). split; [exact HQ|]. split; [discriminate|exact (HA _ O)].
Qed.
Lemma c75_contributory : forall X s, In (X, s) prime_curves -> exists e, X = Ret e
  /\ contributory (w_get_order e) WCurve.pt_mul WCurve.encode (WCurve.decode e) WCurve.pt_is_zero.
Proof.
  intros X s HI. destruct (OrderProps.c55_generator X s HI) as (e' & HX' & HA).
  destruct (w_all X s (in_or_app _ _ _ (or_introl HI))) as (e & HX & _ & _ & _ & Er & _ & _ & Pr & WG & MG & EG & HG & HM). rewrite HX in HX'. injection HX' as <-. rewrite <- Er in *.
  exists e. split; [exact HX|]. apply (w_contributory e MG _ WG Pr HG HM). intros A O. destruct (HA A O) as (j & Hj & _). exists j. exact Hj.
Qed.
(** *** on the others a peer can force the identity on the keys divisible by 3 or 2 *)
Lemma sec1_bytes n x y c buf : sec1 n x y c buf -> Forall is_byte buf.
Proof.
  intros [bx (_ & B & _)|bx by_ (_ & B & _) (_ & B' & _)]; constructor; try (apply Forall_app; split; assumption); try assumption; unfold is_byte; [destruct (Z.even y)|]; lia.
Qed.
Lemma c75_contributory_refuted : exists e, BLS12381G1 = Ret e
  /\ not_contributory (WPoints.wpoint e) Infinity (w_get_order e) WCurve.pt_mul (WCurve.decode e) 3.
Proof.
  destruct InstProps.c48_BLS12381G1 as (e & HX & Ep & _ & _ & Er & _ & _ & Pr & (W & SM & _ & L & _) & _). exists e. split; [exact HX|].
  assert (R : 0 < 3 < w_r std_BLS12381G1) by (split; vm_compute; reflexivity). rewrite <- Er in R.
  destruct (bls_small e HX W Ep) as ((P & HP) & M). pose proof (weier_laws e W L) as HL. open_laws HL LW.
  refine (small_law LW _ _ (w_wire e W SM) P _ 3 HP ltac:(discriminate) R M _). intros buf c E. assert (p0 : 0 < modulus (WCurve.c_f e)) by (destruct W; lia).
  destruct (WeierProps.c28_encode e P _ _ c _ W HP (size_byte_size _ p0)) as (buf' & E' & S). rewrite E in E'. injection E' as <-. exact (sec1_bytes _ _ _ _ _ S).
Qed.
Lemma c75_mont_contributory_refuted : forall X s, In (X, s) m_curves -> exists e, X = Ret e
  /\ not_contributory (MPoints.mpoint e) Infinity (m_get_order e) MCurve.pt_mul (MCurve.decode e) 2.
Proof.
  intros X s HI. assert (R : 0 < 2 < m_r s) by (revert X s HI; apply (all_m (fun _ s => 0 < 2 < m_r s)); split; vm_compute; reflexivity).
  destruct (m_all X s HI) as (e & HX & Ep & _ & _ & _ & Er & _ & _ & Pr & (W & SM & _ & L & _) & _). exists e. split; [exact HX|]. rewrite <- Er in R.
  destruct (mont_small X s e HX W Ep) as ((P & HP) & M). pose proof (mont_laws e W L) as HL. open_laws HL LW.
  refine (small_law LW _ _ (m_wire e W SM) P _ 2 HP ltac:(discriminate) R M _). intros buf c E. assert (p0 : 0 < modulus (MCurve.c_f e)) by (destruct W; lia).
  destruct (MontProps.c35_encode e P _ _ c _ W HP (size_byte_size _ p0)) as (buf' & E' & S). rewrite E in E'. injection E' as <-. exact (sec1_bytes _ _ _ _ _ S).
Qed.
Lemma c75_edw_contributory_refuted : forall X s, In (X, s) e_curves -> exists e, X = Ret e
  /\ not_contributory (EPoints.epoint e) (0, 1) (e_get_order e) ECurve.pt_mul (ECurve.decode e) 2.
Proof.
  intros X s HI. assert (R : 0 < 2 < e_r s) by (revert X s HI; apply (all_e (fun _ s => 0 < 2 < e_r s)); split; vm_compute; reflexivity).
  assert (p2 : 2 < e_p s) by (revert X s HI R; apply (all_e (fun _ s => 0 < 2 < e_r s -> 2 < e_p s)); intros _; vm_compute; reflexivity).
  destruct (e_all X s HI) as (e & HX & Ep & _ & _ & Er & _ & _ & Pr & (W & SM & _ & L & _) & _). exists e. split; [exact HX|]. rewrite <- Er in R.
  destruct (edw_small X s p2 e HX W Ep) as ((P & HP) & M). pose proof (edw_laws e W L) as HL. open_laws HL LW.
  refine (small_law LW _ _ (e_wire e W SM) P _ 2 HP ltac:(intro H; injection H; lia) R M _). intros buf c E. rewrite <- Ep in p2.
  destruct (EdwProps.c39_encode e P _ _ c _ W HP (proj2 (EdwProps.c39_size _ _ p2) eq_refl)) as (buf' & E' & (_ & B & _)). rewrite E in E'. injection E' as <-. exact B.
Qed.

(** y^2 = x^3 + x + 6 over F_7, base point (1, 1) of prime order 11: the keys 3 and 5 give 15 G = 4 G = (4, 5), whatever the forms sent;
    with the bytes of (1, 1) the ten keys give ten different results; an x that is too large is refused, one byte makes decode panic.
    y^2 = x^3 + 6 x^2 + x over F_19: the bytes 2, 0 are accepted as (0, 0), which the key 2 sends to the identity *)
Example c75_ex :
  let sc x := mkScalar x 11 in let e := WeierProps.E7 in let done b k := finish WCurve.pt_mul WCurve.encode (WCurve.decode e) true b (sc k) true in
  map (fun c => exchange WCurve.pt_mul WCurve.encode (WCurve.decode e) true false (fst c) (snd c) false (WeierProps.pt7 1 1 1) (sc 3) (sc 5)) (list_prod [true; false] [true; false])
    = repeat (Ret (Some [4; 4; 5], Some [4; 4; 5])) 4
  /\ (P <- WCurve.pt_mul true (WeierProps.pt7 1 1 1) (sc 4) ;; WCurve.encode P false) = Ret [4; 4; 5]
  /\ map (done [3; 1]) [1; 2; 3; 4; 5; 6; 7; 8; 9; 10]
    = map (fun s => Ret (Some s)) [[3; 1]; [2; 2]; [3; 6]; [3; 4]; [3; 3]; [2; 3]; [2; 4]; [2; 6]; [3; 2]; [2; 1]]
  /\ done [2; 9] 3 = Ret None /\ done [0] 3 = Panic "range end index out of range for slice"
  /\ (Q <- MCurve.decode MontProps.E19 [2; 0] ;; match Q with Ok Q => P <- MCurve.pt_mul true Q (mkScalar 2 5) ;; Ret (MCurve.pt_is_zero Q, MCurve.pt_is_zero P) | Err m => Panic m end) = Ret (false, true).
Proof. vm_compute. repeat split. Qed.
