(** Proofs for C61 and C62: the protocols on each kind of curve. *)
From Coq Require Import ZArith Znumtheory Lia String Ascii Bool List.
From Verif.Math Require Import FinGroup.
From Verif.Spec Require Import Arith Curve Order.
From Verif.Spec Require Instances.
From Verif.Model Require Import Out BigInt PrimeField Scalar CurveExtras.
From Verif.Model Require Instances.
From Verif.Model Require WCurve MCurve ECurve.
From Verif.Proofs Require Import FieldProps ScalarProps ScLaw ScLawProps OrderRun Subgroup SubgroupRun SubgroupProps Protocols.
From Verif.Proofs Require WeierProps MontProps EdwProps InstProps.
From Verif.Spec Require Export Shipped Membership Protocols.
Import Spec.Instances Model.Instances.
Import ListNotations.
Open Scope Z_scope.

Lemma w_all : forall X s, In (X, s) w_curves -> w_shipped X s.
Proof. apply all_w; [exact InstProps.c48_P256|exact InstProps.c48_P384|exact InstProps.c48_P521|exact InstProps.c48_SECP256K1|exact InstProps.c48_SECP256K1_3ISO|exact InstProps.c48_BLS12381G1|exact InstProps.c48_BLS12381G1_11ISO]. Qed.
Lemma m_all : forall X s, In (X, s) m_curves -> m_shipped X s.
Proof. apply all_m; [exact InstProps.c48_CURVE25519|exact InstProps.c48_CURVE448]. Qed.
Lemma e_all : forall X s, In (X, s) e_curves -> e_shipped X s.
Proof. apply all_e; [exact InstProps.c48_EDWARDS25519|exact InstProps.c48_EDWARDS448]. Qed.

(** *** Weierstrass curves *)
Lemma w_signs e MG G : WPoints.weier e -> Z.log2 (WCurve.c_r e) < 2 ^ 63 -> prime (WCurve.c_r e) -> WPoints.wpoint e MG G ->
  (forall n, multiple (WPoints.wsum e) Infinity G n Infinity <-> (WCurve.c_r e | Z.of_nat n)) ->
  schnorr_exact (WCurve.c_r e) WCurve.pt_mul WCurve.pt_add WCurve.pt_eqb MG
  /\ schnorr_extracts (WPoints.wpoint e) (WPoints.wsum e) Infinity (WCurve.c_r e) WCurve.pt_mul WCurve.pt_add WCurve.pt_eqb MG G
  /\ ecdsa_exact (WCurve.c_r e) WCurve.pt_mul WCurve.pt_add WCurve.pt_eqb MG.
Proof.
  intros W L Pr HG HM. pose proof (weier_laws e W L) as HL. open_laws HL LW. apply (l_point LW) in HG. destruct HG as (G' & -> & HG).
  split; [exact (schnorr_law LW MG G' HG Pr HM)|]. split; [exact (extract_law LW MG G' HG Pr HM)|exact (ecdsa_law LW MG G' HG Pr HM)].
Qed.
Lemma w_blinds e MG G : WPoints.weier e -> Z.log2 (WCurve.c_r e) < 2 ^ 63 -> prime (WCurve.c_r e) -> WPoints.wpoint e MG G ->
  (forall n, multiple (WPoints.wsum e) Infinity G n Infinity <-> (WCurve.c_r e | Z.of_nat n)) ->
  oprf_exact (WPoints.wpoint e) (WPoints.wsum e) Infinity (WCurve.c_r e) WCurve.pt_mul WCurve.pt_eqb G
  /\ oprf_hides (WPoints.wpoint e) (WPoints.wsum e) Infinity (WCurve.c_r e) WCurve.pt_mul WCurve.pt_eqb G.
Proof.
  intros W L Pr HG HM. pose proof (weier_laws e W L) as HL. open_laws HL LW. apply (l_point LW) in HG. destruct HG as (G' & -> & HG).
  split; [exact (oprf_law LW MG G' HG Pr HM)|exact (oprf_hides_law LW MG G' HG Pr HM)].
Qed.
Lemma w_fooled_protocols X s A q : w_shipped X s -> w_small X s A q -> 0 < q -> 2 * q < w_r s -> A <> Infinity ->
  exists e G P, X = Ret e /\ WCurve.get_generator e = Ret G /\ WPoints.wpoint e P A
  /\ schnorr_fooled (w_get_order e) WCurve.pt_mul WCurve.pt_add WCurve.pt_eqb G P
  /\ oprf_fooled (w_get_order e) WCurve.pt_mul WCurve.pt_eqb P.
Proof.
  intros (e & HX & Ep & _ & _ & Er & _ & _ & Pr & (W & _ & _ & L & _) & MG & EG & HG & HM) HS q0 q2 NZ. destruct (HS e HX W Ep) as ((P & HP) & M). rewrite <- Er in *.
  exists e, MG, P. split; [exact HX|]. split; [exact EG|]. split; [exact HP|]. pose proof (weier_laws e W L) as HL. open_laws HL LW. apply (l_point LW) in HG. destruct HG as (G' & E & HG). rewrite E in *.
  split; [exact (schnorr_fooled_of LW MG G' HG Pr HM P A q HP q0 q2 M NZ)|exact (oprf_fooled_of LW Pr P A q HP ltac:(lia) M NZ)].
Qed.
(** a point equal to a multiple of the base point *)
Lemma w_landed_generated e MG G Q C R j : WPoints.weier e -> Z.log2 (WCurve.c_r e) < 2 ^ 63 -> WPoints.wpoint e MG G -> WPoints.wpoint e R C ->
  0 <= j < WCurve.c_r e -> WCurve.pt_mul false MG (mkScalar j (WCurve.c_r e)) = Ret R -> WPoints.wpoint e Q C -> generated (WPoints.wsum e) Infinity G (WCurve.c_r e) C.
Proof.
  intros W L HG HR Hj E _. pose proof (weier_laws e W L) as HL. open_laws HL LW. apply (l_point LW) in HG. destruct HG as (G' & -> & HG).
  apply (l_point LW) in HR. destruct HR as (C' & -> & HR). destruct (l_mul LW false MG G' (mkScalar j (WCurve.c_r e)) HG) as (R' & E' & HR'); [split; [reflexivity|exact Hj]|discriminate|].
  rewrite E in E'. injection E' as <-. exists j. split; [exact Hj|]. apply (l_mult LW _ _ _ (l_on LW _ _ HG)). f_equal.
  destruct (l_eqb LW _ _ _ _ HR HR) as (t & Et & Ht). destruct (l_eqb LW _ _ _ _ HR HR') as (t' & Et' & Ht'). rewrite Et in Et'. injection Et' as <-. apply Ht', Ht. reflexivity.
Qed.

(** *** Montgomery curves *)
Lemma m_signs e MG G : MPoints.mont e -> Z.log2 (MCurve.c_r e) < 2 ^ 63 -> prime (MCurve.c_r e) -> MPoints.mpoint e MG G ->
  (forall n, multiple (MPoints.msum e) Infinity G n Infinity <-> (MCurve.c_r e | Z.of_nat n)) ->
  schnorr_exact (MCurve.c_r e) MCurve.pt_mul MCurve.pt_add MCurve.pt_eqb MG
  /\ schnorr_extracts (MPoints.mpoint e) (MPoints.msum e) Infinity (MCurve.c_r e) MCurve.pt_mul MCurve.pt_add MCurve.pt_eqb MG G
  /\ ecdsa_exact (MCurve.c_r e) MCurve.pt_mul MCurve.pt_add MCurve.pt_eqb MG.
Proof.
  intros W L Pr HG HM. pose proof (mont_laws e W L) as HL. open_laws HL LW. apply (l_point LW) in HG. destruct HG as (G' & -> & HG).
  split; [exact (schnorr_law LW MG G' HG Pr HM)|]. split; [exact (extract_law LW MG G' HG Pr HM)|exact (ecdsa_law LW MG G' HG Pr HM)].
Qed.
Lemma m_blinds e MG G : MPoints.mont e -> Z.log2 (MCurve.c_r e) < 2 ^ 63 -> prime (MCurve.c_r e) -> MPoints.mpoint e MG G ->
  (forall n, multiple (MPoints.msum e) Infinity G n Infinity <-> (MCurve.c_r e | Z.of_nat n)) ->
  oprf_exact (MPoints.mpoint e) (MPoints.msum e) Infinity (MCurve.c_r e) MCurve.pt_mul MCurve.pt_eqb G
  /\ oprf_hides (MPoints.mpoint e) (MPoints.msum e) Infinity (MCurve.c_r e) MCurve.pt_mul MCurve.pt_eqb G.
Proof.
  intros W L Pr HG HM. pose proof (mont_laws e W L) as HL. open_laws HL LW. apply (l_point LW) in HG. destruct HG as (G' & -> & HG).
  split; [exact (oprf_law LW MG G' HG Pr HM)|exact (oprf_hides_law LW MG G' HG Pr HM)].
Qed.
Lemma m_fooled_protocols X s A q : m_shipped X s -> m_small X s A q -> 0 < q -> 2 * q < m_r s -> A <> Infinity ->
  exists e G P, X = Ret e /\ MCurve.get_generator e = Ret G /\ MPoints.mpoint e P A
  /\ schnorr_fooled (m_get_order e) MCurve.pt_mul MCurve.pt_add MCurve.pt_eqb G P
  /\ oprf_fooled (m_get_order e) MCurve.pt_mul MCurve.pt_eqb P.
Proof.
  intros (e & HX & Ep & _ & _ & _ & Er & _ & _ & Pr & (W & _ & _ & L & _) & MG & EG & HG & HM) HS q0 q2 NZ. destruct (HS e HX W Ep) as ((P & HP) & M). rewrite <- Er in *.
  exists e, MG, P. split; [exact HX|]. split; [exact EG|]. split; [exact HP|]. pose proof (mont_laws e W L) as HL. open_laws HL LW. apply (l_point LW) in HG. destruct HG as (G' & E & HG). rewrite E in *.
  split; [exact (schnorr_fooled_of LW MG G' HG Pr HM P A q HP q0 q2 M NZ)|exact (oprf_fooled_of LW Pr P A q HP ltac:(lia) M NZ)].
Qed.
(** a point equal to a multiple of the base point *)
Lemma m_landed_generated e MG G Q C R j : MPoints.mont e -> Z.log2 (MCurve.c_r e) < 2 ^ 63 -> MPoints.mpoint e MG G -> MPoints.mpoint e R C ->
  0 <= j < MCurve.c_r e -> MCurve.pt_mul false MG (mkScalar j (MCurve.c_r e)) = Ret R -> MPoints.mpoint e Q C -> generated (MPoints.msum e) Infinity G (MCurve.c_r e) C.
Proof.
  intros W L HG HR Hj E _. pose proof (mont_laws e W L) as HL. open_laws HL LW. apply (l_point LW) in HG. destruct HG as (G' & -> & HG).
  apply (l_point LW) in HR. destruct HR as (C' & -> & HR). destruct (l_mul LW false MG G' (mkScalar j (MCurve.c_r e)) HG) as (R' & E' & HR'); [split; [reflexivity|exact Hj]|discriminate|].
  rewrite E in E'. injection E' as <-. exists j. split; [exact Hj|]. apply (l_mult LW _ _ _ (l_on LW _ _ HG)). f_equal.
  destruct (l_eqb LW _ _ _ _ HR HR) as (t & Et & Ht). destruct (l_eqb LW _ _ _ _ HR HR') as (t' & Et' & Ht'). rewrite Et in Et'. injection Et' as <-. apply Ht', Ht. reflexivity.
Qed.

(** *** Edwards curves *)
Lemma e_signs e MG G : EPoints.edw e -> Z.log2 (ECurve.c_r e) < 2 ^ 63 -> prime (ECurve.c_r e) -> EPoints.epoint e MG G ->
  (forall n, multiple (EPoints.esum e) (0, 1) G n (0, 1) <-> (ECurve.c_r e | Z.of_nat n)) ->
  schnorr_exact (ECurve.c_r e) ECurve.pt_mul ECurve.pt_add ECurve.pt_eqb MG
  /\ schnorr_extracts (EPoints.epoint e) (EPoints.esum e) (0, 1) (ECurve.c_r e) ECurve.pt_mul ECurve.pt_add ECurve.pt_eqb MG G
  /\ ecdsa_exact (ECurve.c_r e) ECurve.pt_mul ECurve.pt_add ECurve.pt_eqb MG.
Proof.
  intros W L Pr HG HM. pose proof (edw_laws e W L) as HL. open_laws HL LW. apply (l_point LW) in HG. destruct HG as (G' & -> & HG).
  split; [exact (schnorr_law LW MG G' HG Pr HM)|]. split; [exact (extract_law LW MG G' HG Pr HM)|exact (ecdsa_law LW MG G' HG Pr HM)].
Qed.
Lemma e_blinds e MG G : EPoints.edw e -> Z.log2 (ECurve.c_r e) < 2 ^ 63 -> prime (ECurve.c_r e) -> EPoints.epoint e MG G ->
  (forall n, multiple (EPoints.esum e) (0, 1) G n (0, 1) <-> (ECurve.c_r e | Z.of_nat n)) ->
  oprf_exact (EPoints.epoint e) (EPoints.esum e) (0, 1) (ECurve.c_r e) ECurve.pt_mul ECurve.pt_eqb G
  /\ oprf_hides (EPoints.epoint e) (EPoints.esum e) (0, 1) (ECurve.c_r e) ECurve.pt_mul ECurve.pt_eqb G.
Proof.
  intros W L Pr HG HM. pose proof (edw_laws e W L) as HL. open_laws HL LW. apply (l_point LW) in HG. destruct HG as (G' & -> & HG).
  split; [exact (oprf_law LW MG G' HG Pr HM)|exact (oprf_hides_law LW MG G' HG Pr HM)].
Qed.
Lemma e_fooled_protocols X s A q : e_shipped X s -> e_small X s A q -> 0 < q -> 2 * q < e_r s -> A <> (0, 1) ->
  exists e G P, X = Ret e /\ ECurve.get_generator e = Ret G /\ EPoints.epoint e P A
  /\ schnorr_fooled (e_get_order e) ECurve.pt_mul ECurve.pt_add ECurve.pt_eqb G P
  /\ oprf_fooled (e_get_order e) ECurve.pt_mul ECurve.pt_eqb P.
Proof.
  intros (e & HX & Ep & _ & _ & Er & _ & _ & Pr & (W & _ & _ & L & _) & MG & EG & HG & HM) HS q0 q2 NZ. destruct (HS e HX W Ep) as ((P & HP) & M). rewrite <- Er in *.
  exists e, MG, P. split; [exact HX|]. split; [exact EG|]. split; [exact HP|]. pose proof (edw_laws e W L) as HL. open_laws HL LW. apply (l_point LW) in HG. destruct HG as (G' & E & HG). rewrite E in *.
  split; [exact (schnorr_fooled_of LW MG G' HG Pr HM P A q HP q0 q2 M NZ)|exact (oprf_fooled_of LW Pr P A q HP ltac:(lia) M NZ)].
Qed.
(** a point equal to a multiple of the base point *)
Lemma e_landed_generated e MG G Q C R j : EPoints.edw e -> Z.log2 (ECurve.c_r e) < 2 ^ 63 -> EPoints.epoint e MG G -> EPoints.epoint e R C ->
  0 <= j < ECurve.c_r e -> ECurve.pt_mul false MG (mkScalar j (ECurve.c_r e)) = Ret R -> EPoints.epoint e Q C -> generated (EPoints.esum e) (0, 1) G (ECurve.c_r e) C.
Proof.
  intros W L HG HR Hj E _. pose proof (edw_laws e W L) as HL. open_laws HL LW. apply (l_point LW) in HG. destruct HG as (G' & -> & HG).
  apply (l_point LW) in HR. destruct HR as (C' & -> & HR). destruct (l_mul LW false MG G' (mkScalar j (ECurve.c_r e)) HG) as (R' & E' & HR'); [split; [reflexivity|exact Hj]|discriminate|].
  rewrite E in E'. injection E' as <-. exists j. split; [exact Hj|]. apply (l_mult LW _ _ _ (l_on LW _ _ HG)). f_equal.
  destruct (l_eqb LW _ _ _ _ HR HR) as (t & Et & Ht). destruct (l_eqb LW _ _ _ _ HR HR') as (t' & Et' & Ht'). rewrite Et in Et'. injection Et' as <-. apply Ht', Ht. reflexivity.
Qed.
