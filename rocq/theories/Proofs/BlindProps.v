(** C62: encryption and blinded evaluation, built from the operations of a curve. *)
From Coq Require Import ZArith Znumtheory Lia String Ascii Bool List.
From Verif.Math Require Import FinGroup.
From Verif.Spec Require Import Arith Curve Order.
From Verif.Spec Require Instances.
From Verif.Model Require Import Out BigInt PrimeField Scalar CurveExtras.
From Verif.Model Require Instances.
From Verif.Model Require WCurve MCurve ECurve.
From Verif.Proofs Require Import FieldProps ScalarProps ScLaw ScLawProps OrderRun Subgroup SubgroupRun SubgroupProps Protocols ProtocolRun.
From Verif.Proofs Require WeierProps MontProps EdwProps InstProps.
From Verif.Spec Require Export Shipped Membership Protocols.
Import Spec.Instances Model.Instances.
Import ListNotations.
Open Scope Z_scope.
Local Open Scope out_scope.

(** *** ElGamal: on any curve, any base point and any message *)
Lemma c62_elgamal : forall e, WPoints.weier e -> Z.log2 (WCurve.c_r e) < 2 ^ 63 -> elgamal_opens (WPoints.wpoint e) (WCurve.c_r e) WCurve.pt_mul WCurve.pt_add WCurve.pt_sub WCurve.pt_eqb.
Proof. intros e W L. pose proof (weier_laws e W L) as HL. open_laws HL LW. exact (elgamal_law LW). Qed.
Lemma c62_mont_elgamal : forall e, MPoints.mont e -> Z.log2 (MCurve.c_r e) < 2 ^ 63 -> elgamal_opens (MPoints.mpoint e) (MCurve.c_r e) MCurve.pt_mul MCurve.pt_add MCurve.pt_sub MCurve.pt_eqb.
Proof. intros e W L. pose proof (mont_laws e W L) as HL. open_laws HL LW. exact (elgamal_law LW). Qed.
Lemma c62_edw_elgamal : forall e, EPoints.edw e -> Z.log2 (ECurve.c_r e) < 2 ^ 63 -> elgamal_opens (EPoints.epoint e) (ECurve.c_r e) ECurve.pt_mul ECurve.pt_add ECurve.pt_sub ECurve.pt_eqb.
Proof. intros e W L. pose proof (edw_laws e W L) as HL. open_laws HL LW. exact (elgamal_law LW). Qed.

(** *** blinded evaluation on the multiples of a base point of prime order *)
Lemma c62_any_curve : forall e MG G, WPoints.weier e -> Z.log2 (WCurve.c_r e) < 2 ^ 63 -> prime (WCurve.c_r e) -> WPoints.wpoint e MG G ->
  (forall n, multiple (WPoints.wsum e) Infinity G n Infinity <-> (WCurve.c_r e | Z.of_nat n)) ->
  oprf_exact (WPoints.wpoint e) (WPoints.wsum e) Infinity (WCurve.c_r e) WCurve.pt_mul WCurve.pt_eqb G
  /\ oprf_hides (WPoints.wpoint e) (WPoints.wsum e) Infinity (WCurve.c_r e) WCurve.pt_mul WCurve.pt_eqb G.
Proof. exact w_blinds. Qed.
Lemma c62_mont_any_curve : forall e MG G, MPoints.mont e -> Z.log2 (MCurve.c_r e) < 2 ^ 63 -> prime (MCurve.c_r e) -> MPoints.mpoint e MG G ->
  (forall n, multiple (MPoints.msum e) Infinity G n Infinity <-> (MCurve.c_r e | Z.of_nat n)) ->
  oprf_exact (MPoints.mpoint e) (MPoints.msum e) Infinity (MCurve.c_r e) MCurve.pt_mul MCurve.pt_eqb G
  /\ oprf_hides (MPoints.mpoint e) (MPoints.msum e) Infinity (MCurve.c_r e) MCurve.pt_mul MCurve.pt_eqb G.
Proof. exact m_blinds. Qed.
Lemma c62_edw_any_curve : forall e MG G, EPoints.edw e -> Z.log2 (ECurve.c_r e) < 2 ^ 63 -> prime (ECurve.c_r e) -> EPoints.epoint e MG G ->
  (forall n, multiple (EPoints.esum e) (0, 1) G n (0, 1) <-> (ECurve.c_r e | Z.of_nat n)) ->
  oprf_exact (EPoints.epoint e) (EPoints.esum e) (0, 1) (ECurve.c_r e) ECurve.pt_mul ECurve.pt_eqb G
  /\ oprf_hides (EPoints.epoint e) (EPoints.esum e) (0, 1) (ECurve.c_r e) ECurve.pt_mul ECurve.pt_eqb G.
Proof. exact e_blinds. Qed.

(** *** in particular on the shipped curves *)
Lemma c62_shipped : forall X s, In (X, s) w_curves -> exists e, X = Ret e
  /\ elgamal_opens (WPoints.wpoint e) (w_get_order e) WCurve.pt_mul WCurve.pt_add WCurve.pt_sub WCurve.pt_eqb
  /\ oprf_exact (WPoints.wpoint e) (WPoints.wsum e) Infinity (w_get_order e) WCurve.pt_mul WCurve.pt_eqb (Affine (w_gx s) (w_gy s))
  /\ oprf_hides (WPoints.wpoint e) (WPoints.wsum e) Infinity (w_get_order e) WCurve.pt_mul WCurve.pt_eqb (Affine (w_gx s) (w_gy s)).
Proof.
  intros X s HI. destruct (w_all X s HI) as (e & HX & Ep & _ & _ & Er & _ & _ & Pr & (W & _ & _ & L & _) & MG & EG & HG & HM). rewrite <- Er in *.
  exists e. split; [exact HX|]. split; [exact (c62_elgamal e W L)|]. exact (w_blinds e MG _ W L Pr HG HM).
Qed.
Lemma c62_mont_shipped : forall X s, In (X, s) m_curves -> exists e, X = Ret e
  /\ elgamal_opens (MPoints.mpoint e) (m_get_order e) MCurve.pt_mul MCurve.pt_add MCurve.pt_sub MCurve.pt_eqb
  /\ oprf_exact (MPoints.mpoint e) (MPoints.msum e) Infinity (m_get_order e) MCurve.pt_mul MCurve.pt_eqb (Affine (m_gx s) (m_gy s))
  /\ oprf_hides (MPoints.mpoint e) (MPoints.msum e) Infinity (m_get_order e) MCurve.pt_mul MCurve.pt_eqb (Affine (m_gx s) (m_gy s)).
Proof.
  intros X s HI. destruct (m_all X s HI) as (e & HX & Ep & _ & _ & _ & Er & _ & _ & Pr & (W & _ & _ & L & _) & MG & EG & HG & HM). rewrite <- Er in *.
  exists e. split; [exact HX|]. split; [exact (c62_mont_elgamal e W L)|]. exact (m_blinds e MG _ W L Pr HG HM).
Qed.
Lemma c62_edw_shipped : forall X s, In (X, s) e_curves -> exists e, X = Ret e
  /\ elgamal_opens (EPoints.epoint e) (e_get_order e) ECurve.pt_mul ECurve.pt_add ECurve.pt_sub ECurve.pt_eqb
  /\ oprf_exact (EPoints.epoint e) (EPoints.esum e) (0, 1) (e_get_order e) ECurve.pt_mul ECurve.pt_eqb (e_gx s, e_gy s)
  /\ oprf_hides (EPoints.epoint e) (EPoints.esum e) (0, 1) (e_get_order e) ECurve.pt_mul ECurve.pt_eqb (e_gx s, e_gy s).
Proof.
  intros X s HI. destruct (e_all X s HI) as (e & HX & Ep & _ & _ & Er & _ & _ & Pr & (W & _ & _ & L & _) & MG & EG & HG & HM). rewrite <- Er in *.
  exists e. split; [exact HX|]. split; [exact (c62_edw_elgamal e W L)|]. exact (e_blinds e MG _ W L Pr HG HM).
Qed.

(** *** and on whatever was hashed to them (C58) and multiplied by the cofactor *)
Lemma c62_hashed : forall X s e M, In (X, s) w_curves -> X = Ret e -> w_lands e M ->
  exists P c, M = Ret P /\ WCurve.new_scalar e (w_get_cofactor e) = Ret c
  /\ forall oc, exists Q, WCurve.pt_mul oc P c = Ret Q
  /\ forall b k, valid_scalar (w_get_order e) b -> sk b <> 0 -> usable oc (w_get_order e) k ->
     exists E F, oprf (WCurve.pt_mul oc) Q b k = Ret E /\ WCurve.pt_mul oc Q k = Ret F /\ WCurve.pt_eqb E F = Ret true.
Proof.
  intros X s e' M HI HX' (P & G & c & EM & _ & EG' & Ec & HL). destruct (w_all X s HI) as (e & HX & Ep & _ & _ & Er & _ & _ & Pr & (W & _ & _ & L & _) & MG & EG & HG & HM). rewrite HX in HX'. injection HX' as <-.
  rewrite EG in EG'. injection EG' as <-. rewrite <- Er in *.
  exists P, c. split; [exact EM|]. split; [exact Ec|]. intro oc. destruct (HL oc) as (Q & j & R & EQ & Hj & ER & _ & C & HQ & HR).
  exists Q. split; [exact EQ|]. intros b k Vb Nb Uk.
  exact (proj1 (w_blinds e MG _ W L Pr HG HM) oc Q C b k HQ (w_landed_generated e MG _ Q C R j W L HG HR Hj ER HQ) Vb Nb Uk).
Qed.
Lemma c62_mont_hashed : forall X s e M, In (X, s) m_curves -> X = Ret e -> m_lands e M ->
  exists P c, M = Ret P /\ MCurve.new_scalar e (m_get_cofactor e) = Ret c
  /\ forall oc, exists Q, MCurve.pt_mul oc P c = Ret Q
  /\ forall b k, valid_scalar (m_get_order e) b -> sk b <> 0 -> usable oc (m_get_order e) k ->
     exists E F, oprf (MCurve.pt_mul oc) Q b k = Ret E /\ MCurve.pt_mul oc Q k = Ret F /\ MCurve.pt_eqb E F = Ret true.
Proof.
  intros X s e' M HI HX' (P & G & c & EM & _ & EG' & Ec & HL). destruct (m_all X s HI) as (e & HX & Ep & _ & _ & _ & Er & _ & _ & Pr & (W & _ & _ & L & _) & MG & EG & HG & HM). rewrite HX in HX'. injection HX' as <-.
  rewrite EG in EG'. injection EG' as <-. rewrite <- Er in *.
  exists P, c. split; [exact EM|]. split; [exact Ec|]. intro oc. destruct (HL oc) as (Q & j & R & EQ & Hj & ER & _ & C & HQ & HR).
  exists Q. split; [exact EQ|]. intros b k Vb Nb Uk.
  exact (proj1 (m_blinds e MG _ W L Pr HG HM) oc Q C b k HQ (m_landed_generated e MG _ Q C R j W L HG HR Hj ER HQ) Vb Nb Uk).
Qed.
Lemma c62_edw_hashed : forall X s e M, In (X, s) e_curves -> X = Ret e -> e_lands e M ->
  exists P c, M = Ret P /\ ECurve.new_scalar e (e_get_cofactor e) = Ret c
  /\ forall oc, exists Q, ECurve.pt_mul oc P c = Ret Q
  /\ forall b k, valid_scalar (e_get_order e) b -> sk b <> 0 -> usable oc (e_get_order e) k ->
     exists E F, oprf (ECurve.pt_mul oc) Q b k = Ret E /\ ECurve.pt_mul oc Q k = Ret F /\ ECurve.pt_eqb E F = Ret true.
Proof.
  intros X s e' M HI HX' (P & G & c & EM & _ & EG' & Ec & HL). destruct (e_all X s HI) as (e & HX & Ep & _ & _ & Er & _ & _ & Pr & (W & _ & _ & L & _) & MG & EG & HG & HM). rewrite HX in HX'. injection HX' as <-.
  rewrite EG in EG'. injection EG' as <-. rewrite <- Er in *.
  exists P, c. split; [exact EM|]. split; [exact Ec|]. intro oc. destruct (HL oc) as (Q & j & R & EQ & Hj & ER & _ & C & HQ & HR).
  exists Q. split; [exact EQ|]. intros b k Vb Nb Uk.
  exact (proj1 (e_blinds e MG _ W L Pr HG HM) oc Q C b k HQ (e_landed_generated e MG _ Q C R j W L HG HR Hj ER HQ) Vb Nb Uk).
Qed.

(** *** on points that are not multiples of the base point blinding can change the answer: points of order 3 and 2 *)
Lemma c62_blinding_refuted : exists e P, BLS12381G1 = Ret e /\ WPoints.wpoint e P (Affine 0 2)
  /\ oprf_fooled (w_get_order e) WCurve.pt_mul WCurve.pt_eqb P.
Proof.
  destruct (w_fooled_protocols _ _ _ 3 InstProps.c48_BLS12381G1 bls_small ltac:(lia) ltac:(vm_compute; reflexivity) ltac:(discriminate)) as (e & G & P & H1 & H2 & H3 & _ & H4).
  exists e, P. exact (conj H1 (conj H3 H4)).
Qed.
Lemma c62_mont_blinding_refuted : forall X s, In (X, s) m_curves -> exists e P, X = Ret e /\ MPoints.mpoint e P (Affine 0 0)
  /\ oprf_fooled (m_get_order e) MCurve.pt_mul MCurve.pt_eqb P.
Proof.
  intros X s HI. assert (R : 2 * 2 < m_r s) by (revert X s HI; apply (all_m (fun _ s => 2 * 2 < m_r s)); vm_compute; reflexivity).
  destruct (m_fooled_protocols X s _ 2 (m_all X s HI) (mont_small X s) ltac:(lia) R ltac:(discriminate)) as (e & G & P & H1 & H2 & H3 & _ & H4).
  exists e, P. exact (conj H1 (conj H3 H4)).
Qed.
Lemma c62_edw_blinding_refuted : forall X s, In (X, s) e_curves -> exists e P, X = Ret e /\ EPoints.epoint e P (0, e_p s - 1)
  /\ oprf_fooled (e_get_order e) ECurve.pt_mul ECurve.pt_eqb P.
Proof.
  intros X s HI. assert (R : 2 * 2 < e_r s) by (revert X s HI; apply (all_e (fun _ s => 2 * 2 < e_r s)); vm_compute; reflexivity).
  assert (p2 : 2 < e_p s) by (revert X s HI R; apply (all_e (fun _ s => 2 * 2 < e_r s -> 2 < e_p s)); intros _; vm_compute; reflexivity).
  destruct (e_fooled_protocols X s _ 2 (e_all X s HI) (edw_small X s p2) ltac:(lia) R) as (e & G & P & H1 & H2 & H3 & _ & H4); [intro E; injection E; lia|].
  exists e, P. exact (conj H1 (conj H3 H4)).
Qed.

(** y^2 = x^3 + 6 x^2 + x over F_19, base point (7, 6) of order 5, cofactor 4: blinded evaluation agrees for all blinding scalars and keys on
    the base point, not on (0, 0); a message outside the subgroup is encrypted and decrypted *)
Example c62_ex :
  let sc x := mkScalar x 5 in let same P b k := E <- oprf (MCurve.pt_mul true) P (sc b) (sc k) ;; F <- MCurve.pt_mul true P (sc k) ;; MCurve.pt_eqb E F in
  map (fun bk => same (MontProps.pt19 7 6 1) (fst bk) (snd bk)) (list_prod [1; 2; 3; 4] [1; 2; 3; 4]) = repeat (Ret true) 16
  /\ map (fun bk => same (MontProps.pt19 0 0 3) (fst bk) (snd bk)) [(1, 1); (2, 1); (2, 2)] = [Ret true; Ret false; Ret true]
  /\ (Q <- MCurve.pt_mul true (MontProps.pt19 7 6 1) (sc 3) ;; DC <- elgamal_encrypt (MCurve.pt_mul true) MCurve.pt_add (MontProps.pt19 7 6 1) Q (MontProps.pt19 12 2 2) (sc 4) ;;
      D <- elgamal_decrypt (MCurve.pt_mul true) MCurve.pt_sub (sc 3) DC ;; a <- MCurve.pt_eqb (snd DC) (MontProps.pt19 12 2 2) ;; b <- MCurve.pt_eqb D (MontProps.pt19 12 2 2) ;; Ret (a, b)) = Ret (false, true).
Proof. vm_compute. repeat split. Qed.
