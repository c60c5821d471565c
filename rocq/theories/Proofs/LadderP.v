(** Left-to-right double-and-add over the bits of a scalar, for any notion of n-fold sum. *)
From Coq Require Import ZArith Lia String Bool List.
From Verif.Spec Require Import Arith.
From Verif.Model Require Import Out BigInt PrimeField Scalar.
From Verif.Proofs Require Import FieldP BytesP ScalarProps.
Import ListNotations.
Open Scope Z_scope.

Lemma mul_loop {St} oc k (st : St) body : 0 < sk k -> bits (sk k) < 2 ^ 64 ->
  bind (iter_lr oc k) (fun it => for_each (S (Z.to_nat (it_l it))) oc it st body)
  = fold_out body st (bits_desc (sk k) (Z.to_nat (bits (sk k)))).
Proof.
  intros Hk H64. rewrite <- (for_each_lr oc k st body (S (Z.to_nat (bits (sk k))))) by (assumption || lia).
  unfold iter_lr, usize_sub. destruct (oc && (bits (sk k) <? 1)); reflexivity.
Qed.
Lemma mul_loop_zero {St} oc r (st : St) body :
  bind (iter_lr oc (mkScalar 0 r)) (fun it => for_each (S (Z.to_nat (it_l it))) oc it st body)
  = if oc then Panic "attempt to subtract with overflow" else Ret st.
Proof. destruct oc; reflexivity. Qed.

Lemma ladder {St} (Inv : nat -> St -> Prop) (body : St -> bool -> out St) :
  (forall n q b, Inv n q -> exists q', body q b = Ret q' /\ Inv (n + n + (if b then 1 else 0))%nat q') ->
  forall l n q, Inv n q -> exists q', fold_out body q l = Ret q'
    /\ Inv (Z.to_nat (Z.of_nat n * 2 ^ Z.of_nat (length l) + bits_value l)) q'.
Proof.
  intro S. induction l as [|b l IH]; intros n q H; cbn [fold_out length bits_value].
  - exists q. split; [reflexivity|]. rewrite Z.pow_0_r, Z.mul_1_r, Z.add_0_r, Nat2Z.id. exact H.
  - destruct (S n q b H) as (q1 & -> & H1). cbn [bind]. destruct (IH _ _ H1) as (q2 & -> & H2).
    exists q2. split; [reflexivity|]. revert H2. match goal with |- Inv ?u _ -> Inv ?v _ => replace v with u; [auto|] end.
    f_equal. rewrite Nat2Z.inj_succ, Z.pow_succ_r, !Nat2Z.inj_add by lia. destruct b; cbn [Z.of_nat Pos.of_succ_nat]; ring.
Qed.

(** the whole multiplication: starting from the 0-fold sum, the result is the k-fold sum *)
Lemma scalar_loop {St} (Inv : nat -> St -> Prop) (body : St -> bool -> out St) oc k st :
  (forall n q b, Inv n q -> exists q', body q b = Ret q' /\ Inv (n + n + (if b then 1 else 0))%nat q') ->
  Inv O st -> 0 < sk k -> bits (sk k) < 2 ^ 64 ->
  exists q', bind (iter_lr oc k) (fun it => for_each (S (Z.to_nat (it_l it))) oc it st body) = Ret q'
    /\ Inv (Z.to_nat (sk k)) q'.
Proof.
  intros S H0 Hk H64. rewrite mul_loop by assumption.
  destruct (ladder Inv body S (bits_desc (sk k) (Z.to_nat (bits (sk k)))) O st H0) as (q & E & H).
  exists q. split; [exact E|]. rewrite (proj1 (bits_desc_number (sk k) Hk)) in H. exact H.
Qed.
