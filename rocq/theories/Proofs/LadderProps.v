(** The point operations performed by scalar multiplication: C65. *)
From Coq Require Import ZArith Lia String Bool List.
From Verif.Spec Require Import Arith Curve Ladder.
From Verif.Spec Require WPoints MPoints EPoints.
From Verif.Model Require Import Out BigInt PrimeField Scalar MulTrace.
From Verif.Model Require WCurve MCurve ECurve.
From Verif.Proofs Require Import BytesP ScalarProps LadderP.
From Verif.Proofs Require WeierProps MontProps EdwProps.
Import ListNotations.
Open Scope Z_scope.

Lemma log_forget {Pt} (dbl : Pt -> out Pt) add P fuel oc it s :
  forget (for_each fuel oc it s (log_round dbl add P))
  = for_each fuel oc it (fst s) (fun q (ki : bool) => bind (dbl q) (fun q => if ki then add q P else Ret q)).
Proof.
  revert it s. induction fuel as [|fuel IH]; intros it s; [reflexivity|]. cbn [for_each]. unfold forget in *.
  destruct (next oc it) as [[[b|] it']|m]; cbn [bind fst snd]; [|reflexivity|reflexivity].
  unfold log_round at 1. destruct (dbl (fst s)) as [D|m]; cbn [bind]; [|reflexivity]. destruct b; cbn [bind].
  - destruct (add D P) as [R|m]; cbn [bind]; [apply IH|reflexivity].
  - apply IH.
Qed.
Lemma forget_mul {Pt} (id : out Pt) dbl add oc P k :
  forget (log_mul id dbl add oc P k)
  = bind id (fun q => bind (iter_lr oc k) (fun it => for_each (S (Z.to_nat (it_l it))) oc it q (fun q (ki : bool) => bind (dbl q) (fun q => if ki then add q P else Ret q)))).
Proof.
  unfold log_mul. destruct id as [q|m]; cbn [bind]; [|reflexivity]. destruct (iter_lr oc k) as [it|m]; cbn [bind]; [|reflexivity].
  exact (log_forget dbl add P _ oc it (q, [])).
Qed.
Lemma log_fold {Pt} (dbl : Pt -> out Pt) add P l s R g : fold_out (log_round dbl add P) s l = Ret (R, g) -> g = snd s ++ operations l.
Proof.
  revert s. induction l as [|b l IH]; intros s; cbn [fold_out].
  - intro E. injection E as ->. symmetry. apply app_nil_r.
  - unfold log_round at 1. destruct (dbl (fst s)) as [D|m]; cbn [bind]; [|discriminate]. destruct b; cbn [bind].
    + destruct (add D P) as [R'|m]; cbn [bind]; [|discriminate]. intro E. rewrite (IH _ E). cbn [snd]. rewrite <- app_assoc. reflexivity.
    + intro E. rewrite (IH _ E). cbn [snd]. rewrite <- app_assoc. reflexivity.
Qed.
Lemma log_ops {Pt} (id : out Pt) dbl add oc P k R g : 0 < sk k -> bits (sk k) < 2 ^ 64 -> log_mul id dbl add oc P k = Ret (R, g) ->
  exists l, numeral (sk k) l /\ g = operations l.
Proof.
  intros Hk H64. unfold log_mul. destruct id as [q|m]; cbn [bind]; [|discriminate]. rewrite mul_loop by assumption.
  intro E. apply log_fold in E. cbn [snd app] in E. eexists. split; [exact (bits_desc_number _ Hk)|exact E].
Qed.
Lemma log_zero {Pt} (id : out Pt) dbl add oc r P R g : log_mul id dbl add oc P (mkScalar 0 r) = Ret (R, g) -> g = [].
Proof.
  unfold log_mul. destruct id as [q|m]; cbn [bind]; [|discriminate]. rewrite mul_loop_zero. destruct oc; [discriminate|]. congruence.
Qed.

Lemma bits_value_bounds l : 0 <= bits_value l < 2 ^ Z.of_nat (List.length l).
Proof.
  induction l as [|b l IH]; cbn [bits_value List.length]; [lia|]. rewrite Nat2Z.inj_succ, Z.pow_succ_r by lia. destruct b; lia.
Qed.
Lemma numeral_length n l : numeral n l -> Z.of_nat (List.length l) = Z.log2 n + 1.
Proof.
  intros [E H]. destruct l as [|b l]; [discriminate H|]. injection H as ->. cbn [bits_value] in E. pose proof (bits_value_bounds l).
  cbn [List.length]. rewrite Nat2Z.inj_succ. rewrite <- Z.add_1_r. f_equal. symmetry. apply Z.log2_unique; [lia|].
  rewrite Z.pow_succ_r by lia. lia.
Qed.
Lemma bits_inj l l' : List.length l = List.length l' -> bits_value l = bits_value l' -> l = l'.
Proof.
  revert l'. induction l as [|b l IH]; intros [|b' l'] L E; try discriminate L; [reflexivity|]. injection L as L.
  cbn [bits_value] in E. rewrite L in E. pose proof (bits_value_bounds l) as B. pose proof (bits_value_bounds l') as B'. rewrite L in B.
  assert (b = b') as <- by (destruct b, b'; auto; exfalso; lia). f_equal. apply IH; [exact L|destruct b; lia].
Qed.
Lemma numeral_fun n l l' : numeral n l -> numeral n l' -> l = l'.
Proof.
  intros H H'. apply bits_inj; [|destruct H, H'; congruence].
  apply Nat2Z.inj. rewrite (numeral_length _ _ H), (numeral_length _ _ H'). reflexivity.
Qed.
Lemma operations_inj l l' : operations l = operations l' -> l = l'.
Proof.
  unfold operations. revert l'. induction l as [|b l IH]; intros [|b' l'] E; [reflexivity| | |].
  - destruct b'; discriminate E.
  - destruct b; discriminate E.
  - assert (H : b = b' /\ flat_map (fun b : bool => if b then [Doubling; Addition] else [Doubling]) l = flat_map (fun b : bool => if b then [Doubling; Addition] else [Doubling]) l').
    { destruct b, b'; cbn in E.
      - injection E as E. auto.
      - exfalso. destruct l' as [|[|] l']; discriminate E.
      - exfalso. destruct l as [|[|] l]; discriminate E.
      - injection E as E. auto. }
    destruct H as [<- H]. f_equal. apply IH, H.
Qed.

(** keeping the record changes neither results nor panics *)
Lemma c65_record : forall oc P k, forget (w_log_mul oc P k) = WCurve.pt_mul oc P k.
Proof.
  intros oc P k. unfold w_log_mul, WCurve.pt_mul. destruct (WCurve.c_r (WCurve.pe P) =? sr k); [apply forget_mul|reflexivity].
Qed.
Lemma c65_mont_record : forall oc P k, forget (m_log_mul oc P k) = MCurve.pt_mul oc P k.
Proof.
  intros oc P k. unfold m_log_mul, MCurve.pt_mul. destruct (MCurve.c_r (MCurve.pe P) =? sr k); [apply forget_mul|reflexivity].
Qed.
Lemma c65_edw_record : forall oc P k, forget (e_log_mul oc P k) = ECurve.pt_mul oc P k.
Proof.
  intros oc P k. unfold e_log_mul, ECurve.pt_mul. destruct (ECurve.c_r (ECurve.pe P) =? sr k); [apply forget_mul|reflexivity].
Qed.

Ltac ops E := unfold w_log_mul, m_log_mul, e_log_mul, do_if_eq in E;
  match type of E with (if ?c then _ else _) = _ => destruct c; [|discriminate E] end.
(** the operations are those of the binary numeral of the scalar, whatever the point; none for the scalar 0 *)
Lemma c65_operations : forall oc P k R g, w_log_mul oc P k = Ret (R, g) -> 0 <= sk k -> bits (sk k) < 2 ^ 64 ->
  (sk k = 0 -> g = []) /\ (0 < sk k -> exists l, numeral (sk k) l /\ g = operations l).
Proof.
  intros oc P k R g E H0 H64. ops E. split.
  - intro Z0. destruct k as [k r]. cbn [sk] in Z0. subst k. exact (log_zero _ _ _ _ _ _ _ _ E).
  - intro Hk. exact (log_ops _ _ _ _ _ _ _ _ Hk H64 E).
Qed.
Lemma c65_mont_operations : forall oc P k R g, m_log_mul oc P k = Ret (R, g) -> 0 <= sk k -> bits (sk k) < 2 ^ 64 ->
  (sk k = 0 -> g = []) /\ (0 < sk k -> exists l, numeral (sk k) l /\ g = operations l).
Proof.
  intros oc P k R g E H0 H64. ops E. split.
  - intro Z0. destruct k as [k r]. cbn [sk] in Z0. subst k. exact (log_zero _ _ _ _ _ _ _ _ E).
  - intro Hk. exact (log_ops _ _ _ _ _ _ _ _ Hk H64 E).
Qed.
Lemma c65_edw_operations : forall oc P k R g, e_log_mul oc P k = Ret (R, g) -> 0 <= sk k -> bits (sk k) < 2 ^ 64 ->
  (sk k = 0 -> g = []) /\ (0 < sk k -> exists l, numeral (sk k) l /\ g = operations l).
Proof.
  intros oc P k R g E H0 H64. ops E. split.
  - intro Z0. destruct k as [k r]. cbn [sk] in Z0. subst k. exact (log_zero _ _ _ _ _ _ _ _ E).
  - intro Hk. exact (log_ops _ _ _ _ _ _ _ _ Hk H64 E).
Qed.

Lemma doublings_app g h : doublings (g ++ h) = doublings g + doublings h.
Proof. induction g as [|[|] g IH]; cbn [app doublings]; lia. Qed.
Lemma additions_app g h : additions (g ++ h) = additions g + additions h.
Proof. induction g as [|[|] g IH]; cbn [app additions]; lia. Qed.
Lemma count_ops k n : doublings (operations (bits_desc k n)) = Z.of_nat n /\ additions (operations (bits_desc k n)) = ones n k.
Proof.
  induction n as [|n [IH1 IH2]]; [split; reflexivity|]. rewrite bits_desc_S. unfold operations in *. cbn [flat_map ones].
  rewrite doublings_app, additions_app, IH1, IH2, Nat2Z.inj_succ. destruct (Z.testbit k (Z.of_nat n)); cbn [doublings additions]; lia.
Qed.
(** one doubling per bit and one addition per bit that is 1 *)
Lemma c65_counts : forall n l, 0 < n -> numeral n l ->
  doublings (operations l) = Z.log2 n + 1 /\ additions (operations l) = ones (Z.to_nat (Z.log2 n + 1)) n.
Proof.
  intros n l Hn H. rewrite (numeral_fun _ _ _ H (bits_desc_number n Hn)).
  assert (bits n = Z.log2 n + 1) as -> by (unfold bits; destruct (Z.eqb_spec n 0); [lia|]; rewrite Z.abs_eq by lia; reflexivity).
  destruct (count_ops n (Z.to_nat (Z.log2 n + 1))) as [-> ->]. rewrite Z2Nat.id by (pose proof (Z.log2_nonneg n); lia). auto.
Qed.
(** so the operations give the scalar away *)
Lemma c65_reveals : forall n n' l l', numeral n l -> numeral n' l' -> operations l = operations l' -> n = n'.
Proof. intros n n' l l' [E _] [E' _] H. apply operations_inj in H. subst. reflexivity. Qed.
(** the operations do not depend on the point, but their number depends on the scalar, even among scalars of one length *)
Lemma c65_same_number_refuted : exists e P k l R S g h, WPoints.wgroup e /\ valid_scalar (WCurve.c_r e) k /\ valid_scalar (WCurve.c_r e) l
  /\ bits (sk k) = bits (sk l) /\ w_log_mul true P k = Ret (R, g) /\ w_log_mul true P l = Ret (S, h) /\ List.length g <> List.length h.
Proof.
  exists WeierProps.E7, (WeierProps.pt7 1 1 1), (mkScalar 8 11), (mkScalar 10 11).
  eexists _, _, _, _. split; [exact WeierProps.wgroup7|]. split; [split; [reflexivity|cbn; lia]|]. split; [split; [reflexivity|cbn; lia]|].
  split; [reflexivity|]. split; [vm_compute; reflexivity|]. split; [vm_compute; reflexivity|]. cbn. lia.
Qed.
Example c65_ex : exists R, w_log_mul true (WeierProps.pt7 4 6 2) (mkScalar 5 11) = Ret (R, [Doubling; Addition; Doubling; Doubling; Addition])
  /\ WCurve.pt_mul true (WeierProps.pt7 4 6 2) (mkScalar 5 11) = Ret R /\ numeral 5 [true; false; true]
  /\ operations [true; false; true] = [Doubling; Addition; Doubling; Doubling; Addition] /\ ones 3 5 = 2
  /\ w_log_mul true (WeierProps.pt7 4 6 2) (mkScalar 0 11) = Panic "attempt to subtract with overflow"
  /\ exists O, w_log_mul false (WeierProps.pt7 4 6 2) (mkScalar 0 11) = Ret (O, []).
Proof. eexists. split; [vm_compute; reflexivity|]. split; [vm_compute; reflexivity|]. repeat split. eexists. vm_compute. reflexivity. Qed.
Example c65_mont_ex : exists R, m_log_mul true (MontProps.pt19 12 2 2) (mkScalar 3 5) = Ret (R, [Doubling; Addition; Doubling; Addition]).
Proof. eexists. vm_compute. reflexivity. Qed.
Example c65_edw_ex : exists R, e_log_mul true (EdwProps.pt29 6 10 1 2) (mkScalar 6 7) = Ret (R, [Doubling; Addition; Doubling; Addition; Doubling]).
Proof. eexists. vm_compute. reflexivity. Qed.
