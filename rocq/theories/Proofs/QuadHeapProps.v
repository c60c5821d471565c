(** C50 for the quadratic field: reference counts of an Fp2 and of the base field it owns. *)
From Coq Require Import ZArith Bool List Lia.
From Verif.Model Require Import SqrtCache QuadHeap.
From Verif.Proofs Require Import CacheProps.
Import ListNotations.
Local Open Scope Z_scope.

(** both counts moved *)
Definition qbump (h : QHeap) (d e : Z) : QHeap := mkQHeap (q_strong h + d) (q_filled h) (q_freed h) (bump (q_base h) e).
Lemma qbump0 h : h = qbump h 0 0.
Proof. destruct h as [s f d b]. unfold qbump. cbn. rewrite <- bump0. f_equal. lia. Qed.
Lemma q_clone_bump h d e : q_clone (qbump h d e) = qbump h (d + 1) e.
Proof. unfold q_clone, qbump. cbn. f_equal. lia. Qed.
Lemma on_clone_bump h d e : on_base arc_clone (qbump h d e) = qbump h d (e + 1).
Proof. unfold on_base, qbump. cbn [q_strong q_filled q_freed q_base]. rewrite clone_bump. reflexivity. Qed.
Lemma on_clones_bump h d e n : on_base (arc_clones n) (qbump h d e) = qbump h d (e + Z.of_nat n).
Proof. unfold on_base, qbump. cbn [q_strong q_filled q_freed q_base]. rewrite clones_bump. reflexivity. Qed.
Lemma on_drop_bump h d e : 1 < strong (q_base h) + e -> on_base arc_drop (qbump h d e) = qbump h d (e - 1).
Proof. intro H. unfold on_base, qbump. cbn [q_strong q_filled q_freed q_base]. rewrite drop_bump by exact H. reflexivity. Qed.
Lemma on_drops_bump h d e n : Z.of_nat n < strong (q_base h) + e ->
  on_base (arc_drops n) (qbump h d e) = qbump h d (e - Z.of_nat n).
Proof. intro H. unfold on_base, qbump. cbn [q_strong q_filled q_freed q_base]. rewrite drops_bump by exact H. reflexivity. Qed.
Lemma on_sum n h : on_base (fun b => arc_drops n (arc_clone b)) h = on_base (arc_drops n) (on_base arc_clone h).
Proof. reflexivity. Qed.
Lemma on_next h : on_base (fun b => arc_drop (arc_clone b)) h = on_base arc_drop (on_base arc_clone h).
Proof. reflexivity. Qed.
Lemma q_drop_bump h d e : q_strong h + d - 1 <> 0 -> q_drop (qbump h d e) = qbump h (d - 1) e.
Proof.
  intro H. unfold q_drop. cbn [q_strong qbump]. destruct (Z.eqb_spec (q_strong h + d - 1) 0); [contradiction|].
  unfold qbump. cbn. f_equal. lia.
Qed.
Ltac qheap := repeat first
  [ rewrite q_clone_bump | rewrite on_clone_bump | rewrite on_clones_bump | rewrite on_sum | rewrite on_next
  | rewrite on_drop_bump by lia | rewrite on_drops_bump by lia | rewrite q_drop_bump by lia ].

Lemma q_elt_spec h : q_elt h = qbump h 1 2.
Proof. unfold q_elt. rewrite (qbump0 h) at 1. qheap. reflexivity. Qed.
Lemma q_inv_spec h d e : 1 <= strong (q_base h) + e -> q_inv_mod (qbump h d e) = qbump h (d + 1) (e + 2).
Proof. intro H. unfold q_inv_mod. cbv zeta. qheap. f_equal. lia. Qed.
Lemma q_mul_spec h d e : 1 <= strong (q_base h) + e -> q_mul (qbump h d e) = qbump h (d + 1) (e + 2).
Proof. intro H. unfold q_mul. cbv zeta. qheap. f_equal. lia. Qed.
Lemma q_div_spec h : 1 <= strong (q_base h) -> 1 <= q_strong h -> q_div h = qbump h 1 2.
Proof.
  intros H G. unfold q_div, q_elt_drop. rewrite (qbump0 h) at 1. rewrite q_inv_spec, q_mul_spec by lia. qheap. f_equal.
Qed.

Definition qheap_ok (s : QHeap * nat * nat) : Prop :=
  let '(h, fs, es) := s in
  q_strong h = Z.of_nat fs + Z.of_nat es
  /\ q_freed h = (q_strong h =? 0)
  /\ strong (q_base h) = 2 * Z.of_nat es + (if q_strong h =? 0 then 0 else 1)
  /\ freed (q_base h) = (strong (q_base h) =? 0).

(** the heap after k more handles of the field and e of the base, none of them the last *)
Lemma qbump_ok h fs es fs' es' d e : qheap_ok (h, fs, es) ->
  0 < Z.of_nat fs + Z.of_nat es ->
  Z.of_nat fs + Z.of_nat es + d = Z.of_nat fs' + Z.of_nat es' -> 0 < Z.of_nat fs' + Z.of_nat es' ->
  2 * Z.of_nat es + e = 2 * Z.of_nat es' -> qheap_ok (qbump h d e, fs', es').
Proof.
  intros (A & B & C & D) P Q R S. unfold qheap_ok, qbump, bump. cbn [q_strong q_filled q_freed q_base strong freed].
  rewrite A in *. destruct (Z.eqb_spec (Z.of_nat fs + Z.of_nat es) 0); [lia|].
  destruct (Z.eqb_spec (Z.of_nat fs + Z.of_nat es + d) 0); [lia|].
  rewrite C, B in *. destruct (Z.eqb_spec (2 * Z.of_nat es + 1) 0); [lia|].
  repeat split; [lia|lia|]. rewrite D. symmetry. apply Z.eqb_neq. lia.
Qed.
(** dropping the last handle of the field *)
Lemma last_ok h : qheap_ok (h, 1%nat, 0%nat) -> qheap_ok (q_drop h, 0%nat, 0%nat).
Proof.
  destruct h as [s f d [bs bc bf bd]]. intros (A & B & C & D). cbn [q_strong q_filled q_freed q_base strong freed] in *.
  rewrite A in *. cbn in C. subst bs. cbn in D. subst bd. cbn. repeat split.
Qed.
Lemma last_elt_ok h : qheap_ok (h, 0%nat, 1%nat) -> qheap_ok (q_elt_drop h, 0%nat, 0%nat).
Proof.
  destruct h as [s f d [bs bc bf bd]]. intros (A & B & C & D). cbn [q_strong q_filled q_freed q_base strong freed] in *.
  rewrite A in *. cbn in C. subst bs. cbn in D. subst bd. cbn. repeat split.
Qed.

Lemma qheap_step_ok p s o : qheap_ok s -> qheap_ok (qheap_step p s o).
Proof.
  destruct s as [[h fs] es]. intro H. pose proof H as (A & B & C & D).
  assert (G : 0 < Z.of_nat fs + Z.of_nat es -> 1 <= q_strong h /\ strong (q_base h) = 2 * Z.of_nat es + 1).
  { intro Q. split; [lia|]. rewrite C. destruct (Z.eqb_spec (q_strong h) 0); lia. }
  unfold qheap_step. destruct o; try (destruct fs as [|k]; [exact H|]); try (destruct es as [|j]; [exact H|]);
    destruct (G ltac:(lia)) as (G1 & G2).
  - rewrite (qbump0 h), q_clone_bump. eapply qbump_ok; [exact H|lia..].
  - destruct (Z.eq_dec (Z.of_nat k + Z.of_nat es) 0) as [E|E].
    + assert (k = 0%nat) as -> by lia. assert (es = 0%nat) as -> by lia. apply last_ok, H.
    + rewrite (qbump0 h), q_drop_bump by lia. eapply qbump_ok; [exact H|lia..].
  - rewrite q_elt_spec. eapply qbump_ok; [exact H|lia..].
  - rewrite q_elt_spec. eapply qbump_ok; [exact H|lia..].
  - rewrite (qbump0 h), q_mul_spec by lia. eapply qbump_ok; [exact H|lia..].
  - rewrite q_div_spec by lia. eapply qbump_ok; [exact H|lia..].
  - rewrite (qbump0 h), q_inv_spec by lia. eapply qbump_ok; [exact H|lia..].
  - unfold q_sqrt. destruct (3 =? Z.rem p 4); exact H.
  - destruct (Z.eq_dec (Z.of_nat fs + Z.of_nat j) 0) as [E|E].
    + assert (j = 0%nat) as -> by lia. assert (fs = 0%nat) as -> by lia. apply last_elt_ok, H.
    + unfold q_elt_drop. rewrite (qbump0 h), on_drops_bump, q_drop_bump by lia. eapply qbump_ok; [exact H|lia..].
Qed.
Lemma qheap_run_ok p ops : qheap_ok (qheap_run p ops).
Proof.
  unfold qheap_run. assert (G : forall s, qheap_ok s -> qheap_ok (fold_left (qheap_step p) ops s)).
  { induction ops as [|o ops IH]; intros s H; [exact H|]. cbn [fold_left]. apply IH, qheap_step_ok, H. }
  apply G. cbn. repeat split.
Qed.

(** While the user owns a field or an element, neither allocation has been freed. *)
Lemma c50_quadratic_no_early_free : forall p ops h fs es, qheap_run p ops = (h, fs, es) ->
  (fs <> 0%nat \/ es <> 0%nat) -> q_freed h = false /\ freed (q_base h) = false.
Proof.
  intros p ops h fs es E H. pose proof (qheap_run_ok p ops) as O. rewrite E in O. destruct O as (A & B & C & D).
  rewrite B, D. split; apply Z.eqb_neq; [lia|]. rewrite C. destruct (Z.eqb_spec (q_strong h) 0); lia.
Qed.
(** When the user's last field and last element are gone both allocations are freed, whatever the
    modulus and whatever was called before, square roots that panicked included. *)
Lemma c50_quadratic_reclaimed : forall p ops h, qheap_run p ops = (h, 0%nat, 0%nat) ->
  q_freed h = true /\ freed (q_base h) = true.
Proof.
  intros p ops h E. pose proof (qheap_run_ok p ops) as O. rewrite E in O. destruct O as (A & B & C & D).
  rewrite B, D, C, A. split; reflexivity.
Qed.
(** The counts are exactly what the owner holds: a field counts once, an element once for the field and
    twice for the base, which the field's own allocation holds once. *)
Lemma c50_quadratic_counts : forall p ops h fs es, qheap_run p ops = (h, fs, es) ->
  q_strong h = Z.of_nat fs + Z.of_nat es
  /\ strong (q_base h) = 2 * Z.of_nat es + (if q_freed h then 0 else 1)
  /\ filled (q_base h) = false.
Proof.
  intros p ops h fs es E. pose proof (qheap_run_ok p ops) as O. rewrite E in O. destruct O as (A & B & C & D).
  rewrite B. repeat split; [exact A|exact C|].
  assert (X : filled (q_base (fst (fst (qheap_run p ops)))) = false); [|rewrite E in X; exact X].
  unfold qheap_run. assert (G : forall s, filled (q_base (fst (fst s))) = false ->
    filled (q_base (fst (fst (fold_left (qheap_step p) ops s)))) = false); [|apply G; reflexivity].
  clear. assert (Cl : forall n g, filled (arc_clones n g) = filled g).
  { induction n as [|n IH]; intro g; [reflexivity|]. cbn. rewrite IH. reflexivity. }
  induction ops as [|o ops IH]; intros s H; [exact H|]. cbn [fold_left]. apply IH.
  assert (Dr : forall g, filled (q_base (q_drop g)) = filled (q_base g)).
  { intro g. unfold q_drop. destruct (q_strong g - 1 =? 0); reflexivity. }
  destruct s as [[h fs] es]. cbn in H. unfold qheap_step.
  destruct o; try (destruct fs as [|k]; [exact H|]); try (destruct es as [|j]; [exact H|]); cbn [fst]; try exact H.
  - rewrite Dr. exact H.
  - unfold q_div, q_elt_drop. rewrite Dr. exact H.
  - unfold q_sqrt. destruct (3 =? Z.rem p 4); exact H.
  - unfold q_elt_drop. rewrite Dr. exact H.
Qed.
Lemma qheap_run_snoc p ops o : qheap_run p (ops ++ [o]) = qheap_step p (qheap_run p ops) o.
Proof. unfold qheap_run. rewrite fold_left_app. reflexivity. Qed.
Lemma q_filled_clone h : q_filled (q_clone h) = q_filled h. Proof. reflexivity. Qed.
Lemma q_filled_on g h : q_filled (on_base g h) = q_filled h. Proof. reflexivity. Qed.
Lemma q_filled_drop h : q_filled (q_drop h) = q_filled h.
Proof. unfold q_drop. destruct (q_strong h - 1 =? 0); reflexivity. Qed.
Lemma qheap_step_filled p s o : q_filled (fst (fst (qheap_step p s o))) = true <->
  q_filled (fst (fst s)) = true \/ (o = QSqrt /\ snd s <> 0%nat /\ 3 = Z.rem p 4).
Proof.
  destruct s as [[h fs] es]. unfold qheap_step.
  destruct o; try (destruct fs as [|k]); try (destruct es as [|j]); cbn [fst snd];
    unfold q_elt, q_div, q_elt_drop, q_mul, q_inv_mod; cbv zeta;
    repeat first [rewrite q_filled_drop | rewrite q_filled_clone | rewrite q_filled_on];
    try (split; [intro; left; assumption|intros [H|(H & _)]; [exact H|discriminate H]]).
  all: try (split; [intro; left; assumption|intros [H|(_ & H & _)]; [exact H|contradiction]]).
  all: unfold q_sqrt; destruct (Z.eqb_spec 3 (Z.rem p 4)) as [E|E]; cbn [q_filled];
    [ split; [intros _; right; split; [reflexivity|split; [discriminate|exact E]]|reflexivity]
    | split; [intro; left; assumption|intros [H|(_ & _ & H)]; [exact H|contradiction]] ].
Qed.
(** The cell of the constants is filled by the first square root of an element for p = 3 mod 4, and by nothing else. *)
Lemma c50_quadratic_filled : forall p ops h fs es, 0 < p -> qheap_run p ops = (h, fs, es) ->
  (q_filled h = true <-> p mod 4 = 3 /\ exists before after h' fs' es',
     ops = before ++ QSqrt :: after /\ qheap_run p before = (h', fs', S es')).
Proof.
  intros p ops h fs es Hp E. assert (h = fst (fst (qheap_run p ops))) as -> by (rewrite E; reflexivity). clear E fs es.
  assert (R : Z.rem p 4 = p mod 4) by (apply Z.rem_mod_nonneg; lia).
  induction ops as [|o ops IH] using rev_ind.
  - split; [intro H; discriminate H|]. intros (_ & b & a & _ & _ & _ & H & _). destruct b; discriminate H.
  - rewrite qheap_run_snoc, qheap_step_filled, IH, R. split.
    + intros [(H & b & a & h' & fs' & es' & -> & Q)|(-> & H & M)].
      * split; [exact H|]. exists b, (a ++ [o]), h', fs', es'. split; [rewrite <- app_assoc; reflexivity|exact Q].
      * split; [symmetry; exact M|]. destruct (qheap_run p ops) as [[h' fs'] [|es']] eqn:Q; [contradiction|].
        exists ops, [], h', fs', es'. split; [reflexivity|exact Q].
    + intros (H & b & a & h' & fs' & es' & E & Q). destruct a as [|x a] using rev_ind.
      * apply app_inj_tail in E as [-> ->]. right. split; [reflexivity|]. rewrite Q. split; [discriminate|symmetry; exact H].
      * clear IHa. rewrite app_comm_cons, app_assoc in E. apply app_inj_tail in E as [-> ->]. left. split; [exact H|].
        exists b, a, h', fs', es'. split; [reflexivity|exact Q].
Qed.
(** The modulus 13 is 5 mod 8, where a prime field that took a square root is never freed. *)
Example c50_quadratic_ex :
  qheap_run 13 [QElt; QElt; QMul; QDiv; QSqrt; QDrop; QInv; QEltDrop; QEltDrop]
    = (mkQHeap 3 false false (mkHeap 7 0 false false), 0%nat, 3%nat)
  /\ qheap_run 7 [QElt; QSqrt; QClone; QDrop; QDrop; QEltDrop] = (mkQHeap 0 true true (mkHeap 0 0 false true), 0%nat, 0%nat)
  /\ qheap_run 13 [QElt; QSqrt; QEltDrop; QDrop] = (mkQHeap 0 false true (mkHeap 0 0 false true), 0%nat, 0%nat).
Proof. repeat split. Qed.
