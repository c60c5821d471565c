(** Threads running programs that share the square-root cells of Model/Shared.v. *)
From Coq Require Import ZArith Lia String Bool List Arith.
From Verif.Model Require Import Out Shared.
From Verif.Spec Require Concurrent.
Import ListNotations.

Lemma nth_update {X : Type} (upd : list X -> nat -> X -> list X)
  (U0 : forall i a, upd [] i a = []) (U1 : forall b l a, upd (b :: l) O a = a :: l) (U2 : forall b l i a, upd (b :: l) (S i) a = b :: upd l i a)
  l : forall i j a, nth_error (upd l i a) j = if Nat.eqb i j then match nth_error l i with Some _ => Some a | None => None end else nth_error l j.
Proof.
  induction l as [|b l IH]; intros i j a.
  - rewrite U0. destruct i, j; cbn; try reflexivity. destruct (Nat.eqb i j); reflexivity.
  - destruct i.
    + rewrite U1. destruct j; reflexivity.
    + rewrite U2. destruct j; cbn; [reflexivity|apply IH].
Qed.

Section Shared.
Context {F Q C R : Type}.
Variables (feqb : F -> F -> bool) (fld : Q -> F) (calc : F -> out C) (answer : C -> Q -> out R).
Hypothesis feqb_ok : forall f g, feqb f g = true <-> f = g.

Notation alone := (Concurrent.alone fld calc answer).
(** how many steps it takes then *)
Fixpoint cost {A : Type} (p : prog (Q := Q) (R := R) A) : nat :=
  match p with
  | Done _ => 1
  | Ask x k =>
      5 + match calc (fld x) with
          | Panic _ => 0
          | Ret pre => match answer pre x with Panic _ => 0 | Ret r => cost (k r) end
          end
  end.
Lemma alone_bind {A B : Type} (p : prog (Q := Q) (R := R) A) (k : A -> prog B) : alone (pbind p k) = bind (alone p) (fun a => alone (k a)).
Proof.
  induction p as [[a|msg]|x j IH]; [reflexivity|reflexivity|]. cbn [pbind Concurrent.alone].
  destruct (calc (fld x)) as [pre|msg]; [|reflexivity]. destruct (answer pre x) as [r|msg]; [apply IH|reflexivity].
Qed.

Section Run.
Context {A : Type}.
Notation prog := (prog (Q := Q) (R := R) A).
Notation thread := (@thread Q C R A).
Notation phase := (@phase Q C R A).
Notation sys := (@sys F Q C R A).
Notation thread_step := (thread_step feqb fld calc answer).
Notation sys_step := (sys_step feqb fld calc answer).
Notation sys_run := (sys_run feqb fld calc answer).

Definition BORROW : string := "already mutably borrowed".
(** the number of steps the programs of one thread take *)
Definition work (l : list (nat * prog)) : nat := fold_right (fun ip n => 1 + cost (snd ip) + n) 0 l.

Lemma set_get (T : @cells F C) i f c j g : set feqb T i f c j g = if Nat.eqb i j && feqb f g then c else T j g.
Proof. reflexivity. Qed.
Lemma feqb_refl f : feqb f f = true.
Proof. apply feqb_ok. reflexivity. Qed.

(** the cell a thread holds *)
Definition holds (i : nat) (f : F) (t : thread) : bool :=
  match ph t with
  | Holding j _ x _ | Computed j _ x _ _ | Cloned j _ x _ _ => Nat.eqb j i && feqb (fld x) f
  | _ => false
  end.
Definition cells_ok (T : @cells F C) : Prop := forall i f pre, cache (T i f) = Some pre -> calc f = Ret pre.
Definition phase_ok (h : phase) : Prop :=
  match h with
  | Idle => True
  | Running _ p0 p => alone p = alone p0
  | Holding _ p0 x k => alone (Ask x k) = alone p0
  | Computed _ p0 x k c | Cloned _ p0 x k c | Released _ p0 x k c => alone (Ask x k) = alone p0 /\ calc (fld x) = Ret c
  end.
Definition phase_left (h : phase) : nat :=
  match h with
  | Idle => 0
  | Running _ _ p => cost p
  | Holding _ _ x k => cost (Ask x k) - 1
  | Computed _ _ x k _ => cost (Ask x k) - 2
  | Cloned _ _ x k _ => cost (Ask x k) - 3
  | Released _ _ x k _ => cost (Ask x k) - 4
  end.
Definition phase_arena (h : phase) : option nat :=
  match h with
  | Idle => None
  | Running i _ _ | Holding i _ _ _ | Computed i _ _ _ _ | Cloned i _ _ _ _ | Released i _ _ _ _ => Some i
  end.
Definition phase_prog (h : phase) : list prog :=
  match h with
  | Idle => []
  | Running _ p _ | Holding _ p _ _ | Computed _ p _ _ _ | Cloned _ p _ _ _ | Released _ p _ _ _ => [p]
  end.
Definition fuel (t : thread) : nat := work (todo t) + phase_left (ph t).
Definition calls (t : thread) : list prog := (rev (map fst (ended t)) ++ phase_prog (ph t) ++ map snd (todo t))%list.
Definition ended_ok (r : prog * out A) : Prop := snd r = alone (fst r) \/ snd r = Panic BORROW.
(** [own]: the thread meets no other one in its cells, and its calls have ended as they do alone *)
Definition thread_ok (t : thread) : Prop := phase_ok (ph t) /\ Forall ended_ok (ended t).

Lemma cost_pos (p : prog) : 1 <= cost p.
Proof. destruct p; cbn; lia. Qed.

Ltac inv E := injection E as <- <-.
(** one step of one thread *)
Lemma step_ok T t T' t' : cells_ok T -> thread_ok t -> thread_step T t = Some (T', t') ->
  cells_ok T' /\ thread_ok t' /\ fuel t' < fuel t /\ calls t' = calls t.
Proof.
  intros HT [Hp Hd] E. unfold thread_step, Shared.thread_step in E. destruct t as [td p dn]. cbn [ph todo ended] in *.
  unfold thread_ok, fuel, calls. cbn [ph todo ended].
  destruct p as [|i p0 p|i p0 x k|i p0 x k c|i p0 x k c|i p0 x k c].
  - destruct td as [|[i p] rest]; [discriminate|]. inv E. cbn [ph todo ended work fold_right phase_left phase_ok phase_prog snd map].
    split; [exact HT|]. split; [split; [reflexivity|exact Hd]|]. split; [unfold work; lia|]. reflexivity.
  - destruct p as [o|x k].
    + inv E. cbn [stop ph todo ended phase_ok phase_left phase_prog map fst rev]. split; [exact HT|]. split.
      { split; [exact I|]. constructor; [|exact Hd]. left. exact Hp. }
      split; [cbn [cost]; lia|]. rewrite <- !app_assoc. reflexivity.
    + destruct (borrowed (T i (fld x))) eqn:B; inv E; cbn [stop ph todo ended phase_ok phase_left phase_prog map fst rev].
      * split; [exact HT|]. split. { split; [exact I|]. constructor; [|exact Hd]. right. reflexivity. }
        split; [pose proof (cost_pos (Ask x k)); lia|]. rewrite <- !app_assoc. reflexivity.
      * split. { intros j f pre. rewrite set_get. destruct (Nat.eqb i j && feqb (fld x) f) eqn:M; [|apply HT].
          apply andb_true_iff in M. rewrite Nat.eqb_eq, feqb_ok in M. destruct M as [<- <-]. apply HT. }
        split; [split; [exact Hp|exact Hd]|]. split; [pose proof (cost_pos (Ask x k)); lia|reflexivity].
  - cbn [phase_ok] in Hp. destruct (calc (fld x)) as [new|msg] eqn:N; inv E; cbn [stop ph todo ended phase_ok phase_left phase_prog map fst rev].
    + split; [exact HT|]. split; [split; [split; [exact Hp|exact N]|exact Hd]|]. split; [cbn [cost]; lia|reflexivity].
    + split. { intros j f pre. rewrite set_get. destruct (Nat.eqb i j && feqb (fld x) f) eqn:M; [|apply HT].
        apply andb_true_iff in M. rewrite Nat.eqb_eq, feqb_ok in M. destruct M as [<- <-]. apply HT. }
      split. { split; [exact I|]. constructor; [|exact Hd]. left. cbn [snd fst]. rewrite <- Hp. cbn [Concurrent.alone]. rewrite N. reflexivity. }
      split; [cbn [cost]; lia|]. rewrite <- !app_assoc. reflexivity.
  - destruct Hp as [Hp N]. inv E. cbn [stop ph todo ended phase_ok phase_left phase_prog map fst rev].
    assert (P : match cache (T i (fld x)) with Some old => old | None => c end = c).
    { destruct (cache (T i (fld x))) as [old|] eqn:O; [|reflexivity]. apply HT in O. congruence. }
    rewrite P. split. { intros j f pre. rewrite set_get. destruct (Nat.eqb i j && feqb (fld x) f) eqn:M; [|apply HT].
      apply andb_true_iff in M. rewrite Nat.eqb_eq, feqb_ok in M. destruct M as [<- <-]. cbn. congruence. }
    split; [split; [split; [exact Hp|exact N]|exact Hd]|]. split; [cbn [cost]; lia|reflexivity].
  - destruct Hp as [Hp N]. inv E. cbn [stop ph todo ended phase_ok phase_left phase_prog map fst rev].
    split. { intros j f pre. rewrite set_get. destruct (Nat.eqb i j && feqb (fld x) f) eqn:M; [|apply HT].
      apply andb_true_iff in M. rewrite Nat.eqb_eq, feqb_ok in M. destruct M as [<- <-]. apply HT. }
    split; [split; [split; [exact Hp|exact N]|exact Hd]|]. split; [cbn [cost]; lia|reflexivity].
  - destruct Hp as [Hp N]. destruct (answer c x) as [r|msg] eqn:Ans; inv E; cbn [stop ph todo ended phase_ok phase_left phase_prog map fst rev].
    + split; [exact HT|]. split. { split; [|exact Hd]. rewrite <- Hp. cbn [Concurrent.alone]. rewrite N, Ans. reflexivity. }
      split; [cbn [cost]; rewrite N, Ans; lia|reflexivity].
    + split; [exact HT|]. split. { split; [exact I|]. constructor; [|exact Hd]. left. cbn [snd fst]. rewrite <- Hp. cbn [Concurrent.alone]. rewrite N, Ans. reflexivity. }
      split; [cbn [cost]; lia|]. rewrite <- !app_assoc. reflexivity.
Qed.
(** a thread with something left to do can always take a step *)
Lemma step_none T (t : thread) : thread_step T t = None <-> ph t = Idle /\ todo t = [].
Proof.
  unfold thread_step, Shared.thread_step. destruct t as [td p dn]. cbn [ph todo ended]. split.
  - destruct p as [|i p0 [o|x k]|i p0 x k|i p0 x k c|i p0 x k c|i p0 x k c]; try discriminate.
    + destruct td as [|[i p] rest]; [auto|discriminate].
    + destruct (borrowed (T i (fld x))); discriminate.
    + destruct (calc (fld x)); discriminate.
    + destruct (answer c x); discriminate.
  - intros [-> ->]. reflexivity.
Qed.

Definition sys_ok (s : sys) : Prop := cells_ok (s_cells s) /\ Forall thread_ok (s_threads s).
Lemma nth_upd l : forall i j (a : thread), nth_error (update l i a) j = if Nat.eqb i j then match nth_error l i with Some _ => Some a | None => None end else nth_error l j.
Proof. apply (nth_update (@update Q C R A)); reflexivity. Qed.
Lemma upd_forall (P : thread -> Prop) l i a : Forall P l -> P a -> Forall P (update l i a).
Proof. intros H Ha. revert i. induction H as [|b l Hb Hl IH]; intros [|i]; cbn; constructor; auto. Qed.
Lemma sys_step_ok s n : sys_ok s -> sys_ok (sys_step s n).
Proof.
  intros [HT Ht]. unfold sys_step, Shared.sys_step. destruct (nth_error (s_threads s) n) as [t|] eqn:N; [|split; assumption].
  destruct (thread_step (s_cells s) t) as [[T' t']|] eqn:E; [|split; assumption].
  pose proof (nth_error_In _ _ N) as I. pose proof Ht as Ht'. rewrite Forall_forall in Ht'.
  destruct (step_ok _ _ _ _ HT (Ht' t I) E) as (H1 & H2 & _). split; [exact H1|]. apply upd_forall; assumption.
Qed.
Lemma run_inv (P : sys -> Prop) : (forall s n, sys_ok s -> P s -> P (sys_step s n)) -> forall sched s, sys_ok s -> P s -> P (sys_run s sched) /\ sys_ok (sys_run s sched).
Proof.
  intros H sched. induction sched as [|n sched IH]; intros s O HP; [split; assumption|]. cbn [sys_run Shared.sys_run fold_left].
  apply IH; [apply sys_step_ok, O|apply H; assumption].
Qed.
Lemma init_ok (progs : list (list (nat * prog))) : sys_ok (sys_init progs).
Proof.
  split; [intros i f pre; discriminate|]. apply Forall_forall. intros t Ht. cbn in Ht. apply in_map_iff in Ht. destruct Ht as (l & <- & _).
  split; [exact I|constructor].
Qed.
(** *** answers *)
Lemma shared_answers (progs : list (list (nat * prog))) sched t p r : In t (s_threads (sys_run (sys_init progs) sched)) -> In (p, r) (ended t) ->
  r = alone p \/ r = Panic BORROW.
Proof.
  intros Ht Hr. destruct (run_inv (fun _ => True) (fun _ _ _ _ => I) sched _ (init_ok progs) I) as [_ [_ H]].
  rewrite Forall_forall in H. destruct (H t Ht) as [_ D]. rewrite Forall_forall in D. exact (D _ Hr).
Qed.
Lemma shared_caches (progs : list (list (nat * prog))) sched i f pre : cache (s_cells (sys_run (sys_init progs) sched) i f) = Some pre -> calc f = Ret pre.
Proof.
  intros H. destruct (run_inv (fun _ => True) (fun _ _ _ _ => I) sched _ (init_ok progs) I) as [_ [HT _]]. exact (HT i f pre H).
Qed.

(** *** mutual exclusion *)
Definition holders (i : nat) (f : F) (s : sys) : nat := length (filter (holds i f) (s_threads s)).
Definition exclusive (s : sys) : Prop := forall i f, holders i f s = if borrowed (s_cells s i f) then 1 else 0.
Lemma update_filter (h : thread -> bool) l i (a b : thread) : nth_error l i = Some a ->
  length (filter h (update l i b)) + (if h a then 1 else 0) = length (filter h l) + (if h b then 1 else 0).
Proof.
  revert i. induction l as [|c l IH]; intros [|i] H; try discriminate; cbn in *.
  - injection H as ->. destruct (h a), (h b); cbn; lia.
  - specialize (IH i H). destruct (h c); cbn; lia.
Qed.
Lemma holder_borrows s n t i f : exclusive s -> nth_error (s_threads s) n = Some t -> holds i f t = true -> borrowed (s_cells s i f) = true.
Proof.
  intros HE N Hh. specialize (HE i f). destruct (borrowed (s_cells s i f)); [reflexivity|]. unfold holders in HE.
  assert (In t (filter (holds i f) (s_threads s))) by (apply filter_In; split; [exact (nth_error_In _ _ N)|exact Hh]).
  destruct (filter (holds i f) (s_threads s)); [contradiction|discriminate].
Qed.
Lemma exclusive_step s n : sys_ok s -> exclusive s -> exclusive (sys_step s n).
Proof.
  intros _ HE i f. unfold sys_step, Shared.sys_step. destruct (nth_error (s_threads s) n) as [t|] eqn:N; [|apply HE].
  destruct (thread_step (s_cells s) t) as [[T' t']|] eqn:E; [|apply HE].
  unfold holders. cbn [s_threads s_cells]. pose proof (update_filter (holds i f) (s_threads s) n t t' N) as U.
  pose proof (HE i f) as H. unfold holders in H.
  pose proof (holder_borrows s n t i f HE N) as HL.
  set (fl := length (filter (holds i f) (s_threads s))) in *. set (fl' := length (filter (holds i f) (update (s_threads s) n t'))) in *. clearbody fl fl'.
  unfold thread_step, Shared.thread_step in E. destruct t as [td p dn]. cbn [ph todo ended] in *.
  assert (SET : forall j y (c' : cell), borrowed (set feqb (s_cells s) j (fld y) c' i f) = if Nat.eqb j i && feqb (fld y) f then borrowed c' else borrowed (s_cells s i f)).
  { intros j y c'. rewrite set_get. destruct (Nat.eqb j i && feqb (fld y) f); reflexivity. }
  assert (EQ : forall j y, Nat.eqb j i && feqb (fld y) f = true -> s_cells s j (fld y) = s_cells s i f).
  { intros j y M. apply andb_true_iff in M. rewrite Nat.eqb_eq, feqb_ok in M. destruct M as [<- <-]. reflexivity. }
  unfold holds in *. cbn [ph] in *.
  destruct p as [|j p0 [o|x k]|j p0 x k|j p0 x k c|j p0 x k c|j p0 x k c].
  - destruct td as [|[j p] rest]; [discriminate|]. inv E. cbn [ph] in *. lia.
  - inv E. cbn [stop ph] in *. lia.
  - destruct (borrowed (s_cells s j (fld x))) eqn:B; inv E; cbn [stop ph] in *; [lia|].
    rewrite SET. cbn [borrowed]. destruct (Nat.eqb j i && feqb (fld x) f) eqn:M; [|lia].
    rewrite (EQ j x M) in B. rewrite B in H. lia.
  - destruct (calc (fld x)) as [new|msg]; inv E; cbn [stop ph] in *; [lia|].
    rewrite SET. cbn [borrowed]. destruct (Nat.eqb j i && feqb (fld x) f) eqn:M; [|lia]. rewrite (HL eq_refl) in H. lia.
  - inv E. cbn [ph] in *. rewrite SET. cbn [borrowed]. destruct (Nat.eqb j i && feqb (fld x) f) eqn:M; [|lia].
    rewrite (EQ j x M). lia.
  - inv E. cbn [ph] in *. rewrite SET. cbn [borrowed]. destruct (Nat.eqb j i && feqb (fld x) f) eqn:M; [|lia]. rewrite (HL eq_refl) in H. lia.
  - destruct (answer c x) as [r|msg]; inv E; cbn [stop ph] in *; lia.
Qed.
Lemma exclusive_init (progs : list (list (nat * prog))) : exclusive (sys_init progs).
Proof. intros i f. unfold holders. cbn. induction progs as [|l progs IH]; [reflexivity|exact IH]. Qed.
Lemma shared_exclusive (progs : list (list (nat * prog))) sched : exclusive (sys_run (sys_init progs) sched).
Proof. exact (proj1 (run_inv exclusive exclusive_step sched _ (init_ok progs) (exclusive_init progs))). Qed.
(** when every thread is between two calls, no cell is borrowed *)
Lemma shared_quiet (progs : list (list (nat * prog))) sched i f : let s := sys_run (sys_init progs) sched in
  (forall t, In t (s_threads s) -> ph t = Idle) -> borrowed (s_cells s i f) = false.
Proof.
  intros s H. pose proof (shared_exclusive progs sched i f) as E. fold s in E. destruct (borrowed (s_cells s i f)); [|reflexivity]. unfold holders in E.
  destruct (filter (holds i f) (s_threads s)) as [|t l] eqn:FL; [discriminate|].
  assert (I : In t (filter (holds i f) (s_threads s))) by (rewrite FL; left; reflexivity). apply filter_In in I. destruct I as [I Hh].
  unfold holds in Hh. rewrite (H t I) in Hh. discriminate.
Qed.

(** *** a cell once filled keeps its constants, and it is filled before a request is answered *)
Lemma step_keeps T (t : thread) T' t' i f pre : thread_step T t = Some (T', t') -> cache (T i f) = Some pre -> cache (T' i f) = Some pre.
Proof.
  intros E H. unfold thread_step, Shared.thread_step in E.
  assert (EQ : forall j y, Nat.eqb j i && feqb (fld y) f = true -> T j (fld y) = T i f).
  { intros j y M. apply andb_true_iff in M. rewrite Nat.eqb_eq, feqb_ok in M. destruct M as [<- <-]. reflexivity. }
  destruct (ph t) as [|j p0 [o|x k]|j p0 x k|j p0 x k c|j p0 x k c|j p0 x k c].
  - destruct (todo t) as [|[j p] rest]; [discriminate|]. inv E. exact H.
  - inv E. exact H.
  - destruct (borrowed (T j (fld x))); inv E; [exact H|]. rewrite set_get. destruct (Nat.eqb j i && feqb (fld x) f) eqn:M; [|exact H]. rewrite (EQ j x M). exact H.
  - destruct (calc (fld x)); inv E; [exact H|]. rewrite set_get. destruct (Nat.eqb j i && feqb (fld x) f) eqn:M; [|exact H]. rewrite (EQ j x M). exact H.
  - inv E. rewrite set_get. destruct (Nat.eqb j i && feqb (fld x) f) eqn:M; [|exact H]. rewrite (EQ j x M), H. reflexivity.
  - inv E. rewrite set_get. destruct (Nat.eqb j i && feqb (fld x) f) eqn:M; [|exact H]. rewrite (EQ j x M). exact H.
  - destruct (answer c x); inv E; exact H.
Qed.
Lemma run_keeps sched : forall (s : sys) i f pre, cache (s_cells s i f) = Some pre -> cache (s_cells (sys_run s sched) i f) = Some pre.
Proof.
  induction sched as [|n sched IH]; intros s i f pre H; [exact H|]. change (sys_run s (n :: sched)) with (sys_run (sys_step s n) sched). apply IH.
  unfold sys_step, Shared.sys_step. destruct (nth_error (s_threads s) n) as [t|]; [|exact H].
  destruct (thread_step (s_cells s) t) as [[T' t']|] eqn:E; [|exact H]. exact (step_keeps _ _ _ _ _ _ _ E H).
Qed.
Lemma shared_keeps (progs : list (list (nat * prog))) sched more i f pre : cache (s_cells (sys_run (sys_init progs) sched) i f) = Some pre ->
  cache (s_cells (sys_run (sys_init progs) (sched ++ more)) i f) = Some pre.
Proof. unfold sys_run, Shared.sys_run. rewrite fold_left_app. apply run_keeps. Qed.
Definition filled (T : @cells F C) (t : thread) : Prop :=
  match ph t with Cloned i _ x _ c | Released i _ x _ c => cache (T i (fld x)) = Some c | _ => True end.
Lemma step_filled T (t : thread) T' t' : filled T t -> thread_step T t = Some (T', t') -> filled T' t'.
Proof.
  intros H E. pose proof (fun i f pre => step_keeps T t T' t' i f pre E) as K. unfold filled in *. unfold thread_step, Shared.thread_step in E.
  destruct (ph t) as [|j p0 [o|x k]|j p0 x k|j p0 x k c|j p0 x k c|j p0 x k c].
  - destruct (todo t) as [|[j p] rest]; [discriminate|]. inv E. exact I.
  - inv E. exact I.
  - destruct (borrowed (T j (fld x))); inv E; exact I.
  - destruct (calc (fld x)); inv E; exact I.
  - inv E. cbn [ph]. rewrite set_get, Nat.eqb_refl, feqb_refl. reflexivity.
  - inv E. cbn [ph]. exact (K _ _ _ H).
  - destruct (answer c x); inv E; exact I.
Qed.
Lemma shared_filled (progs : list (list (nat * prog))) sched t i p0 x k pre : let s := sys_run (sys_init progs) sched in
  In t (s_threads s) -> ph t = Released i p0 x k pre -> cache (s_cells s i (fld x)) = Some pre.
Proof.
  intros s Ht E. assert (F0 : Forall (filled (s_cells s)) (s_threads s)).
  { apply (run_inv (fun s : sys => Forall (filled (s_cells s)) (s_threads s))); [|exact (init_ok progs)|].
    - intros s0 n _ H. unfold sys_step, Shared.sys_step. destruct (nth_error (s_threads s0) n) as [u|] eqn:N; [|exact H].
      destruct (thread_step (s_cells s0) u) as [[T' u']|] eqn:Eu; [|exact H]. cbn [s_cells s_threads]. apply upd_forall.
      + revert H. apply Forall_impl. intros v Hv. unfold filled in *. destruct (ph v); try exact I; exact (step_keeps _ _ _ _ _ _ _ Eu Hv).
      + rewrite Forall_forall in H. exact (step_filled _ _ _ _ (H u (nth_error_In _ _ N)) Eu).
    - apply Forall_forall. intros u Hu. cbn in Hu. apply in_map_iff in Hu. destruct Hu as (l & <- & _). exact I. }
  rewrite Forall_forall in F0. specialize (F0 t Ht). unfold filled in F0. rewrite E in F0. exact F0.
Qed.

(** *** every thread ends its calls after a number of steps of its own that does not depend on the others *)
Definition left_at (n : nat) (s : sys) : nat := match nth_error (s_threads s) n with Some t => fuel t | None => 0 end.
Lemma left_step s n m : sys_ok s -> left_at n (sys_step s m) <= left_at n s /\ (m = n -> left_at n (sys_step s m) = 0 \/ left_at n (sys_step s m) < left_at n s).
Proof.
  intros [HT Ht]. unfold left_at, sys_step, Shared.sys_step. destruct (nth_error (s_threads s) m) as [t|] eqn:N.
  - destruct (thread_step (s_cells s) t) as [[T' t']|] eqn:E.
    + cbn [s_threads]. rewrite nth_upd, N. rewrite Forall_forall in Ht. destruct (step_ok _ _ _ _ HT (Ht t (nth_error_In _ _ N)) E) as (_ & _ & L & _).
      destruct (Nat.eqb_spec m n) as [->|D].
      * rewrite N. split; [lia|]. right. lia.
      * split; [lia|]. intro X. contradiction.
    + split; [lia|]. intros ->. rewrite N. apply step_none in E. destruct E as [E1 E2]. left. unfold fuel. rewrite E1, E2. reflexivity.
  - split; [lia|]. intros ->. rewrite N. left. reflexivity.
Qed.
Lemma left_run n sched : forall s, sys_ok s -> left_at n (sys_run s sched) <= left_at n s - count_occ Nat.eq_dec sched n.
Proof.
  induction sched as [|m sched IH]; intros s O; [cbn; lia|]. change (sys_run s (m :: sched)) with (sys_run (sys_step s m) sched).
  specialize (IH (sys_step s m) (sys_step_ok s m O)). destruct (left_step s n m O) as [L1 L2]. cbn [count_occ].
  destruct (Nat.eq_dec m n) as [E|D]; [|lia]. destruct (L2 E); lia.
Qed.
Definition calls_at (n : nat) (s : sys) : option (list prog) := match nth_error (s_threads s) n with Some t => Some (calls t) | None => None end.
Lemma calls_step n s m : sys_ok s -> calls_at n (sys_step s m) = calls_at n s.
Proof.
  intros [HT Ht]. unfold calls_at, sys_step, Shared.sys_step. destruct (nth_error (s_threads s) m) as [t|] eqn:N; [|reflexivity].
  destruct (thread_step (s_cells s) t) as [[T' t']|] eqn:E; [|reflexivity].
  cbn [s_threads]. rewrite nth_upd, N. rewrite Forall_forall in Ht. destruct (step_ok _ _ _ _ HT (Ht t (nth_error_In _ _ N)) E) as (_ & _ & _ & L).
  destruct (Nat.eqb_spec m n) as [->|D]; [|reflexivity]. rewrite N. f_equal. exact L.
Qed.
Lemma shared_prefix (progs : list (list (nat * prog))) sched n l : nth_error progs n = Some l ->
  exists t rest, nth_error (s_threads (sys_run (sys_init progs) sched)) n = Some t /\ map snd l = (rev (map fst (ended t)) ++ rest)%list.
Proof.
  intros Hn. set (s := sys_run (sys_init progs) sched).
  assert (I0 : nth_error (s_threads (sys_init (F := F) (C := C) progs)) n = Some (start l)) by (cbn; rewrite nth_error_map, Hn; reflexivity).
  destruct (run_inv (fun s => calls_at n s = Some (map snd l)) (fun s0 m O H => eq_trans (calls_step n s0 m O) H) sched _ (init_ok progs)) as [HC _].
  { unfold calls_at. rewrite I0. reflexivity. }
  fold s in HC. unfold calls_at in HC. destruct (nth_error (s_threads s) n) as [t|]; [|discriminate]. injection HC as HC.
  exists t, (phase_prog (ph t) ++ map snd (todo t))%list. split; [reflexivity|]. symmetry. exact HC.
Qed.
Lemma work_0 l : work l = 0 -> l = [].
Proof. destruct l; [reflexivity|discriminate]. Qed.
Lemma shared_ends (progs : list (list (nat * prog))) sched n l : nth_error progs n = Some l -> work l <= count_occ Nat.eq_dec sched n ->
  exists t, nth_error (s_threads (sys_run (sys_init progs) sched)) n = Some t /\ todo t = [] /\ ph t = Idle
    /\ rev (map fst (ended t)) = map snd l.
Proof.
  intros Hn Hc. set (s := sys_run (sys_init progs) sched).
  assert (I0 : nth_error (s_threads (sys_init (F := F) (C := C) progs)) n = Some (start l)) by (cbn; rewrite nth_error_map, Hn; reflexivity).
  pose proof (left_run n sched _ (init_ok progs)) as L. fold s in L. unfold left_at at 2 in L. rewrite I0 in L. unfold fuel, start in L. cbn [todo ph phase_left] in L.
  destruct (run_inv (fun s => calls_at n s = Some (map snd l)) (fun s0 m O H => eq_trans (calls_step n s0 m O) H) sched _ (init_ok progs)) as [HC [HT Ht]].
  { unfold calls_at. rewrite I0. reflexivity. }
  fold s in HC, HT, Ht. unfold calls_at in HC. unfold left_at in L. destruct (nth_error (s_threads s) n) as [t|] eqn:N; [|discriminate].
  exists t. split; [reflexivity|]. unfold fuel in L. injection HC as HC.
  assert (T0 : todo t = []) by (apply work_0; lia). unfold calls in HC.
  assert (P0 : ph t = Idle).
  { destruct (ph t) as [|i p0 p|i p0 x k|i p0 x k c|i p0 x k c|i p0 x k c]; [reflexivity|..]; exfalso.
    - pose proof (cost_pos p). cbn [phase_left] in L. lia.
    - cbn [phase_left cost] in L. lia.
    - cbn [phase_left cost] in L. lia.
    - cbn [phase_left cost] in L. lia.
    - cbn [phase_left cost] in L. lia. }
  split; [exact T0|]. split; [exact P0|]. rewrite T0, P0 in HC. cbn in HC. rewrite app_nil_r in HC. exact HC.
Qed.

(** *** threads that share no cell never panic on a borrow *)
Definition own (owner : nat -> nat) (s : sys) : Prop := exclusive s /\ forall n t, nth_error (s_threads s) n = Some t ->
  (forall i p, In (i, p) (todo t) -> owner i = n) /\ (forall i, phase_arena (ph t) = Some i -> owner i = n)
  /\ Forall (fun r => snd r = alone (fst r)) (ended t).
Lemma own_step owner s m : sys_ok s -> own owner s -> own owner (sys_step s m).
Proof.
  intros O [HE HO]. split; [apply exclusive_step; assumption|]. destruct O as [HT Ht].
  unfold sys_step, Shared.sys_step. destruct (nth_error (s_threads s) m) as [t|] eqn:N; [|exact HO].
  destruct (thread_step (s_cells s) t) as [[T' t']|] eqn:E; [|exact HO].
  intros n u Hu. cbn [s_threads] in Hu. rewrite nth_upd, N in Hu. destruct (Nat.eqb_spec m n) as [->|D]; [|exact (HO n u Hu)].
  injection Hu as <-. destruct (HO n t N) as (H1 & H2 & H3).
  rewrite Forall_forall in Ht. destruct (Ht t (nth_error_In _ _ N)) as [Hp _].
  assert (NB : forall i p0 x k, ph t = Running i p0 (Ask x k) -> borrowed (s_cells s i (fld x)) = false).
  { intros i p0 x k Eph. destruct (borrowed (s_cells s i (fld x))) eqn:B; [|reflexivity]. exfalso. pose proof (HE i (fld x)) as Ex. rewrite B in Ex. unfold holders in Ex.
    destruct (filter (holds i (fld x)) (s_threads s)) as [|h l] eqn:FL; [discriminate|].
    assert (I : In h (filter (holds i (fld x)) (s_threads s))) by (rewrite FL; left; reflexivity). apply filter_In in I. destruct I as [I Hh].
    apply In_nth_error in I. destruct I as [n' N']. destruct (HO n' h N') as (_ & H2' & _).
    assert (A' : phase_arena (ph h) = Some i).
    { unfold holds in Hh. destruct (ph h); try discriminate; apply andb_true_iff in Hh; destruct Hh as [Hh _]; apply Nat.eqb_eq in Hh; subst; reflexivity. }
    apply H2' in A'. assert (En : n' = n) by (rewrite <- A'; apply H2; rewrite Eph; reflexivity). rewrite En, N in N'. injection N' as <-.
    unfold holds in Hh. rewrite Eph in Hh. discriminate. }
  unfold thread_step, Shared.thread_step in E. destruct t as [td p dn]. cbn [ph todo ended] in *.
  destruct p as [|i p0 [o|x k]|i p0 x k|i p0 x k c|i p0 x k c|i p0 x k c].
  - destruct td as [|[i p] rest]; [discriminate|]. inv E. cbn [todo ph ended phase_arena].
    split; [intros j q Hj; apply (H1 j q); right; exact Hj|]. split; [|exact H3]. intros j Ej. injection Ej as <-. apply (H1 i p). left. reflexivity.
  - inv E. cbn [stop todo ph ended phase_arena]. split; [exact H1|]. split; [discriminate|]. constructor; [|exact H3]. cbn. exact Hp.
  - rewrite (NB i p0 x k eq_refl) in E. inv E. cbn [todo ph ended phase_arena]. split; [exact H1|]. split; [exact H2|exact H3].
  - cbn [phase_ok] in Hp. destruct (calc (fld x)) as [new|msg] eqn:NC; inv E; cbn [stop todo ph ended phase_arena]; (split; [exact H1|]); (split; [first [exact H2|discriminate]|]); [exact H3|].
    constructor; [|exact H3]. cbn [snd fst]. rewrite <- Hp. cbn [Concurrent.alone]. rewrite NC. reflexivity.
  - inv E. cbn [todo ph ended phase_arena]. split; [exact H1|]. split; [exact H2|exact H3].
  - inv E. cbn [todo ph ended phase_arena]. split; [exact H1|]. split; [exact H2|exact H3].
  - destruct Hp as [Hp NC]. destruct (answer c x) as [r|msg] eqn:An; inv E; cbn [stop todo ph ended phase_arena]; (split; [exact H1|]); (split; [first [exact H2|discriminate]|]); [exact H3|].
    constructor; [|exact H3]. cbn [snd fst]. rewrite <- Hp. cbn [Concurrent.alone]. rewrite NC, An. reflexivity.
Qed.
Lemma shared_own owner (progs : list (list (nat * prog))) sched t p r : (forall n l i q, nth_error progs n = Some l -> In (i, q) l -> owner i = n) ->
  In t (s_threads (sys_run (sys_init progs) sched)) -> In (p, r) (ended t) -> r = alone p.
Proof.
  intros HO Ht Hr. destruct (run_inv (own owner) (own_step owner) sched _ (init_ok progs)) as [[_ H] _].
  { split; [apply exclusive_init|]. intros n u Hu. cbn in Hu. rewrite nth_error_map in Hu. destruct (nth_error progs n) as [l|] eqn:Hl; [|discriminate].
    injection Hu as <-. cbn. split; [intros i q; exact (HO n l i q Hl)|]. split; [discriminate|constructor]. }
  apply In_nth_error in Ht. destruct Ht as [n N]. destruct (H n t N) as (_ & _ & D). rewrite Forall_forall in D. exact (D _ Hr).
Qed.
End Run.
End Shared.
