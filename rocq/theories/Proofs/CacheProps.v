(** C08, C09, C50: the square-root cache, concurrent callers, reference counts. *)
From Coq Require Import ZArith Znumtheory Lia String Bool List.
From Verif.Math Require Import Zp.
From Verif.Spec Require Import Arith.
From Verif.Model Require Import Out BigInt PrimeField SqrtCache.
From Verif.Proofs Require Import FieldP FieldProps.
From Verif.Spec Require Export CacheState.
Import ListNotations.
Open Scope Z_scope.

(** *** C08 *)
(** what the cache may hold: nothing, or the constants of this field *)
Definition cache_ok (c : Cell) : Prop :=
  forall pre, c_cache c = Some pre -> calc_sqrt_precmp (c_field c) = Ret pre.

Lemma sqrt_cached_step c x : cache_ok c -> c_borrowed c = false -> fld x = c_field c ->
  snd (sqrt_cached c x) = sqrt x /\ cache_ok (fst (sqrt_cached c x))
  /\ c_borrowed (fst (sqrt_cached c x)) = false /\ c_field (fst (sqrt_cached c x)) = c_field c.
Proof.
  intros Hc Hb Hx. unfold sqrt_cached, sqrt. rewrite Hb, Hx.
  destruct (calc_sqrt_precmp (c_field c)) as [new|msg] eqn:E; cbn [bind fst snd].
  - assert (P : get_or_insert (c_cache c) new = new).
    { unfold get_or_insert. destruct (c_cache c) as [old|] eqn:C; [|reflexivity].
      specialize (Hc old C). rewrite E in Hc. congruence. }
    rewrite P. repeat split. intros pre. cbn. intro Q. injection Q as <-. exact E.
  - repeat split. intros pre. cbn. intro Q. specialize (Hc pre Q). rewrite E in Hc. discriminate.
Qed.

Lemma history_spec xs : forall c, cache_ok c -> c_borrowed c = false -> (forall x, In x xs -> fld x = c_field c) ->
  snd (sqrt_history c xs) = map sqrt xs /\ cache_ok (fst (sqrt_history c xs))
  /\ c_field (fst (sqrt_history c xs)) = c_field c.
Proof.
  induction xs as [|x xs IH]; intros c Hc Hb Hx; [cbn; auto|].
  cbn [sqrt_history map]. destruct (sqrt_cached_step c x Hc Hb (Hx x (or_introl eq_refl))) as (R & C1 & B1 & F1).
  destruct (sqrt_cached c x) as [c1 r]. cbn [fst snd] in *.
  destruct (IH c1 C1 B1) as (R2 & C2 & F2).
  { intros y Hy. rewrite F1. apply Hx. right. exact Hy. }
  destruct (sqrt_history c1 xs) as [c2 rs]. cbn [fst snd] in *. rewrite R, R2, F2. auto.
Qed.
(** any sequence of calls on one field answers as fresh fields would, panics included, and leaves
    in the cache nothing or this field's constants *)
Lemma c08_cache_transparent : forall p xs, (forall x, In x xs -> fld x = fp_new p) ->
  snd (sqrt_history (cell_new p) xs) = map sqrt xs
  /\ (c_cache (fst (sqrt_history (cell_new p) xs)) = None
      \/ exists pre, c_cache (fst (sqrt_history (cell_new p) xs)) = Some pre
         /\ calc_sqrt_precmp (fp_new p) = Ret pre).
Proof.
  intros p xs H. destruct (history_spec xs (cell_new p)) as (R & C & F); [discriminate|reflexivity|exact H|].
  split; [exact R|]. destruct (c_cache (fst (sqrt_history (cell_new p) xs))) as [pre|] eqn:E; [|auto].
  right. exists pre. split; [reflexivity|]. specialize (C pre E). rewrite F in C. exact C.
Qed.
(** so on the supported primes a history of calls returns roots of all its squares *)
Lemma c08_history_of_roots : forall p xs, prime p -> sqrt_modulus p -> (forall x, In x xs -> valid p x) ->
  Forall2 (fun x r => exists y, r = Ret y /\ valid p y /\ (square_mod p (val x) -> mul y y = Ret x))
    xs (snd (sqrt_history (cell_new p) xs)).
Proof.
  intros p xs Hp Hm Hv. destruct (c08_cache_transparent p xs) as [-> _].
  { intros x Hx. apply Hv in Hx. apply Hx. }
  induction xs as [|x xs IH]; cbn [map]; constructor.
  - apply c07_sqrt_is_a_root; auto. apply Hv. left. reflexivity.
  - apply IH. intros y Hy. apply Hv. right. exact Hy.
Qed.
Example c08_ex : snd (sqrt_history (cell_new 13) [mkFpElt 4 (mkFp 13); mkFpElt 10 (mkFp 13)])
  = [Ret (mkFpElt 2 (mkFp 13)); Ret (mkFpElt 6 (mkFp 13))].
Proof. reflexivity. Qed.

(** *** C09 *)
(** the outcome of an ended call: the sequential one, or the borrow panic *)
Definition call_ok (r : FpElt * out FpElt) : Prop := snd r = sqrt (fst r) \/ snd r = Panic ERR_BORROW.

Definition phase_ok (F : Fp) (ph : phase) : Prop :=
  match ph with
  | Idle => True
  | Holding x => fld x = F
  | Computed x new => fld x = F /\ calc_sqrt_precmp F = Ret new
  | Cloned x pre | Released x pre => fld x = F /\ calc_sqrt_precmp F = Ret pre
  end.
Definition thread_ok (F : Fp) (t : Thread) : Prop :=
  (forall x, In x (t_todo t) -> fld x = F) /\ phase_ok F (t_phase t) /\ Forall call_ok (t_done t).

Lemma thread_step_ok c t c' t' : cache_ok c -> thread_ok (c_field c) t -> thread_step c t = Some (c', t') ->
  cache_ok c' /\ thread_ok (c_field c') t' /\ c_field c' = c_field c.
Proof.
  intros Hc (Ht & Hph & Hd) E. unfold thread_step in E. destruct (t_phase t) as [|x|x new|x pre|x pre]; cbn in Hph.
  - destruct (t_todo t) as [|x rest] eqn:T; [discriminate|].
    assert (Hr : forall y, In y rest -> fld y = c_field c) by (intros y Hy; apply Ht; right; exact Hy).
    destruct (c_borrowed c); injection E as <- <-; cbn.
    + split; [exact Hc|]. split; [|reflexivity]. repeat split; auto. constructor; [right; reflexivity|exact Hd].
    + split; [exact Hc|]. split; [|reflexivity]. repeat split; auto. cbn. apply Ht. left. reflexivity.
  - destruct (calc_sqrt_precmp (c_field c)) as [new|msg] eqn:N; injection E as <- <-; cbn.
    + split; [exact Hc|]. split; [|reflexivity]. repeat split; auto.
    + split; [exact Hc|]. split; [|reflexivity]. repeat split; auto. cbn. constructor; [|exact Hd].
      left. cbn. unfold sqrt. rewrite Hph, N. reflexivity.
  - destruct Hph as [Hx N]. injection E as <- <-. cbn.
    assert (P : get_or_insert (c_cache c) new = new).
    { unfold get_or_insert. destruct (c_cache c) as [old|] eqn:C; [|reflexivity].
      specialize (Hc old C). rewrite N in Hc. congruence. }
    rewrite P. split; [intros q; cbn; intro Q; injection Q as <-; exact N|].
    split; [|reflexivity]. repeat split; auto.
  - destruct Hph as [Hx N]. injection E as <- <-. split; [exact Hc|]. split; [|reflexivity]. repeat split; auto.
  - destruct Hph as [Hx N]. injection E as <- <-. split; [exact Hc|]. split; [|reflexivity]. repeat split; auto.
    cbn. constructor; [|exact Hd]. left. cbn. unfold sqrt. rewrite Hx, N. reflexivity.
Qed.

Lemma update_forall {A} (P : A -> Prop) l i a : Forall P l -> P a -> Forall P (update l i a).
Proof.
  intros H Ha. revert i. induction H as [|b l Hb Hl IH]; intros [|i]; cbn; constructor; auto.
Qed.

Definition sys_ok (F : Fp) (s : Sys) : Prop :=
  c_field (s_cell s) = F /\ cache_ok (s_cell s) /\ Forall (thread_ok F) (s_threads s).

Lemma sys_step_ok F s i : sys_ok F s -> sys_ok F (sys_step s i).
Proof.
  intros (HF & Hc & Ht). unfold sys_step. destruct (nth_error (s_threads s) i) as [t|] eqn:N; [|split; auto].
  destruct (thread_step (s_cell s) t) as [[c' t']|] eqn:E; [|split; auto].
  pose proof (nth_error_In _ _ N) as I. rewrite Forall_forall in Ht. pose proof (Ht t I) as Hti.
  subst F. destruct (thread_step_ok _ _ _ _ Hc Hti E) as (C' & T' & F').
  split; [exact F'|]. split; [exact C'|]. cbn. rewrite <- F'. apply update_forall; [|exact T'].
  rewrite F'. apply Forall_forall. exact Ht.
Qed.
Lemma sys_run_ok F sched : forall s, sys_ok F s -> sys_ok F (sys_run s sched).
Proof.
  induction sched as [|i sched IH]; intros s H; [exact H|]. cbn [sys_run fold_left].
  apply IH, sys_step_ok, H.
Qed.
Lemma sys_init_ok p progs : (forall l x, In l progs -> In x l -> fld x = fp_new p) -> sys_ok (fp_new p) (sys_init p progs).
Proof.
  intro H. split; [reflexivity|]. split; [discriminate|]. apply Forall_forall. intros t Ht.
  cbn in Ht. apply in_map_iff in Ht. destruct Ht as (l & <- & Hl). repeat split; cbn; auto.
  intros x Hx. exact (H l x Hl Hx).
Qed.

(** any number of threads, any programs, any schedule: a call that ended has the sequential
    outcome, or panicked on the borrow *)
Lemma c09_returned_answers_are_sequential : forall p progs sched t x r,
  (forall l x, In l progs -> In x l -> fld x = fp_new p) ->
  In t (s_threads (sys_run (sys_init p progs) sched)) -> In (x, r) (t_done t) ->
  r = sqrt x \/ r = Panic "already mutably borrowed".
Proof.
  intros p progs sched t x r H Ht Hr.
  destruct (sys_run_ok (fp_new p) sched _ (sys_init_ok p progs H)) as (_ & _ & F).
  rewrite Forall_forall in F. destruct (F t Ht) as (_ & _ & D). rewrite Forall_forall in D. exact (D _ Hr).
Qed.

Lemma update_filter l i (a b : Thread) : nth_error l i = Some a ->
  (length (filter holds (update l i b)) + (if holds a then 1 else 0)
   = length (filter holds l) + (if holds b then 1 else 0))%nat.
Proof.
  revert i. induction l as [|c l IH]; intros [|i] H; try discriminate; cbn in *.
  - injection H as ->. destruct (holds a), (holds b); cbn; lia.
  - specialize (IH i H). destruct (holds c); cbn; lia.
Qed.
Lemma holders_step s i : (holders s = if c_borrowed (s_cell s) then 1%nat else 0%nat) ->
  (holders (sys_step s i) = if c_borrowed (s_cell (sys_step s i)) then 1%nat else 0%nat).
Proof.
  intro H. unfold sys_step. destruct (nth_error (s_threads s) i) as [t|] eqn:N; [|exact H].
  destruct (thread_step (s_cell s) t) as [[c' t']|] eqn:E; [|exact H].
  unfold holders in *. cbn [s_threads s_cell]. pose proof (update_filter (s_threads s) i t t' N) as U.
  assert (HL : holds t = true -> c_borrowed (s_cell s) = true).
  { intro A. destruct (c_borrowed (s_cell s)); [reflexivity|]. pose proof (nth_error_In _ _ N) as I.
    assert (In t (filter holds (s_threads s))) by (apply filter_In; auto).
    destruct (filter holds (s_threads s)); [contradiction|discriminate H]. }
  unfold thread_step in E. unfold holds in *.
  destruct (t_phase t) as [|x|x new|x pre|x pre] eqn:Ph.
  - destruct (t_todo t) as [|x rest]; [discriminate|].
    destruct (c_borrowed (s_cell s)) eqn:B; injection E as <- <-; cbn in *; try rewrite B; lia.
  - rewrite HL in H by reflexivity.
    destruct (calc_sqrt_precmp (c_field (s_cell s))); injection E as <- <-; cbn in *; try rewrite HL by reflexivity; lia.
  - rewrite HL in H by reflexivity. injection E as <- <-. cbn in *. rewrite HL by reflexivity. lia.
  - rewrite HL in H by reflexivity. injection E as <- <-. cbn in *. lia.
  - injection E as <- <-. cbn in *. lia.
Qed.
Lemma c09_mutual_exclusion : forall p progs sched,
  let s := sys_run (sys_init p progs) sched in
  holders s = (if c_borrowed (s_cell s) then 1%nat else 0%nat).
Proof.
  intros p progs sched. cbv zeta. revert sched.
  assert (G : forall sched s, holders s = (if c_borrowed (s_cell s) then 1%nat else 0%nat) ->
    holders (sys_run s sched) = (if c_borrowed (s_cell (sys_run s sched)) then 1%nat else 0%nat)).
  { induction sched as [|i sched IH]; intros s H; [exact H|]. apply IH, holders_step, H. }
  intro sched. apply G. unfold holders. cbn. induction progs as [|l progs IH]; [reflexivity|exact IH].
Qed.
(** no thread ever waits: one with work left can always take a step *)
Lemma c09_never_blocks : forall c t, (t_phase t <> Idle \/ t_todo t <> []) -> exists c' t', thread_step c t = Some (c', t').
Proof.
  intros c t H. unfold thread_step. destruct (t_phase t) as [|x|x new|x pre|x pre].
  - destruct (t_todo t); [destruct H; contradiction|]. destruct (c_borrowed c); eauto.
  - destruct (calc_sqrt_precmp (c_field c)); eauto.
  - eauto.
  - eauto.
  - eauto.
Qed.
(** 'no interleaving panics' is false: on every supported prime two overlapping calls make one of
    them panic although the square root exists *)
Lemma c09_concurrent_sqrt_refuted : forall p x, prime p -> sqrt_modulus p -> valid p x ->
  exists sched t, nth_error (s_threads (sys_run (sys_init p [[x]; [x]]) sched)) 1 = Some t
    /\ In (x, Panic "already mutably borrowed") (t_done t) /\ exists y, sqrt x = Ret y.
Proof.
  intros p x Hp Hm V. exists [0; 1]%nat. eexists. split; [reflexivity|]. split; [left; reflexivity|].
  destruct (c07_sqrt_is_a_root p x Hp Hm V) as (y & E & _). exists y. exact E.
Qed.
Example c09_ex :
  let x := mkFpElt 4 (mkFp 13) in
  map t_done (s_threads (sys_run (sys_init 13 [[x]; [x]]) [0; 0; 0; 1; 0; 0; 1]%nat))
  = [[(x, Ret (mkFpElt 2 (mkFp 13)))]; [(x, Panic "already mutably borrowed")]]
  /\ map t_done (s_threads (sys_run (sys_init 13 [[x]; [x]]) [0; 0; 0; 0; 1; 0; 1; 1; 1; 1]%nat))
  = [[(x, Ret (mkFpElt 2 (mkFp 13)))]; [(x, Ret (mkFpElt 2 (mkFp 13)))]].
Proof. vm_compute. split; reflexivity. Qed.

(** *** C50 *)
Lemma arc_clones_spec n h : arc_clones n h = mkHeap (strong h + Z.of_nat n) (cache_owns h) (filled h) (freed h).
Proof.
  revert h. induction n as [|n IH]; intro h; [destruct h; cbn; f_equal; lia|].
  cbn [arc_clones]. rewrite IH. cbn. f_equal. lia.
Qed.
Lemma arc_drop_spec h : 1 < strong h -> arc_drop h = mkHeap (strong h - 1) (cache_owns h) (filled h) (freed h).
Proof.
  intro H. unfold arc_drop. destruct (Z.eqb_spec (strong h - 1) 0); [lia|]. rewrite orb_false_r. reflexivity.
Qed.
Lemma arc_drops_spec n h : Z.of_nat n < strong h ->
  arc_drops n h = mkHeap (strong h - Z.of_nat n) (cache_owns h) (filled h) (freed h).
Proof.
  revert h. induction n as [|n IH]; intros h H; [destruct h; cbn; f_equal; lia|].
  cbn [arc_drops]. rewrite arc_drop_spec by lia. rewrite IH; cbn; [f_equal; lia|lia].
Qed.
Lemma arc_clone_spec h : arc_clone h = mkHeap (strong h + 1) (cache_owns h) (filled h) (freed h).
Proof. reflexivity. Qed.

Lemma owns_range p : 0 <= precmp_owns p <= 1.
Proof. unfold precmp_owns. destruct (3 =? Z.rem (Z.rem p 16) 4); [lia|]. destruct (5 =? Z.rem (Z.rem p 16) 8); lia. Qed.
(** h with its count changed by d *)
Definition bump (h : Heap) (d : Z) : Heap := mkHeap (strong h + d) (cache_owns h) (filled h) (freed h).
Lemma bump0 h : h = bump h 0.
Proof. destruct h. unfold bump. cbn. f_equal; lia. Qed.
Lemma clones_bump n h d : arc_clones n (bump h d) = bump h (d + Z.of_nat n).
Proof. rewrite arc_clones_spec. unfold bump. cbn. f_equal; lia. Qed.
Lemma clone_bump h d : arc_clone (bump h d) = bump h (d + 1).
Proof. unfold arc_clone, bump. cbn. f_equal; lia. Qed.
Lemma drops_bump n h d : Z.of_nat n < strong h + d -> arc_drops n (bump h d) = bump h (d - Z.of_nat n).
Proof. intro H. rewrite arc_drops_spec by exact H. unfold bump. cbn. f_equal; lia. Qed.
Lemma drop_bump h d : 1 < strong h + d -> arc_drop (bump h d) = bump h (d - 1).
Proof. intro H. rewrite arc_drop_spec by exact H. unfold bump. cbn. f_equal; lia. Qed.
Ltac heap := repeat first
  [ rewrite clones_bump | rewrite clone_bump
  | rewrite drop_bump by lia | rewrite drops_bump by lia ].

Lemma calc_handles_spec p h : 1 <= strong h -> calc_handles p h = bump h (precmp_owns p).
Proof.
  intro H. unfold calc_handles, precmp_owns.
  destruct (3 =? Z.rem (Z.rem p 16) 4); [apply bump0|]. destruct (5 =? Z.rem (Z.rem p 16) 8); [|apply bump0].
  cbv zeta. rewrite (bump0 h) at 1. heap. f_equal.
Qed.
Lemma get_handles_spec p h : 1 <= strong h ->
  (filled h = false -> cache_owns h = 0) -> (filled h = true -> cache_owns h = precmp_owns p) ->
  get_handles p h = mkHeap (strong h + 2 * precmp_owns p - cache_owns h) (precmp_owns p) true (freed h).
Proof.
  intros H Hf Ht. unfold get_handles. rewrite calc_handles_spec by exact H. cbv zeta.
  assert (W : 0 <= precmp_owns p) by apply owns_range.
  rewrite arc_clones_spec. cbn [filled bump]. destruct (filled h) eqn:Fi.
  - rewrite drops_bump by lia. unfold bump. cbn [strong cache_owns filled freed]. rewrite Ht, Fi by reflexivity. f_equal; lia.
  - rewrite Hf by reflexivity. unfold bump. cbn [strong cache_owns filled freed]. f_equal; lia.
Qed.
(** the effect of one sqrt call on the counts *)
Lemma sqrt_handles_spec p h : 1 <= strong h ->
  (filled h = false -> cache_owns h = 0) -> (filled h = true -> cache_owns h = precmp_owns p) ->
  exists k, sqrt_handles p h = (mkHeap k (precmp_owns p) true (freed h),
     (3 =? Z.rem (Z.rem p 16) 4) || (5 =? Z.rem (Z.rem p 16) 8))
   /\ k = strong h + (precmp_owns p - cache_owns h)
        + (if (3 =? Z.rem (Z.rem p 16) 4) || (5 =? Z.rem (Z.rem p 16) 8) then 1 else 0).
Proof.
  intros Hs Hf Ht. unfold sqrt_handles. rewrite get_handles_spec by assumption. cbv zeta.
  assert (C : 0 <= precmp_owns p - cache_owns h).
  { assert (W : 0 <= precmp_owns p) by apply owns_range.
    destruct (filled h); [rewrite Ht by reflexivity|rewrite Hf by reflexivity]; lia. }
  set (h2 := mkHeap _ _ _ _). unfold precmp_owns in *.
  destruct (3 =? Z.rem (Z.rem p 16) 4); cbn [orb]; [|destruct (5 =? Z.rem (Z.rem p 16) 8)].
  - eexists. split; [reflexivity|]. cbn. lia.
  - assert (S2 : 1 < strong h2) by (subst h2; cbn; lia).
    eexists. split; [rewrite (bump0 h2); heap; unfold bump; subst h2; cbn [strong cache_owns filled freed]; reflexivity|lia].
  - eexists. split; [reflexivity|]. cbn. lia.
Qed.

Definition heap_ok (p : Z) (s : Heap * nat) : Prop :=
  let (h, user) := s in
  strong h = Z.of_nat user + cache_owns h
  /\ (filled h = false -> cache_owns h = 0) /\ (filled h = true -> cache_owns h = precmp_owns p)
  /\ freed h = (strong h =? 0).

Lemma heap_step_ok p s o : heap_ok p s -> heap_ok p (heap_step p s o).
Proof.
  destruct s as [h user]. intros (Hs & Hf & Ht & Hr). pose proof (owns_range p) as W.
  assert (Hc : 0 <= cache_owns h) by (destruct (filled h); [rewrite Ht by reflexivity|rewrite Hf by reflexivity]; lia).
  unfold heap_step. destruct user as [|k]; [destruct o; repeat split; auto|].
  assert (F : freed h = false) by (rewrite Hr; apply Z.eqb_neq; lia).
  destruct o.
  - unfold heap_ok; cbn [strong cache_owns filled freed arc_clone arc_drop]. repeat split; auto; [lia|]. rewrite F. symmetry. apply Z.eqb_neq. lia.
  - unfold heap_ok; cbn [strong cache_owns filled freed arc_clone arc_drop]. repeat split; auto; [lia|]. rewrite F. cbn. reflexivity.
  - destruct (sqrt_handles_spec p h ltac:(lia) Hf Ht) as (n & E & En). rewrite E.
    set (b := (3 =? Z.rem (Z.rem p 16) 4) || (5 =? Z.rem (Z.rem p 16) 8)) in *. unfold heap_ok; cbn [strong cache_owns filled freed].
    repeat split; auto; [destruct b; lia|discriminate|]. rewrite F. symmetry. apply Z.eqb_neq. destruct b; lia.
Qed.
Lemma heap_run_ok p ops : heap_ok p (heap_run p ops).
Proof.
  unfold heap_run. assert (G : forall s, heap_ok p s -> heap_ok p (fold_left (heap_step p) ops s)).
  { induction ops as [|o ops IH]; intros s H; [exact H|]. cbn. apply IH, heap_step_ok, H. }
  apply G. cbn. repeat split; auto; discriminate.
Qed.
Lemma filled_mono p ops : forall s, filled (fst s) = true -> filled (fst (fold_left (heap_step p) ops s)) = true.
Proof.
  induction ops as [|o ops IH]; intros s H; [exact H|]. cbn. apply IH. destruct s as [h user]. cbn in *.
  destruct user as [|k], o; cbn; auto.
  destruct (sqrt_handles p h) as [h' r] eqn:E. cbn. unfold sqrt_handles in E.
  assert (Q : filled (get_handles p h) = true).
  { unfold get_handles. rewrite arc_clones_spec. cbn.
    assert (filled (calc_handles p h) = true) as ->; [|].
    { unfold calc_handles. destruct (3 =? Z.rem (Z.rem p 16) 4); [exact H|]. destruct (5 =? Z.rem (Z.rem p 16) 8); exact H. }
    assert (D : forall n g, filled (arc_drops n g) = filled g).
    { induction n as [|n IHn]; intro g; [reflexivity|]. cbn. rewrite IHn. reflexivity. }
    rewrite D. unfold calc_handles. destruct (3 =? Z.rem (Z.rem p 16) 4); [exact H|]. destruct (5 =? Z.rem (Z.rem p 16) 8); exact H. }
  destruct (3 =? Z.rem (Z.rem p 16) 4); [injection E as <- _; exact Q|]. destruct (5 =? Z.rem (Z.rem p 16) 8); injection E as <- _; exact Q.
Qed.

(** never freed while the user owns a handle *)
Lemma c50_no_early_free : forall p ops, snd (heap_run p ops) <> 0%nat -> freed (fst (heap_run p ops)) = false.
Proof.
  intros p ops H. pose proof (heap_run_ok p ops) as O. pose proof (owns_range p) as W.
  destruct (heap_run p ops) as [h user]. cbn in *. destruct O as (Hs & Hf & Ht & Hr). rewrite Hr. apply Z.eqb_neq.
  assert (0 <= cache_owns h) by (destruct (filled h); [rewrite Ht by reflexivity|rewrite Hf by reflexivity]; lia). lia.
Qed.
(** p not 5 mod 8 (3 mod 4 in particular): when the user's last handle is dropped the memory is freed *)
Lemma c50_reclaimed : forall p ops, 0 < p -> p mod 8 <> 5 ->
  snd (heap_run p ops) = 0%nat -> freed (fst (heap_run p ops)) = true.
Proof.
  intros p ops Hp H5 H. pose proof (heap_run_ok p ops) as O.
  destruct (heap_run p ops) as [h user]. cbn in *. destruct O as (Hs & Hf & Ht & Hr). rewrite Hr. apply Z.eqb_eq.
  assert (precmp_owns p = 0).
  { unfold precmp_owns. destruct (3 =? Z.rem (Z.rem p 16) 4); [reflexivity|].
    destruct (Z.eqb_spec 5 (Z.rem (Z.rem p 16) 8)) as [E|]; [|reflexivity]. exfalso. apply H5.
    rewrite !Z.rem_mod_nonneg in E by (try apply Z.mod_pos_bound; try apply Z.rem_nonneg; lia).
    rewrite E. apply Znumtheory.Zmod_div_mod; [lia|lia|]. exists 2. reflexivity. }
  destruct (filled h); [rewrite Ht in Hs by reflexivity|rewrite Hf in Hs by reflexivity]; lia.
Qed.
(** p = 5 mod 8: freed exactly when no sqrt call was made; otherwise the cache keeps the field alive *)
Lemma c50_reclaimed_refuted : forall p pre post, 0 < p -> p mod 8 = 5 ->
  snd (heap_run p pre) <> 0%nat -> snd (heap_run p (pre ++ HSqrt :: post)) = 0%nat ->
  freed (fst (heap_run p (pre ++ HSqrt :: post))) = false
  /\ strong (fst (heap_run p (pre ++ HSqrt :: post))) = 1.
Proof.
  intros p pre post Hp H5 Hpre H. pose proof (heap_run_ok p (pre ++ HSqrt :: post)) as O.
  assert (Fi : filled (fst (heap_run p (pre ++ HSqrt :: post))) = true).
  { unfold heap_run in *. rewrite fold_left_app. cbn [fold_left]. apply filled_mono.
    pose proof (heap_run_ok p pre) as Q. unfold heap_run in Q.
    destruct (fold_left (heap_step p) pre (heap_new, 1%nat)) as [h user]. cbn in Hpre.
    destruct user as [|k]; [contradiction|]. cbn [heap_step]. destruct Q as (Hs & Hf & Ht & Hr).
    pose proof (owns_range p).
    assert (0 <= cache_owns h) by (destruct (filled h); [rewrite Ht by reflexivity|rewrite Hf by reflexivity]; lia).
    destruct (sqrt_handles_spec p h ltac:(lia) Hf Ht) as (n & E & _). rewrite E. reflexivity. }
  destruct (heap_run p (pre ++ HSqrt :: post)) as [h user]. cbn in *. destruct O as (Hs & Hf & Ht & Hr).
  assert (W : precmp_owns p = 1).
  { unfold precmp_owns. rewrite !Z.rem_mod_nonneg by (try apply Z.mod_pos_bound; try apply Z.rem_nonneg; lia).
    assert (E8 : (p mod 16) mod 8 = 5).
    { rewrite <- H5. symmetry. apply Znumtheory.Zmod_div_mod; [lia|lia|]. exists 2. reflexivity. }
    assert (E4 : (p mod 16) mod 4 = 1).
    { rewrite (Znumtheory.Zmod_div_mod 4 8) by (try lia; exists 2; reflexivity). rewrite E8. reflexivity. }
    rewrite E4, E8. reflexivity. }
  rewrite Ht in Hs by exact Fi. rewrite Hr. split; [apply Z.eqb_neq; lia|lia].
Qed.
Lemma c50_reclaimed_without_sqrt : forall p ops, ~ In HSqrt ops ->
  snd (heap_run p ops) = 0%nat -> freed (fst (heap_run p ops)) = true.
Proof.
  intros p ops N H. pose proof (heap_run_ok p ops) as O.
  assert (Fi : filled (fst (heap_run p ops)) = false).
  { unfold heap_run. assert (G : forall s, filled (fst s) = false -> filled (fst (fold_left (heap_step p) ops s)) = false).
    { clear -N. induction ops as [|o ops IH]; intros s Hs; [exact Hs|]. cbn. apply IH.
      - intro I. apply N. right. exact I.
      - destruct s as [h [|k]]; [destruct o; exact Hs|]. destruct o; [exact Hs|exact Hs|].
        exfalso. apply N. left. reflexivity. }
    apply G. reflexivity. }
  destruct (heap_run p ops) as [h user]. cbn in *. destruct O as (Hs & Hf & Ht & Hr). rewrite Hr. apply Z.eqb_eq.
  rewrite Hf in Hs by exact Fi. lia.
Qed.
Example c50_ex : heap_run 13 [HClone; HSqrt; HDrop; HDrop; HDrop] = (mkHeap 1 1 true false, 0%nat)
  /\ heap_run 7 [HClone; HSqrt; HDrop; HDrop; HDrop] = (mkHeap 0 0 true true, 0%nat)
  /\ snd (heap_run 13 [HClone]) <> 0%nat.
Proof. repeat split. discriminate. Qed.
