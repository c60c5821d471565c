(** C08, C09, C50: the square-root cache, concurrent callers, reference counts. *)

From Coq Require Import ZArith Znumtheory Lia String Bool List.
From Verif.Math Require Import Zp.
From Verif.Spec Require Import Arith.
From Verif.Model Require Import Out BigInt PrimeField SqrtCache.
From Verif.Proofs Require Import FieldP FieldProps.
From Verif.Spec Require Export CacheState.
Import ListNotations.
Open Scope Z_scope.
From Verif.Proofs Require Import CacheProps.

(** any sequence of calls on one field answers as fresh fields would, panics included, and leaves
    in the cache nothing or this field's constants *)
Theorem C08_cache_transparent : forall p xs, (forall x, In x xs -> fld x = fp_new p) ->
  snd (sqrt_history (cell_new p) xs) = map sqrt xs
  /\ (c_cache (fst (sqrt_history (cell_new p) xs)) = None
      \/ exists pre, c_cache (fst (sqrt_history (cell_new p) xs)) = Some pre
         /\ calc_sqrt_precmp (fp_new p) = Ret pre).
Proof. exact c08_cache_transparent. Qed.
Print Assumptions C08_cache_transparent.

(** so on the supported primes a history of calls returns roots of all its squares *)
Theorem C08_history_of_roots : forall p xs, prime p -> sqrt_modulus p -> (forall x, In x xs -> valid p x) ->
  Forall2 (fun x r => exists y, r = Ret y /\ valid p y /\ (square_mod p (val x) -> mul y y = Ret x))
    xs (snd (sqrt_history (cell_new p) xs)).
Proof. exact c08_history_of_roots. Qed.
Print Assumptions C08_history_of_roots.

Example C08_ex : snd (sqrt_history (cell_new 13) [mkFpElt 4 (mkFp 13); mkFpElt 10 (mkFp 13)])
  = [Ret (mkFpElt 2 (mkFp 13)); Ret (mkFpElt 6 (mkFp 13))].
Proof. exact c08_ex. Qed.

(** any number of threads, any programs, any schedule: a call that ended has the sequential
    outcome, or panicked on the borrow *)
Theorem C09_returned_answers_are_sequential : forall p progs sched t x r,
  (forall l x, In l progs -> In x l -> fld x = fp_new p) ->
  In t (s_threads (sys_run (sys_init p progs) sched)) -> In (x, r) (t_done t) ->
  r = sqrt x \/ r = Panic "already mutably borrowed".
Proof. exact c09_returned_answers_are_sequential. Qed.
Print Assumptions C09_returned_answers_are_sequential.

Theorem C09_mutual_exclusion : forall p progs sched,
  let s := sys_run (sys_init p progs) sched in
  holders s = (if c_borrowed (s_cell s) then 1%nat else 0%nat).
Proof. exact c09_mutual_exclusion. Qed.
Print Assumptions C09_mutual_exclusion.

(** no thread ever waits: one with work left can always take a step *)
Theorem C09_never_blocks : forall c t, (t_phase t <> Idle \/ t_todo t <> []) -> exists c' t', thread_step c t = Some (c', t').
Proof. exact c09_never_blocks. Qed.
Print Assumptions C09_never_blocks.

(** 'no interleaving panics' is false: on every supported prime two overlapping calls make one of
    them panic although the square root exists *)
Theorem C09_concurrent_sqrt_refuted : forall p x, prime p -> sqrt_modulus p -> valid p x ->
  exists sched t, nth_error (s_threads (sys_run (sys_init p [[x]; [x]]) sched)) 1 = Some t
    /\ In (x, Panic "already mutably borrowed") (t_done t) /\ exists y, sqrt x = Ret y.
Proof. exact c09_concurrent_sqrt_refuted. Qed.
Print Assumptions C09_concurrent_sqrt_refuted.

Example C09_ex :
  let x := mkFpElt 4 (mkFp 13) in
  map t_done (s_threads (sys_run (sys_init 13 [[x]; [x]]) [0; 0; 0; 1; 0; 0; 1]%nat))
  = [[(x, Ret (mkFpElt 2 (mkFp 13)))]; [(x, Panic "already mutably borrowed")]]
  /\ map t_done (s_threads (sys_run (sys_init 13 [[x]; [x]]) [0; 0; 0; 0; 1; 0; 1; 1; 1; 1]%nat))
  = [[(x, Ret (mkFpElt 2 (mkFp 13)))]; [(x, Ret (mkFpElt 2 (mkFp 13)))]].
Proof. exact c09_ex. Qed.

(** never freed while the user owns a handle *)
Theorem C50_no_early_free : forall p ops, snd (heap_run p ops) <> 0%nat -> freed (fst (heap_run p ops)) = false.
Proof. exact c50_no_early_free. Qed.
Print Assumptions C50_no_early_free.

(** p not 5 mod 8 (3 mod 4 in particular): when the user's last handle is dropped the memory is freed *)
Theorem C50_reclaimed : forall p ops, 0 < p -> p mod 8 <> 5 ->
  snd (heap_run p ops) = 0%nat -> freed (fst (heap_run p ops)) = true.
Proof. exact c50_reclaimed. Qed.
Print Assumptions C50_reclaimed.

(** p = 5 mod 8: freed exactly when no sqrt call was made; otherwise the cache keeps the field alive *)
Theorem C50_reclaimed_refuted : forall p pre post, 0 < p -> p mod 8 = 5 ->
  snd (heap_run p pre) <> 0%nat -> snd (heap_run p (pre ++ HSqrt :: post)) = 0%nat ->
  freed (fst (heap_run p (pre ++ HSqrt :: post))) = false
  /\ strong (fst (heap_run p (pre ++ HSqrt :: post))) = 1.
Proof. exact c50_reclaimed_refuted. Qed.
Print Assumptions C50_reclaimed_refuted.

Theorem C50_reclaimed_without_sqrt : forall p ops, ~ In HSqrt ops ->
  snd (heap_run p ops) = 0%nat -> freed (fst (heap_run p ops)) = true.
Proof. exact c50_reclaimed_without_sqrt. Qed.
Print Assumptions C50_reclaimed_without_sqrt.

Example C50_ex : heap_run 13 [HClone; HSqrt; HDrop; HDrop; HDrop] = (mkHeap 1 1 true false, 0%nat)
  /\ heap_run 7 [HClone; HSqrt; HDrop; HDrop; HDrop] = (mkHeap 0 0 true true, 0%nat)
  /\ snd (heap_run 13 [HClone]) <> 0%nat.
Proof. exact c50_ex. Qed.
