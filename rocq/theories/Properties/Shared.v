(** C59: decoding, the maps to curves and square roots called by several threads on shared curves and fields. *)

From Coq Require Import ZArith Lia String Bool List Arith.
From Verif.Model Require Import Out BigInt PrimeField QuadField Shared SharedOps.
From Verif.Model Require WCurve MCurve ECurve Maps RationalMaps Instances.
From Verif.Spec Require Import Concurrent.
From Verif.Proofs Require Import SharedP.
Import ListNotations.
Open Scope Z_scope.
From Verif.Proofs Require Import SharedProps.

(** a call on fields nobody else uses returns what the sequential model says *)
Theorem C59_alone : forall c, alone fld calc_sqrt_precmp sqrt_with (p_call c) = call_out c.
Proof. exact c59_alone. Qed.
Print Assumptions C59_alone.

(** any number of threads, any calls, any schedule: the calls of a thread end in order, each with its sequential
    outcome or a borrow panic *)
Theorem C59_answers : forall l schedule n calls, nth_error l n = Some calls ->
  exists t, nth_error (s_threads (run l schedule)) n = Some t
    /\ Forall2 (fun c r => r = call_out c \/ r = borrow_panic) (firstn (List.length (ended t)) (map snd calls)) (rev (map snd (ended t))).
Proof. exact c59_answers. Qed.
Print Assumptions C59_answers.

(** no thread waits for another: seven steps of its own per call are enough to end them all *)
Theorem C59_wait_free : forall l schedule n calls, nth_error l n = Some calls -> (7 * List.length calls <= turns schedule n)%nat ->
  exists t, nth_error (s_threads (run l schedule)) n = Some t /\ todo t = [] /\ ph t = Idle
    /\ Forall2 (fun c r => r = call_out c \/ r = borrow_panic) (map snd calls) (rev (map snd (ended t))).
Proof. exact c59_wait_free. Qed.
Print Assumptions C59_wait_free.

(** threads working in different allocations, a single thread in particular, never see a borrow panic *)
Theorem C59_own_fields : forall l schedule n calls (owner : nat -> nat),
  (forall m cs i c, nth_error l m = Some cs -> In (i, c) cs -> owner i = m) ->
  nth_error l n = Some calls ->
  exists t, nth_error (s_threads (run l schedule)) n = Some t
    /\ Forall2 (fun c r => r = call_out c) (firstn (List.length (ended t)) (map snd calls)) (rev (map snd (ended t))).
Proof. exact c59_own_fields. Qed.
Print Assumptions C59_own_fields.

(** after any run, whatever panicked: a cell holds nothing or the constants of its field, and it is borrowed only while a
    thread is inside a call *)
Theorem C59_cells : forall l schedule i f, let s := run l schedule in
  (forall pre, cache (s_cells s i f) = Some pre -> calc_sqrt_precmp f = Ret pre)
  /\ ((forall t, In t (s_threads s) -> ph t = Idle) -> borrowed (s_cells s i f) = false).
Proof. exact c59_cells. Qed.
Print Assumptions C59_cells.

(** the constants are stored before a request is answered (the thread has released the cell and is about to take the
    root), and a filled cell keeps its constants for the rest of the run *)
Theorem C59_filled : forall l schedule i, let s := run l schedule in
  (forall t p0 x k pre, In t (s_threads s) -> ph t = Released i p0 x k pre -> cache (s_cells s i (fld x)) = Some pre)
  /\ (forall f pre more, cache (s_cells s i f) = Some pre -> cache (s_cells (run l (schedule ++ more)) i f) = Some pre).
Proof. exact c59_filled. Qed.
Print Assumptions C59_filled.

(** 'concurrent use of one curve never panics' is false: two overlapping calls that take a square root in one
    allocation make one of them panic, for every such call *)
Theorem C59_shared_refuted : forall c i, takes_root c = true ->
  exists schedule t, nth_error (s_threads (run [[(i, c)]; [(i, c)]] schedule)) 1 = Some t /\ map snd (ended t) = [borrow_panic].
Proof. exact c59_shared_refuted. Qed.
Print Assumptions C59_shared_refuted.

Theorem C59_quadratic : forall l schedule n xs, nth_error l n = Some xs -> (7 * List.length xs <= turns schedule n)%nat ->
  exists t, nth_error (s_threads (run2 l schedule)) n = Some t /\ todo t = [] /\ ph t = Idle
    /\ Forall2 (fun x r => r = sqrt2 x \/ r = borrow_panic) (map snd xs) (rev (map snd (ended t))).
Proof. exact c59_quadratic. Qed.
Print Assumptions C59_quadratic.

(** the cells of the quadratic extension, after any run *)
Theorem C59_quadratic_cells : forall l schedule i, let s := run2 l schedule in
  (forall f pre, cache (s_cells s i f) = Some pre -> calc_sqrt_precmp2 f = Ret pre)
  /\ (forall f, (forall t, In t (s_threads s) -> ph t = Idle) -> borrowed (s_cells s i f) = false)
  /\ (forall t p0 x k pre, In t (s_threads s) -> ph t = Released i p0 x k pre -> cache (s_cells s i (fld2 x)) = Some pre)
  /\ (forall f pre more, cache (s_cells s i f) = Some pre -> cache (s_cells (run2 l (schedule ++ more)) i f) = Some pre).
Proof. exact c59_quadratic_cells. Qed.
Print Assumptions C59_quadratic_cells.

(** one field, calls that do not overlap; the same calls overlapping; the same calls in two allocations *)
Example C59_apart_ex : answers (run [[(0%nat, CSqrt (e13 4))]; [(0%nat, CSqrt (e13 10))]] [0;0;0;0;0;0;0;1;1;1;1;1;1;1]%nat) = [[Ret (RElt (e13 2))]; [Ret (RElt (e13 6))]].
Proof. exact c59_apart_ex. Qed.

Example C59_overlap_ex : answers (run [[(0%nat, CSqrt (e13 4))]; [(0%nat, CSqrt (e13 10)); (0%nat, CSqrt (e13 10))]] [0;0;1;1;0;0;0;0;0;1;1;1;1;1;1;1]%nat)
  = [[Ret (RElt (e13 2))]; [Panic "already mutably borrowed"; Ret (RElt (e13 6))]].
Proof. exact c59_overlap_ex. Qed.

Example C59_two_fields_ex : answers (run [[(0%nat, CSqrt (e13 4))]; [(1%nat, CSqrt (e13 10))]] [0;0;1;1;0;0;0;0;0;1;1;1;1;1]%nat) = [[Ret (RElt (e13 2))]; [Ret (RElt (e13 6))]].
Proof. exact c59_two_fields_ex. Qed.

(** decoding the compressed generator of P-256 takes a square root, so two overlapping decodes can panic; decoding an
    uncompressed point takes none *)
Example C59_decode_ex : match Instances.P256 with
  | Ret e => takes_root (CWDecode e (2 :: repeat 0 31 ++ [5])%list) = true /\ takes_root (CWDecode e (4 :: repeat 0 64)%list) = false
  | Panic _ => False end.
Proof. exact c59_decode_ex. Qed.

(** after one call in allocation 0: its cell is filled and free, that of allocation 1 is still empty *)
Example C59_filled_ex : let s := run [[(0%nat, CSqrt (e13 4))]] [0; 0; 0; 0; 0; 0; 0]%nat in
  (match cache (s_cells s 0%nat (mkFp 13)) with Some _ => true | None => false end, borrowed (s_cells s 0%nat (mkFp 13)), cache (s_cells s 1%nat (mkFp 13))) = (true, false, None).
Proof. exact c59_filled_ex. Qed.
