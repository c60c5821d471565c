(** API calls that take square roots, run by several threads. A call is a program that asks for
    square roots and goes on with the answers; the other instructions touch no shared state, so
    they are folded into the step that precedes or follows a request. One request runs
    get_sqrt_precmp and sqrt (primefield/mod.rs:255-262 and 297-314; quadraticfield/mod.rs:274-280
    and 303-322) in the steps of SqrtCache: borrow, compute the constants, store them if the cell
    is empty, release, extract the root. Both field types have the same code here, hence the
    parameters: F the fields, Q the elements, C the constants, R the roots.
    There may be several allocations of the same field (Fp::new called several times): a call
    says in which allocation the element is whose square root it takes. Every call of the API takes
    at most one square root, so one allocation per call is enough. Memory is sequentially
    consistent and the steps are atomic, as in SqrtCache. *)
From Coq Require Import ZArith String Bool List.
From Verif.Model Require Import Out.
Import ListNotations.

Section Shared.
Context {F Q C R : Type}.
(** PartialEq of the fields; the field of an element; calc_sqrt_precmp; the rest of sqrt *)
Variables (feqb : F -> F -> bool) (fld : Q -> F) (calc : F -> out C) (answer : C -> Q -> out R).

(** a call: it ends, or it asks for a square root; a panic of the request is a panic of the call *)
Inductive prog (A : Type) : Type :=
| Done (o : out A)
| Ask (x : Q) (k : R -> prog A).
Arguments Done {A}. Arguments Ask {A}.

Fixpoint pbind {A B : Type} (m : prog A) (k : A -> prog B) : prog B :=
  match m with
  | Done (Ret a) => k a
  | Done (Panic msg) => Done (Panic msg)
  | Ask x j => Ask x (fun r => pbind (j r) k)
  end.

(** the AtomicRefCell inside one allocation of one field *)
Record cell := mkCell { cache : option C; borrowed : bool }.
Definition empty : cell := mkCell None false.

Section Run.
Context {A : Type}.
Inductive phase :=
| Idle
| Running (i : nat) (p0 p : prog A)                             (* before the next request *)
| Holding (i : nat) (p0 : prog A) (x : Q) (k : R -> prog A)     (* the cell is borrowed *)
| Computed (i : nat) (p0 : prog A) (x : Q) (k : R -> prog A) (new : C)
| Cloned (i : nat) (p0 : prog A) (x : Q) (k : R -> prog A) (pre : C)
| Released (i : nat) (p0 : prog A) (x : Q) (k : R -> prog A) (pre : C).

(** calls to make, each with its allocation; the phase; the calls that ended, latest first *)
Record thread := mkThread { todo : list (nat * prog A); ph : phase; ended : list (prog A * out A) }.

Definition cells := nat -> F -> cell.
Definition set (T : cells) (i : nat) (f : F) (c : cell) : cells :=
  fun j g => if Nat.eqb i j && feqb f g then c else T j g.

Definition stop (t : thread) (p0 : prog A) (o : out A) : thread := mkThread (todo t) Idle ((p0, o) :: ended t).

Definition thread_step (T : cells) (t : thread) : option (cells * thread) :=
  match ph t with
  | Idle =>
      match todo t with
      | [] => None
      | (i, p) :: rest => Some (T, mkThread rest (Running i p p) (ended t))
      end
  | Running _ p0 (Done o) => Some (T, stop t p0 o)
  | Running i p0 (Ask x k) =>
      let c := T i (fld x) in
      if borrowed c then Some (T, stop t p0 (Panic "already mutably borrowed"))
      else Some (set T i (fld x) (mkCell (cache c) true), mkThread (todo t) (Holding i p0 x k) (ended t))
  | Holding i p0 x k =>
      match calc (fld x) with
      | Ret new => Some (T, mkThread (todo t) (Computed i p0 x k new) (ended t))
      | Panic msg => (* unwinding drops the borrow *)
          Some (set T i (fld x) (mkCell (cache (T i (fld x))) false), stop t p0 (Panic msg))
      end
  | Computed i p0 x k new =>
      let c := T i (fld x) in
      let pre := match cache c with Some old => old | None => new end in
      Some (set T i (fld x) (mkCell (Some pre) (borrowed c)), mkThread (todo t) (Cloned i p0 x k pre) (ended t))
  | Cloned i p0 x k pre =>
      Some (set T i (fld x) (mkCell (cache (T i (fld x))) false), mkThread (todo t) (Released i p0 x k pre) (ended t))
  | Released i p0 x k pre =>
      match answer pre x with
      | Ret r => Some (T, mkThread (todo t) (Running i p0 (k r)) (ended t))
      | Panic msg => Some (T, stop t p0 (Panic msg))
      end
  end.

Record sys := mkSys { s_cells : cells; s_threads : list thread }.
Fixpoint update (l : list thread) (i : nat) (a : thread) : list thread :=
  match l, i with
  | [], _ => []
  | _ :: l', O => a :: l'
  | b :: l', S j => b :: update l' j a
  end.
(** the scheduler lets thread n take one step; nothing happens when it cannot *)
Definition sys_step (s : sys) (n : nat) : sys :=
  match nth_error (s_threads s) n with
  | None => s
  | Some t =>
      match thread_step (s_cells s) t with
      | None => s
      | Some (T', t') => mkSys T' (update (s_threads s) n t')
      end
  end.
Definition sys_run (s : sys) (schedule : list nat) : sys := fold_left sys_step schedule s.
Definition start (l : list (nat * prog A)) : thread := mkThread l Idle [].
Definition sys_init (programs : list (list (nat * prog A))) : sys := mkSys (fun _ _ => empty) (map start programs).
End Run.
End Shared.
Arguments Done {Q R A}. Arguments Ask {Q R A}.
