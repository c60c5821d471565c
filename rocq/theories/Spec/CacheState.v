(** Threads inside the critical section of the square-root cache. *)
From Coq Require Import ZArith List.
From Verif.Model Require Import SqrtCache.
Open Scope Z_scope.

(** the thread is between borrow_mut and the release *)
Definition holds (t : Thread) : bool :=
  match t_phase t with Holding _ | Computed _ _ | Cloned _ _ => true | _ => false end.
(** how many threads are there *)
Definition holders (s : Sys) : nat := length (filter holds (s_threads s)).
