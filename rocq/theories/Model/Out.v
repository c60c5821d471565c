(** Outcomes of Rust code: a value or a panic (with its message). *)
From Coq Require Import String.

Inductive out (A : Type) : Type :=
| Ret (a : A)
| Panic (msg : string).
Arguments Ret {A}. Arguments Panic {A}.

Definition bind {A B : Type} (m : out A) (k : A -> out B) : out B :=
  match m with Ret a => k a | Panic msg => Panic msg end.

Declare Scope out_scope.
Delimit Scope out_scope with out.
Notation "x <- m ;; k" := (bind m (fun x => k))
  (at level 100, m at next level, right associativity) : out_scope.

(** src/macros/mod.rs:7-15, macro do_if_eq: run the body when the condition holds,
    otherwise panic with the given text. *)
Definition do_if_eq {A : Type} (cond : bool) (body : out A) (err : string) : out A :=
  if cond then body else Panic err.

(** std::io::Result: data, not an effect. *)
Inductive io_result (A : Type) : Type :=
| Ok (a : A)
| Err (msg : string).
Arguments Ok {A}. Arguments Err {A}.
