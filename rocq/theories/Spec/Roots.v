(** Fourth powers modulo p, and the set from which sqrt picks its root when p = 5 mod 8. *)
From Coq Require Import ZArith.
Open Scope Z_scope.

(** x is a fourth power modulo p *)
Definition fourth_mod (p x : Z) : Prop := exists w, (p | w ^ 4 - x).
(** x is s times a fourth power modulo p *)
Definition times_fourth_mod (p s x : Z) : Prop := exists w, (p | s * w ^ 4 - x).
