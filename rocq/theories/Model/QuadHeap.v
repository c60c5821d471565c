(** Reference counts of the quadratic field: src/quadraticfield/mod.rs, lines 19-60, 132-136,
    181-230 and 268-325, on top of the counts of the prime field in Model/SqrtCache.v. *)
From Coq Require Import ZArith Bool List.
From Verif.Model Require Import SqrtCache.
Import ListNotations.
Local Open Scope Z_scope.

(** The two allocations behind one Fp2: the Arc<Params> of the quadratic field itself (strong count,
    cache filled, freed) and the Arc of the base field owned by that Params (line 20). *)
Record QHeap := mkQHeap { q_strong : Z; q_filled : bool; q_freed : bool; q_base : Heap }.

(** Fp2::new, lines 44-48: Fp::new, whose only handle is moved into Params; then Arc::new *)
Definition qheap_new : QHeap := mkQHeap 1 false false heap_new.

(** Arc<Params>::clone: Fp2's derived Clone, line 33 *)
Definition q_clone (h : QHeap) : QHeap := mkQHeap (q_strong h + 1) (q_filled h) (q_freed h) (q_base h).
(** drop of an Fp2: the last one drops Params, whose field base (line 20) drops a handle of the base
    field; the cached constants (line 270: two integers) own no handle *)
Definition q_drop (h : QHeap) : QHeap :=
  if q_strong h - 1 =? 0
  then mkQHeap 0 (q_filled h) true (arc_drop (q_base h))
  else mkQHeap (q_strong h - 1) (q_filled h) (q_freed h) (q_base h).
(** an operation on the base field *)
Definition on_base (g : Heap -> Heap) (h : QHeap) : QHeap :=
  mkQHeap (q_strong h) (q_filled h) (q_freed h) (g (q_base h)).

(** a new Fp2Elt {n: vec![n0, n1], f}: lines 53-58, 84-87 and 99-102, 118-128, 182-186; also the derived Clone,
    line 132. Each FpElt owns a handle of the base field, and f owns one of the quadratic field. *)
Definition q_elt (h : QHeap) : QHeap := q_clone (on_base (arc_clones 2) h).
(** drop of an Fp2Elt: its fields in the order of declaration, lines 134-135: n, then f *)
Definition q_elt_drop (h : QHeap) : QHeap := q_drop (on_base (arc_drops 2) h).

(** inv_mod, lines 188-193: n0*n0, n1*n1, their sum and den are dropped, the result remains *)
Definition q_inv_mod (h : QHeap) : QHeap :=
  let h := on_base (arc_clones 2) h in                           (* n0*n0, n1*n1 *)
  let h := on_base (fun b => arc_drops 2 (arc_clone b)) h in     (* their sum *)
  let h := on_base (fun b => arc_drop (arc_clone b)) h in        (* den; the sum ends *)
  let h := on_base (arc_clones 2) h in                           (* &den * n0, den * n1 *)
  let h := on_base arc_drop h in                                 (* den was consumed *)
  q_clone h.
(** multiplication, lines 206-215: four products, of which two sums remain *)
Definition q_mul (h : QHeap) : QHeap :=
  let h := on_base (arc_clones 2) h in                           (* n0*m0, n1*m1 *)
  let h := on_base (fun b => arc_drops 2 (arc_clone b)) h in     (* their difference *)
  let h := on_base (arc_clones 2) h in                           (* n0*m1, n1*m0 *)
  let h := on_base (fun b => arc_drops 2 (arc_clone b)) h in     (* their sum *)
  q_clone h.
(** division, lines 217-221: the inverse of b is a temporary *)
Definition q_div (h : QHeap) : QHeap := q_elt_drop (q_mul (q_inv_mod h)).
(** sqrt, lines 274-291 and 303-307: get_sqrt_precmp fills the cell, and the power a1 then panics in
    Fp2Elt::one (line 243; lines 348-350), before it has made any element; for p not 3 mod 4
    calc_sqrt_precmp panics and the cell is left as it was. Nothing is returned. *)
Definition q_sqrt (p : Z) (h : QHeap) : QHeap :=
  if 3 =? Z.rem p 4 then mkQHeap (q_strong h) true (q_freed h) (q_base h) else h.

(** what the owner can do: with a field, clone it, drop it or make an element of it; with an element,
    clone it or make one by an operation with a single allocation (+, -, negation), multiply, divide
    or invert, take a square root, drop it *)
Inductive qop := QClone | QDrop | QElt | QCopy | QMul | QDiv | QInv | QSqrt | QEltDrop.

(** the numbers of fields and of elements owned are kept beside the heap *)
Definition qheap_step (p : Z) (s : QHeap * nat * nat) (o : qop) : QHeap * nat * nat :=
  let '(h, fs, es) := s in
  match o, fs, es with
  | QClone, S _, _ => (q_clone h, S fs, es)
  | QDrop, S k, _ => (q_drop h, k, es)
  | QElt, S _, _ => (q_elt h, fs, S es)
  | QCopy, _, S _ => (q_elt h, fs, S es)
  | QMul, _, S _ => (q_mul h, fs, S es)
  | QDiv, _, S _ => (q_div h, fs, S es)
  | QInv, _, S _ => (q_inv_mod h, fs, S es)
  | QSqrt, _, S _ => (q_sqrt p h, fs, es)
  | QEltDrop, _, S k => (q_elt_drop h, fs, k)
  | _, _, _ => s
  end.
Definition qheap_run (p : Z) (ops : list qop) : QHeap * nat * nat :=
  fold_left (qheap_step p) ops (qheap_new, 1%nat, 0%nat).
