(** The square-root cache of src/primefield/mod.rs shared by all clones of one Fp: the
    AtomicRefCell (lines 20-23, 45-51), get_sqrt_precmp (lines 255-262), its use in sqrt
    (lines 297-314), under sequential and concurrent callers; and the Arc reference count
    behind Fp / FpElt. One shared allocation is modelled; different allocations do not
    interact. Each step below is atomic: AtomicRefCell::borrow_mut is one atomic
    compare-and-swap, and between it and the release only the borrowing thread touches the
    Option. Memory is sequentially consistent. *)
From Coq Require Import ZArith String Bool List.
From Verif.Model Require Import Out BigInt PrimeField.
Import ListNotations.
Open Scope Z_scope.

(** lines 20-23: Params; [borrowed] is the state of the AtomicRefCell (only borrow_mut is used) *)
Record Cell := mkCell { c_field : Fp; c_cache : option SqrtPrecmp; c_borrowed : bool }.

(** lines 45-51 *)
Definition cell_new (m : Z) : Cell := mkCell (fp_new m) None false.

(** atomic_refcell 0.1.8, AtomicRefCell::borrow_mut when already mutably borrowed *)
Definition ERR_BORROW : string := "already mutably borrowed".

(** Option::get_or_insert followed by clone: lines 259-260 *)
Definition get_or_insert (o : option SqrtPrecmp) (new : SqrtPrecmp) : SqrtPrecmp :=
  match o with Some old => old | None => new end.

(** Where a thread is inside one x.sqrt() call. *)
Inductive phase :=
| Idle                                   (* between calls *)
| Holding (x : FpElt)                    (* line 258 done: the cell is borrowed *)
| Computed (x : FpElt) (new : SqrtPrecmp)  (* line 259, argument evaluated *)
| Cloned (x : FpElt) (pre : SqrtPrecmp)  (* lines 259-260 done, still borrowed *)
| Released (x : FpElt) (pre : SqrtPrecmp). (* line 261: the borrow is dropped *)

(** A thread: arguments of the sqrt calls still to make, its phase, and the calls that have
    ended with their outcome (latest first). A panic ends the call; the thread may go on to
    the next one (catch_unwind) or its schedule may end there. *)
Record Thread := mkThread { t_todo : list FpElt; t_phase : phase; t_done : list (FpElt * out FpElt) }.

(** one step of one thread; None when it has nothing left to do *)
Definition thread_step (c : Cell) (t : Thread) : option (Cell * Thread) :=
  match t_phase t with
  | Idle =>
      match t_todo t with
      | [] => None
      | x :: rest =>
          (* line 298 calls get_sqrt_precmp; line 258 borrow_mut *)
          if c_borrowed c
          then Some (c, mkThread rest Idle ((x, Panic ERR_BORROW) :: t_done t))
          else Some (mkCell (c_field c) (c_cache c) true, mkThread rest (Holding x) (t_done t))
      end
  | Holding x =>
      (* line 259: the argument of get_or_insert is evaluated on every call *)
      match calc_sqrt_precmp (c_field c) with
      | Ret new => Some (c, mkThread (t_todo t) (Computed x new) (t_done t))
      | Panic msg => (* unwinding drops the borrow *)
          Some (mkCell (c_field c) (c_cache c) false,
                mkThread (t_todo t) Idle ((x, Panic msg) :: t_done t))
      end
  | Computed x new =>
      let pre := get_or_insert (c_cache c) new in
      Some (mkCell (c_field c) (Some pre) (c_borrowed c), mkThread (t_todo t) (Cloned x pre) (t_done t))
  | Cloned x pre =>
      Some (mkCell (c_field c) (c_cache c) false, mkThread (t_todo t) (Released x pre) (t_done t))
  | Released x pre =>
      (* lines 299-313 *)
      Some (c, mkThread (t_todo t) Idle ((x, sqrt_with pre x) :: t_done t))
  end.

Record Sys := mkSys { s_cell : Cell; s_threads : list Thread }.

Fixpoint update {A} (l : list A) (i : nat) (a : A) : list A :=
  match l, i with
  | [], _ => []
  | _ :: l', O => a :: l'
  | b :: l', S j => b :: update l' j a
  end.

(** the scheduler lets thread i take one step; nothing happens when it cannot *)
Definition sys_step (s : Sys) (i : nat) : Sys :=
  match nth_error (s_threads s) i with
  | None => s
  | Some t =>
      match thread_step (s_cell s) t with
      | None => s
      | Some (c', t') => mkSys c' (update (s_threads s) i t')
      end
  end.

(** a run under a schedule *)
Definition sys_run (s : Sys) (schedule : list nat) : Sys := fold_left sys_step schedule s.

(** all threads about to start, on a field made by Fp::new(m) *)
Definition sys_init (m : Z) (programs : list (list FpElt)) : Sys :=
  mkSys (cell_new m) (map (fun l => mkThread l Idle []) programs).

(** One thread alone: a whole call, as a function on the cell (lines 255-262, 297-314). *)
Definition sqrt_cached (c : Cell) (x : FpElt) : Cell * out FpElt :=
  if c_borrowed c then (c, Panic ERR_BORROW)
  else
    match calc_sqrt_precmp (c_field c) with
    | Panic msg => (mkCell (c_field c) (c_cache c) false, Panic msg)
    | Ret new =>
        let pre := get_or_insert (c_cache c) new in
        (mkCell (c_field c) (Some pre) false, sqrt_with pre x)
    end.
(** a sequence of calls *)
Fixpoint sqrt_history (c : Cell) (xs : list FpElt) : Cell * list (out FpElt) :=
  match xs with
  | [] => (c, [])
  | x :: xs' =>
      let (c1, r) := sqrt_cached c x in
      let (c2, rs) := sqrt_history c1 xs' in (c2, r :: rs)
  end.

(** *** Reference counts *)
(** The allocation behind one Fp: the Arc's strong count, how many of the handles are owned by
    the cached constants, whether the cache has been filled, and whether the memory was freed. *)
Record Heap := mkHeap { strong : Z; cache_owns : Z; filled : bool; freed : bool }.

(** Arc::new: lines 47-50; the caller owns the one handle *)
Definition heap_new : Heap := mkHeap 1 0 false false.

(** Arc::clone *)
Definition arc_clone (h : Heap) : Heap := mkHeap (strong h + 1) (cache_owns h) (filled h) (freed h).
(** drop of a handle; the last one frees the allocation *)
Definition arc_drop (h : Heap) : Heap :=
  mkHeap (strong h - 1) (cache_owns h) (filled h) (freed h || (strong h - 1 =? 0)).
Fixpoint arc_clones (n : nat) (h : Heap) : Heap :=
  match n with O => h | S k => arc_clones k (arc_clone h) end.
Fixpoint arc_drops (n : nat) (h : Heap) : Heap :=
  match n with O => h | S k => arc_drops k (arc_drop h) end.

(** the handle traffic of calc_sqrt_precmp for p = 5 mod 8, lines 271-277: every FpElt result
    clones the Arc (red, lines 184-189), every temporary drops it. One handle remains, in
    sqrt_minus_one. *)
Definition calc_handles (p : Z) (h : Heap) : Heap :=
  if 3 =? Z.rem (Z.rem p 16) 4 then h
  else if 5 =? Z.rem (Z.rem p 16) 8 then
    let h := arc_clones 2 h in                 (* self.one(), self.one() *)
    let h := arc_drops 2 (arc_clone h) in      (* their sum *)
    let h := arc_drop (arc_clone h) in         (* ^ &k; the sum is dropped *)
    let h := arc_clone h in                    (* t0 = &t ^ 2 *)
    let h := arc_drop (arc_clone h) in         (* t0 = &t0 + &t0 *)
    let h := arc_drops 2 (arc_clones 2 h) in   (* t0 = t0 + self.one() *)
    arc_drops 2 (arc_clone h)                  (* t0 = t0 * t *)
  else h.

(** whether the constants of p contain an element of the field *)
Definition precmp_owns (p : Z) : Z :=
  if 3 =? Z.rem (Z.rem p 16) 4 then 0 else if 5 =? Z.rem (Z.rem p 16) 8 then 1 else 0.

(** lines 255-262: the constants are computed, moved into the cache or dropped, and cloned *)
Definition get_handles (p : Z) (h : Heap) : Heap :=
  let h := calc_handles p h in
  let h := if filled h
           then arc_drops (Z.to_nat (precmp_owns p)) h
           else mkHeap (strong h) (precmp_owns p) true (freed h) in
  arc_clones (Z.to_nat (precmp_owns p)) h.

(** lines 297-314: a whole sqrt call. Returns the new heap and whether a result (a new handle,
    owned by the caller) was returned; otherwise it panicked. *)
Definition sqrt_handles (p : Z) (h : Heap) : Heap * bool :=
  let h := get_handles p h in
  if 3 =? Z.rem (Z.rem p 16) 4 then (arc_clone h, true)
  else if 5 =? Z.rem (Z.rem p 16) 8 then
    let h := arc_clones 2 h in                 (* t0, t1 *)
    let h := arc_drop (arc_clone h) in         (* &t0 * sqrt_minus_one, which is consumed *)
    let h := arc_clone h in                    (* cmov clones one *)
    (arc_drops 3 h, true)                      (* t1, t1, t0 go out of scope *)
  else (h, false).

(** what the owner of handles can do: clone an Fp/FpElt or compute a new element, drop a handle,
    call sqrt on an element *)
Inductive hop := HClone | HDrop | HSqrt.

(** the number of handles the user owns is tracked beside the heap; operations need at least one *)
Definition heap_step (p : Z) (s : Heap * nat) (o : hop) : Heap * nat :=
  let (h, user) := s in
  match user, o with
  | O, _ => s
  | S k, HClone => (arc_clone h, S (S k))
  | S k, HDrop => (arc_drop h, k)
  | S k, HSqrt => let (h', r) := sqrt_handles p h in (h', if r then S (S k) else S k)
  end.
Definition heap_run (p : Z) (ops : list hop) : Heap * nat := fold_left (heap_step p) ops (heap_new, 1%nat).
