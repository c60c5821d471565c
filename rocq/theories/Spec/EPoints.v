(** Twisted Edwards curves and points of the model, read as the mathematical objects of Spec/Curve.v. *)
From Coq Require Import ZArith Znumtheory String Bool List.
From Verif.Spec Require Import Arith Curve Elements.
From Verif.Model Require Import Out BigInt PrimeField Scalar ECurve.
Import ListNotations.
Open Scope Z_scope.

(** a complete curve a x^2 + y^2 = 1 + d x^2 y^2 over an odd prime field: a is a non-zero square and d is
    not a square *)
Definition edw (e : Curve) : Prop :=
  let p := modulus (c_f e) in
  prime p /\ 2 < p /\ valid p (c_a e) /\ valid p (c_d e)
  /\ ~ (p | val (c_a e)) /\ (exists s, (p | s * s - val (c_a e))) /\ forall s, ~ (p | s * s - val (c_d e)).
(** the model's point P of the curve e is the affine point A of the specification *)
Definition epoint (e : Curve) (P : Point) (A : Z * Z) : Prop :=
  let p := modulus (c_f e) in
  pe P = e /\ valid p (px (pc P)) /\ valid p (py (pc P)) /\ valid p (ptt (pc P)) /\ valid p (pz (pc P))
  /\ ext_of p (val (px (pc P))) (val (py (pc P))) (val (ptt (pc P))) (val (pz (pc P))) A
  /\ on_edwards p (val (c_a e)) (val (c_d e)) A.
(** the addition law of the curve *)
Definition esum (e : Curve) : Z * Z -> Z * Z -> Z * Z -> Prop :=
  edwards_sum (modulus (c_f e)) (val (c_a e)) (val (c_d e)).
(** the point lies on the curve *)
Definition eon (e : Curve) : Z * Z -> Prop :=
  on_edwards (modulus (c_f e)) (val (c_a e)) (val (c_d e)).
(** both sides are defined and compare equal *)
Definition same (x y : out Point) : Prop :=
  exists L M, x = Ret L /\ y = Ret M /\ pt_eqb L M = Ret true.
(** what a caller can write: a term over the public constructors and operations *)
Inductive eterm :=
| TNew (x y : Z) | TIdentity | TGenerator | TDecode (buf : list Z)
| TAdd (t u : eterm) | TSub (t u : eterm) | TNeg (t : eterm) | TMul (t : eterm) (k : Z) | TNormalize (t : eterm).
(** the calls the term makes; oc: the build checks for overflow *)
Fixpoint run (oc : bool) (e : Curve) (t : eterm) : out Point :=
  match t with
  | TNew x y => bind (elt (c_f e) x) (fun x => bind (elt (c_f e) y) (fun y => new_point e x y))
  | TIdentity => identity e
  | TGenerator => get_generator e
  | TDecode buf => bind (decode e buf) (fun r => match r with Ok P => Ret P | Err m => Panic m end)
  | TAdd t u => bind (run oc e t) (fun P => bind (run oc e u) (fun Q => pt_add P Q))
  | TSub t u => bind (run oc e t) (fun P => bind (run oc e u) (fun Q => pt_sub P Q))
  | TNeg t => bind (run oc e t) pt_neg
  | TMul t k => bind (run oc e t) (fun P => bind (new_scalar e k) (fun k => pt_mul oc P k))
  | TNormalize t => bind (run oc e t) normalize
  end.
(** what the term means mathematically *)
Inductive emeans (oc : bool) (e : Curve) : eterm -> Z * Z -> Prop :=
| em_new x y u v : residue (modulus (c_f e)) x u -> residue (modulus (c_f e)) y v ->
    eon e (u, v) -> emeans oc e (TNew x y) (u, v)
| em_id : emeans oc e TIdentity (0, 1)
| em_gen : eon e (val (c_gx e), val (c_gy e)) ->
    emeans oc e TGenerator (val (c_gx e), val (c_gy e))
| em_decode n x y buf : ed_size (modulus (c_f e)) n -> ed_text n x y buf -> eon e (x, y) ->
    emeans oc e (TDecode buf) (x, y)
| em_add t u A B C : emeans oc e t A -> emeans oc e u B -> esum e A B C -> emeans oc e (TAdd t u) C
| em_sub t u A B C : emeans oc e t A -> emeans oc e u B -> esum e A (edwards_neg (modulus (c_f e)) B) C ->
    emeans oc e (TSub t u) C
| em_neg t A : emeans oc e t A -> emeans oc e (TNeg t) (edwards_neg (modulus (c_f e)) A)
| em_mul t k j A C : emeans oc e t A -> residue (c_r e) k j -> (oc = true -> j <> 0) ->
    multiple (esum e) (0, 1) A (Z.to_nat j) C -> emeans oc e (TMul t k) C
| em_norm t A : emeans oc e t A -> emeans oc e (TNormalize t) A.
(** a curve together with its generator and order *)
Definition egroup (e : Curve) : Prop :=
  edw e /\ sqrt_modulus (modulus (c_f e)) /\ 0 < c_r e /\ Z.log2 (c_r e) < 2 ^ 63
  /\ valid (modulus (c_f e)) (c_gx e) /\ valid (modulus (c_f e)) (c_gy e).
(** buffers given to decode consist of bytes *)
Fixpoint term_bytes (t : eterm) : Prop :=
  match t with
  | TDecode buf => Forall is_byte buf
  | TAdd t u | TSub t u => term_bytes t /\ term_bytes u
  | TNeg t | TMul t _ | TNormalize t => term_bytes t
  | _ => True
  end.
