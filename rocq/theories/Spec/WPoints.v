(** Weierstrass curves and points of the model, read as the mathematical objects of Spec/Curve.v. *)
From Coq Require Import ZArith Znumtheory String Bool List.
From Verif.Spec Require Import Arith Curve Elements.
From Verif.Model Require Import Out BigInt PrimeField Scalar WCurve.
Import ListNotations.
Open Scope Z_scope.

(** a curve of the kind the formulas are meant for: odd prime field, coefficients in it, and no
    point of order 2 (no root of the cubic) *)
Definition weier (e : Curve) : Prop :=
  let p := modulus (c_f e) in
  prime p /\ 2 < p /\ valid p (c_a e) /\ valid p (c_b e)
  /\ forall x, ~ (p | x * x * x + val (c_a e) * x + val (c_b e)).
(** the model's point P of the curve e is the affine (or infinite) point A of the specification *)
Definition wpoint (e : Curve) (P : Point) (A : apoint) : Prop :=
  let p := modulus (c_f e) in
  pe P = e /\ valid p (px (pc P)) /\ valid p (py (pc P)) /\ valid p (pz (pc P))
  /\ proj_of p (val (px (pc P))) (val (py (pc P))) (val (pz (pc P))) A
  /\ on_cubic p 1 0 (val (c_a e)) (val (c_b e)) A.
(** the chord-and-tangent law of the curve *)
Definition wsum (e : Curve) : apoint -> apoint -> apoint -> Prop :=
  chord_tangent (modulus (c_f e)) 1 0 (val (c_a e)).
(** the point lies on the curve *)
Definition won (e : Curve) : apoint -> Prop :=
  on_cubic (modulus (c_f e)) 1 0 (val (c_a e)) (val (c_b e)).
(** what a caller can write: a term over the public constructors and operations *)
Inductive wterm :=
| TNew (x y : Z) | TIdentity | TGenerator | TDecode (buf : list Z)
| TAdd (t u : wterm) | TSub (t u : wterm) | TNeg (t : wterm) | TMul (t : wterm) (k : Z).
(** the calls the term makes; oc: the build checks for overflow *)
Fixpoint run (oc : bool) (e : Curve) (t : wterm) : out Point :=
  match t with
  | TNew x y => bind (elt (c_f e) x) (fun x => bind (elt (c_f e) y) (fun y => new_point e x y))
  | TIdentity => identity e
  | TGenerator => get_generator e
  | TDecode buf => bind (decode e buf) (fun r => match r with Ok P => Ret P | Err m => Panic m end)
  | TAdd t u => bind (run oc e t) (fun P => bind (run oc e u) (fun Q => pt_add P Q))
  | TSub t u => bind (run oc e t) (fun P => bind (run oc e u) (fun Q => pt_sub P Q))
  | TNeg t => bind (run oc e t) pt_neg
  | TMul t k => bind (run oc e t) (fun P => bind (new_scalar e k) (fun k => pt_mul oc P k))
  end.
(** what the term means mathematically *)
Inductive wmeans (oc : bool) (e : Curve) : wterm -> apoint -> Prop :=
| wm_new x y u v : residue (modulus (c_f e)) x u -> residue (modulus (c_f e)) y v ->
    won e (Affine u v) -> wmeans oc e (TNew x y) (Affine u v)
| wm_id : wmeans oc e TIdentity Infinity
| wm_gen : won e (Affine (val (c_gx e)) (val (c_gy e))) ->
    wmeans oc e TGenerator (Affine (val (c_gx e)) (val (c_gy e)))
| wm_decode n c x y buf : byte_size (modulus (c_f e)) n -> sec1 n x y c buf -> won e (Affine x y) ->
    wmeans oc e (TDecode buf) (Affine x y)
| wm_add t u A B C : wmeans oc e t A -> wmeans oc e u B -> wsum e A B C -> wmeans oc e (TAdd t u) C
| wm_sub t u A B C : wmeans oc e t A -> wmeans oc e u B -> wsum e A (negative (modulus (c_f e)) B) C ->
    wmeans oc e (TSub t u) C
| wm_neg t A : wmeans oc e t A -> wmeans oc e (TNeg t) (negative (modulus (c_f e)) A)
| wm_mul t k j A C : wmeans oc e t A -> residue (c_r e) k j -> (oc = true -> j <> 0) ->
    multiple (wsum e) Infinity A (Z.to_nat j) C -> wmeans oc e (TMul t k) C.
(** both sides are defined and compare equal *)
Definition same (x y : out Point) : Prop :=
  exists L M, x = Ret L /\ y = Ret M /\ pt_eqb L M = Ret true.
(** a curve together with its generator and order *)
Definition wgroup (e : Curve) : Prop :=
  weier e /\ sqrt_modulus (modulus (c_f e)) /\ 0 < c_r e /\ Z.log2 (c_r e) < 2 ^ 63
  /\ valid (modulus (c_f e)) (c_gx e) /\ valid (modulus (c_f e)) (c_gy e).
(** buffers given to decode consist of bytes *)
Fixpoint term_bytes (t : wterm) : Prop :=
  match t with
  | TDecode buf => Forall is_byte buf
  | TAdd t u | TSub t u => term_bytes t /\ term_bytes u
  | TNeg t | TMul t _ => term_bytes t
  | _ => True
  end.
