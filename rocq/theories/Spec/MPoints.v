(** Montgomery curves and points of the model, read as the mathematical objects of Spec/Curve.v. *)
From Coq Require Import ZArith Znumtheory String Bool List.
From Verif.Spec Require Import Arith Curve Elements.
From Verif.Model Require Import Out BigInt PrimeField Scalar MCurve.
Import ListNotations.
Open Scope Z_scope.

(** a curve of the kind the formulas are meant for: b y^2 = x^3 + a x^2 + x over an odd prime field,
    with b = 1, nonsingular, and with no point whose ordinate is the constant s *)
Definition mont (e : Curve) : Prop :=
  let p := modulus (c_f e) in
  prime p /\ 2 < p /\ valid p (c_a e) /\ valid p (c_b e) /\ valid p (c_s e) /\ val (c_b e) = 1
  /\ ~ (p | val (c_a e) * val (c_a e) - 4)
  /\ forall x, ~ (p | x * x * x + val (c_a e) * (x * x) + x - val (c_s e) * val (c_s e)).
(** the model's point P of the curve e is the affine (or infinite) point A of the specification *)
Definition mpoint (e : Curve) (P : Point) (A : apoint) : Prop :=
  let p := modulus (c_f e) in
  pe P = e /\ valid p (px (pc P)) /\ valid p (py (pc P)) /\ valid p (pz (pc P))
  /\ proj_of p (val (px (pc P))) (val (py (pc P))) (val (pz (pc P))) A
  /\ on_cubic p (val (c_b e)) (val (c_a e)) 1 0 A.
(** the chord-and-tangent law of the curve *)
Definition msum (e : Curve) : apoint -> apoint -> apoint -> Prop :=
  chord_tangent (modulus (c_f e)) (val (c_b e)) (val (c_a e)) 1.
(** the point lies on the curve *)
Definition mon (e : Curve) : apoint -> Prop :=
  on_cubic (modulus (c_f e)) (val (c_b e)) (val (c_a e)) 1 0.
(** both sides are defined and compare equal *)
Definition same (x y : out Point) : Prop :=
  exists L M, x = Ret L /\ y = Ret M /\ pt_eqb L M = Ret true.
(** what decode accepts for the point (x,y): its SEC1 encoding and, when y = 0, also the compressed one
    with the tag of an odd ordinate *)
Definition accepted (n x y : Z) (c : bool) (buf : list Z) : Prop :=
  sec1 n x y c buf \/ (c = true /\ y = 0 /\ exists bx, be_digits n x bx /\ buf = 3 :: bx).
(** what a caller can write: a term over the public constructors and operations *)
Inductive mterm :=
| TNew (x y : Z) | TIdentity | TGenerator | TDecode (buf : list Z)
| TAdd (t u : mterm) | TSub (t u : mterm) | TNeg (t : mterm) | TMul (t : mterm) (k : Z).
(** the calls the term makes; oc: the build checks for overflow *)
Fixpoint run (oc : bool) (e : Curve) (t : mterm) : out Point :=
  match t with
  | TNew x y => bind (elt (c_f e) x) (fun x => bind (elt (c_f e) y) (fun y => new_point e x y))
  | TIdentity => identity e
  | TGenerator => get_generator e
  | TDecode buf => bind (decode e buf) (fun r => match r with Ok P => Ret P | Err m => Panic m end)
  | TAdd t u => bind (run oc e t) (fun P => bind (run oc e u) (fun Q => pt_add P Q))
  | TSub t u => bind (run oc e t) (fun P => bind (run oc e u) (fun Q => pt_sub P Q))
  | TNeg t => bind (run oc e t) pt_neg
  | TMul t k => bind (run oc e t) (fun P => bind (new_scalar e k) (fun k => pt_mul oc P k))
  end.
(** what the term means mathematically *)
Inductive mmeans (oc : bool) (e : Curve) : mterm -> apoint -> Prop :=
| mm_new x y u v : residue (modulus (c_f e)) x u -> residue (modulus (c_f e)) y v ->
    mon e (Affine u v) -> mmeans oc e (TNew x y) (Affine u v)
| mm_id : mmeans oc e TIdentity Infinity
| mm_gen : mon e (Affine (val (c_gx e)) (val (c_gy e))) ->
    mmeans oc e TGenerator (Affine (val (c_gx e)) (val (c_gy e)))
| mm_decode n c x y buf : byte_size (modulus (c_f e)) n -> accepted n x y c buf -> mon e (Affine x y) ->
    mmeans oc e (TDecode buf) (Affine x y)
| mm_add t u A B C : mmeans oc e t A -> mmeans oc e u B -> msum e A B C -> mmeans oc e (TAdd t u) C
| mm_sub t u A B C : mmeans oc e t A -> mmeans oc e u B -> msum e A (negative (modulus (c_f e)) B) C ->
    mmeans oc e (TSub t u) C
| mm_neg t A : mmeans oc e t A -> mmeans oc e (TNeg t) (negative (modulus (c_f e)) A)
| mm_mul t k j A C : mmeans oc e t A -> residue (c_r e) k j -> (oc = true -> j <> 0) ->
    multiple (msum e) Infinity A (Z.to_nat j) C -> mmeans oc e (TMul t k) C.
(** a curve together with its generator and order *)
Definition mgroup (e : Curve) : Prop :=
  mont e /\ sqrt_modulus (modulus (c_f e)) /\ 0 < c_r e /\ Z.log2 (c_r e) < 2 ^ 63
  /\ valid (modulus (c_f e)) (c_gx e) /\ valid (modulus (c_f e)) (c_gy e).
(** buffers given to decode consist of bytes *)
Fixpoint term_bytes (t : mterm) : Prop :=
  match t with
  | TDecode buf => Forall is_byte buf
  | TAdd t u | TSub t u => term_bytes t /\ term_bytes u
  | TNeg t | TMul t _ => term_bytes t
  | _ => True
  end.
