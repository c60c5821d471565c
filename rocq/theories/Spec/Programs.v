(** Programs a caller can write over one curve: they make points, combine them, ask about them, and go on
    depending on the answers. What a run shows is its trace. The operations of the curve are a parameter, so that
    one definition serves all three kinds of curves. *)
From Coq Require Import ZArith String Bool List.
From Verif.Spec Require Import Arith.
From Verif.Model Require Import Out BigInt PrimeField Scalar.
From Verif.Model Require WCurve MCurve ECurve Display.
Import ListNotations.
Open Scope Z_scope.
Open Scope out_scope.

Record api (Point : Type) := mkApi {
  a_new : Z -> Z -> out Point;
  a_identity : out Point;
  a_generator : out Point;
  a_decode : list Z -> out (io_result Point);
  a_add : Point -> Point -> out Point;
  a_sub : Point -> Point -> out Point;
  a_neg : Point -> out Point;
  a_mul : Point -> Z -> out Point;
  a_normalize : Point -> out Point;
  a_eqb : Point -> Point -> out bool;
  a_is_zero : Point -> bool;
  a_encode : Point -> bool -> out (list Z);
  a_show : Point -> out string }.
Arguments a_new {Point} _. Arguments a_identity {Point} _. Arguments a_generator {Point} _. Arguments a_decode {Point} _.
Arguments a_add {Point} _. Arguments a_sub {Point} _. Arguments a_neg {Point} _. Arguments a_mul {Point} _. Arguments a_normalize {Point} _.
Arguments a_eqb {Point} _. Arguments a_is_zero {Point} _. Arguments a_encode {Point} _. Arguments a_show {Point} _.

(** points are kept in numbered registers; a command that makes a point puts it in the next one *)
Inductive cmd :=
| New (x y : Z) | Identity | Generator | Decode (buf : list Z)
| Add (i j : nat) | Sub (i j : nat) | Neg (i : nat) | Mul (i : nat) (k : Z)
| Normalize (i : nat) (** only of points that is_zero does not report *)
| Equal (i j : nat) | IsZero (i : nat) | Encode (i : nat) (compress : bool)
| Print (i : nat) (** the text of the normalised point *).
Inductive reply := Made | Refused (why : string) | Skipped | Answer (b : bool) | Bytes (l : list Z) | Text (s : string) | NoRegister.
(** the next command may depend on everything seen so far *)
Inductive prog := Halt | Call (c : cmd) (next : reply -> prog).
(** what the caller sees *)
Inductive trace := End | Seen (r : reply) (t : trace) | Panicked (why : string).

Section Run.
  Context {Point : Type} (a : api Point).
  Definition reg (regs : list Point) (i : nat) (f : Point -> out (reply * option Point)) : out (reply * option Point) :=
    match nth_error regs i with Some P => f P | None => Ret (NoRegister, None) end.
  Definition made (x : out Point) : out (reply * option Point) := P <- x ;; Ret (Made, Some P).
  Definition step (c : cmd) (regs : list Point) : out (reply * option Point) :=
    match c with
    | New x y => made (a_new a x y)
    | Identity => made (a_identity a)
    | Generator => made (a_generator a)
    | Decode buf => r <- a_decode a buf ;; match r with Ok P => Ret (Made, Some P) | Err m => Ret (Refused m, None) end
    | Add i j => reg regs i (fun P => reg regs j (fun Q => made (a_add a P Q)))
    | Sub i j => reg regs i (fun P => reg regs j (fun Q => made (a_sub a P Q)))
    | Neg i => reg regs i (fun P => made (a_neg a P))
    | Mul i k => reg regs i (fun P => made (a_mul a P k))
    | Normalize i => reg regs i (fun P => if a_is_zero a P then Ret (Skipped, None) else made (a_normalize a P))
    | Equal i j => reg regs i (fun P => reg regs j (fun Q => b <- a_eqb a P Q ;; Ret (Answer b, None)))
    | IsZero i => reg regs i (fun P => Ret (Answer (a_is_zero a P), None))
    | Encode i c => reg regs i (fun P => l <- a_encode a P c ;; Ret (Bytes l, None))
    | Print i => reg regs i (fun P => N <- a_normalize a P ;; s <- a_show a N ;; Ret (Text s, None))
    end.
  Fixpoint run (p : prog) (regs : list Point) : trace :=
    match p with
    | Halt => End
    | Call c next =>
        match step c regs with
        | Panic m => Panicked m
        | Ret (r, None) => Seen r (run (next r) regs)
        | Ret (r, Some P) => Seen r (run (next r) (regs ++ [P]))
        end
    end.
End Run.

(** buffers given to decode consist of bytes *)
Definition cmd_bytes (c : cmd) : Prop := match c with Decode buf => Forall is_byte buf | _ => True end.
Fixpoint prog_bytes (p : prog) : Prop :=
  match p with Halt => True | Call c next => cmd_bytes c /\ forall r, prog_bytes (next r) end.

(** no program tells apart two representations of the same points *)
Definition opaque {Point S : Type} (a : api Point) (point : Point -> S -> Prop) : Prop :=
  forall p Ps Qs, prog_bytes p -> Forall2 (fun P Q => exists A, point P A /\ point Q A) Ps Qs -> run a p Ps = run a p Qs.
(** and some program tells apart any two different points *)
Definition separating {Point S : Type} (a : api Point) (point : Point -> S -> Prop) : Prop :=
  forall P Q A B, point P A -> point Q B -> A <> B -> exists p, prog_bytes p /\ run a p [P] <> run a p [Q].

(** the operations of the three kinds of curves; oc: the build checks for overflow *)
Definition w_api (oc : bool) (e : WCurve.Curve) : api WCurve.Point := mkApi _
  (fun x y => x <- elt (WCurve.c_f e) x ;; y <- elt (WCurve.c_f e) y ;; WCurve.new_point e x y)
  (WCurve.identity e) (WCurve.get_generator e) (WCurve.decode e) WCurve.pt_add WCurve.pt_sub WCurve.pt_neg
  (fun P k => k <- WCurve.new_scalar e k ;; WCurve.pt_mul oc P k)
  WCurve.normalize WCurve.pt_eqb WCurve.pt_is_zero WCurve.encode Display.wpoint_show.
Definition m_api (oc : bool) (e : MCurve.Curve) : api MCurve.Point := mkApi _
  (fun x y => x <- elt (MCurve.c_f e) x ;; y <- elt (MCurve.c_f e) y ;; MCurve.new_point e x y)
  (MCurve.identity e) (MCurve.get_generator e) (MCurve.decode e) MCurve.pt_add MCurve.pt_sub MCurve.pt_neg
  (fun P k => k <- MCurve.new_scalar e k ;; MCurve.pt_mul oc P k)
  MCurve.normalize MCurve.pt_eqb MCurve.pt_is_zero MCurve.encode Display.mpoint_show.
Definition e_api (oc : bool) (e : ECurve.Curve) : api ECurve.Point := mkApi _
  (fun x y => x <- elt (ECurve.c_f e) x ;; y <- elt (ECurve.c_f e) y ;; ECurve.new_point e x y)
  (ECurve.identity e) (ECurve.get_generator e) (ECurve.decode e) ECurve.pt_add ECurve.pt_sub ECurve.pt_neg
  (fun P k => k <- ECurve.new_scalar e k ;; ECurve.pt_mul oc P k)
  ECurve.normalize ECurve.pt_eqb ECurve.pt_is_zero ECurve.encode Display.epoint_show.
