(** Specification of the maps to curves over plain integers, following RFC 9380 (section 6.6.1:
    Shallue-van de Woestijne, 6.6.2: simplified SWU, 6.7.1: Elligator 2), with divisions written as
    congruences. Nothing here mentions the model's functions. *)
From Coq Require Import ZArith.
From Verif.Spec Require Import Arith Curve.
Open Scope Z_scope.

(** the two numbers have the same parity, unless y = 0 *)
Definition sign_follows (u y : Z) : Prop := y = 0 \/ Z.even y = Z.even u.

(** *** simplified SWU on y^2 = x^3 + a x + b with parameter z *)
Definition cubic (a b x : Z) : Z := x * x * x + a * x + b.
Definition sswu_params (p a b z : Z) : Prop :=
  ~ (p | a) /\ ~ (p | b) /\ ~ square_mod p z /\ ~ (p | z + 1)
  /\ forall x, (p | x * (z * a) - b) -> square_mod p (cubic a b x).
(** x1 = (-b/a) (1 + 1/n) with n = z^2 u^4 + z u^2, or b/(z a) when n = 0 *)
Definition sswu_x1 (p a b z u x1 : Z) : Prop :=
  let t := z * (u * u) in let n := t * t + t in
  coord p x1 /\ ((p | n) -> (p | x1 * (z * a) - b)) /\ (~ (p | n) -> (p | x1 * (a * n) + b * (n + 1))).
(** (x1, y) if x1 is the abscissa of a point and (z u^2 x1, y) if not, the sign of y being that of u *)
Definition sswu_point (p a b z u x y : Z) : Prop :=
  exists x1, sswu_x1 p a b z u x1 /\ coord p x /\ coord p y /\ (p | y * y - cubic a b x) /\ sign_follows u y
    /\ (square_mod p (cubic a b x1) -> x = x1) /\ (~ square_mod p (cubic a b x1) -> (p | x - z * (u * u) * x1)).

(** *** Shallue-van de Woestijne *)
Definition svdw_params (p a b z : Z) : Prop :=
  ~ (p | cubic a b z) /\ ~ (p | 3 * (z * z) + 4 * a)
  /\ (forall v, (p | v * (4 * cubic a b z) + (3 * (z * z) + 4 * a)) -> square_mod p v)
  /\ (square_mod p (cubic a b z) \/ forall x, (p | 2 * x + z) -> square_mod p (cubic a b x)).
(** t = u^2 g(z), c the even square root of -g(z) (3 z^2 + 4 a) *)
Definition svdw_candidates (p a b z u c x1 x2 x3 : Z) : Prop :=
  let gz := cubic a b z in let h := 3 * (z * z) + 4 * a in let t := u * u * gz in
  coord p c /\ Z.even c = true /\ (p | c * c + gz * h)
  /\ coord p x1 /\ coord p x2 /\ coord p x3
  /\ (p | x2 + x1 + z)
  /\ (~ (p | 1 - t * t) -> (p | 2 * x1 * (1 + t) + (z * (1 + t) + 2 * u * c))
                       /\ (p | (x3 - z) * h * ((1 - t) * (1 - t)) + 4 * gz * ((1 + t) * (1 + t))))
  /\ ((p | 1 - t * t) -> (p | 2 * x1 + z) /\ (p | x3 - z)).
(** the first of x1, x2, x3 that is the abscissa of a point, the sign of y being that of u *)
Definition svdw_point (p a b z u x y : Z) : Prop :=
  exists c x1 x2 x3, svdw_candidates p a b z u c x1 x2 x3
    /\ coord p x /\ coord p y /\ (p | y * y - cubic a b x) /\ sign_follows u y
    /\ (square_mod p (cubic a b x1) -> x = x1)
    /\ (~ square_mod p (cubic a b x1) -> square_mod p (cubic a b x2) -> x = x2)
    /\ (~ square_mod p (cubic a b x1) -> ~ square_mod p (cubic a b x2) -> x = x3).

(** *** Elligator 2 on b y^2 = x^3 + a x^2 + x with parameter z *)
Definition mont_cubic (a x : Z) : Z := x * x * x + a * (x * x) + x.
(** x1 = -a/(1 + z u^2), or -a when z u^2 = -1 *)
Definition ell2_x1 (p a z u x1 : Z) : Prop :=
  coord p x1 /\ ((p | 1 + z * (u * u)) -> (p | x1 + a)) /\ (~ (p | 1 + z * (u * u)) -> (p | x1 * (1 + z * (u * u)) + a)).
(** x1 or -x1-a according to which is the abscissa of a point; y/b is odd in the first case and even in the
    second one, unless y = 0 *)
Definition ell2_point (p a b z u x y : Z) : Prop :=
  exists x1 w, ell2_x1 p a z u x1 /\ coord p x /\ coord p y /\ coord p w /\ (p | y - b * w)
    /\ (p | b * (y * y) - mont_cubic a x)
    /\ (square_mod p (b * mont_cubic a x1) -> x = x1 /\ (w = 0 \/ Z.even w = false))
    /\ (~ square_mod p (b * mont_cubic a x1) -> (p | x + x1 + a) /\ Z.even w = true).
