(** Specification of curve points over plain integers: the textbook chord-and-tangent law on
    B y^2 = x^3 + a2 x^2 + a4 x + a6 modulo p (Weierstrass: B = 1, a2 = 0; Montgomery: a4 = 1,
    a6 = 0) and the twisted Edwards law. Nothing here mentions the model's functions. *)
From Coq Require Import ZArith List.
From Verif.Spec Require Import Arith.
Import ListNotations.
Open Scope Z_scope.

(** coordinates are canonical residues *)
Definition coord (p z : Z) : Prop := 0 <= z < p.

Inductive apoint := Infinity | Affine (x y : Z).

Definition on_cubic (p B a2 a4 a6 : Z) (P : apoint) : Prop :=
  match P with
  | Infinity => True
  | Affine x y => coord p x /\ coord p y /\ (p | B * (y * y) - (x * x * x + a2 * (x * x) + a4 * x + a6))
  end.

(** the line of slope l through (x1,y1) meets the curve again at (x3,-y3) *)
Definition third_point (p B a2 l x1 y1 x2 x3 y3 : Z) : Prop :=
  coord p x3 /\ coord p y3
  /\ (p | x3 - (B * (l * l) - a2 - x1 - x2)) /\ (p | y3 - (l * (x1 - x3) - y1)).

Inductive chord_tangent (p B a2 a4 : Z) : apoint -> apoint -> apoint -> Prop :=
| ct_left P : chord_tangent p B a2 a4 Infinity P P
| ct_right P : chord_tangent p B a2 a4 P Infinity P
| ct_opposite x y y' : (p | y + y') -> chord_tangent p B a2 a4 (Affine x y) (Affine x y') Infinity
| ct_chord x1 y1 x2 y2 l x3 y3 : x1 <> x2 -> (p | l * (x2 - x1) - (y2 - y1)) ->
    third_point p B a2 l x1 y1 x2 x3 y3 ->
    chord_tangent p B a2 a4 (Affine x1 y1) (Affine x2 y2) (Affine x3 y3)
| ct_tangent x y l x3 y3 : ~ (p | y + y) -> (p | l * (2 * B * y) - (3 * (x * x) + 2 * a2 * x + a4)) ->
    third_point p B a2 l x y x x3 y3 ->
    chord_tangent p B a2 a4 (Affine x y) (Affine x y) (Affine x3 y3).

Definition negative (p : Z) (P : apoint) : apoint :=
  match P with Infinity => Infinity | Affine x y => Affine x ((- y) mod p) end.

(** n-fold sum *)
Inductive multiple {A : Type} (sum : A -> A -> A -> Prop) (zero P : A) : nat -> A -> Prop :=
| mult_O : multiple sum zero P 0 zero
| mult_S n Q R : multiple sum zero P n Q -> sum Q P R -> multiple sum zero P (S n) R.

(** X : Y : W represents the point *)
Definition proj_of (p X Y W : Z) (P : apoint) : Prop :=
  match P with
  | Infinity => X = 0 /\ Y <> 0 /\ W = 0
  | Affine x y => W <> 0 /\ (p | X - x * W) /\ (p | Y - y * W)
  end.

(** *** SEC1 byte strings: n-byte big-endian coordinates, tag 2/3 by the parity of y, or tag 4 *)
Definition be_digits (n v : Z) (l : list Z) : Prop :=
  Z.of_nat (length l) = n /\ Forall is_byte l /\ be_value l = v.
Inductive sec1 (n x y : Z) : bool -> list Z -> Prop :=
| sec1_compressed bx : be_digits n x bx -> sec1 n x y true ((if Z.even y then 2 else 3) :: bx)
| sec1_full bx by_ : be_digits n x bx -> be_digits n y by_ -> sec1 n x y false (4 :: bx ++ by_).

(** *** twisted Edwards: a x^2 + y^2 = 1 + d x^2 y^2 *)
Definition on_edwards (p a d : Z) (P : Z * Z) : Prop :=
  let (x, y) := P in
  coord p x /\ coord p y /\ (p | a * (x * x) + y * y - (1 + d * (x * x) * (y * y))).
Definition edwards_sum (p a d : Z) (P Q R : Z * Z) : Prop :=
  let (x1, y1) := P in let (x2, y2) := Q in let (x3, y3) := R in
  coord p x3 /\ coord p y3
  /\ ~ (p | 1 + d * (x1 * x2 * y1 * y2)) /\ ~ (p | 1 - d * (x1 * x2 * y1 * y2))
  /\ (p | x3 * (1 + d * (x1 * x2 * y1 * y2)) - (x1 * y2 + y1 * x2))
  /\ (p | y3 * (1 - d * (x1 * x2 * y1 * y2)) - (y1 * y2 - a * (x1 * x2))).
Definition edwards_neg (p : Z) (P : Z * Z) : Z * Z := ((- fst P) mod p, snd P).
(** X : Y : T : W represents (x, y): x = X/W, y = Y/W, x y = T/W *)
Definition ext_of (p X Y T W : Z) (P : Z * Z) : Prop :=
  W <> 0 /\ (p | X - fst P * W) /\ (p | Y - snd P * W) /\ (p | T - fst P * snd P * W).
(** *** Edwards byte strings (as in RFC 8032): y little-endian on n bytes, the low bit of x in the top bit;
    n is the least size leaving that bit free *)
Definition ed_size (p n : Z) : Prop := 0 < n /\ 256 ^ (n - 1) <= 2 * p < 256 ^ n.
Definition ed_text (n x y : Z) (l : list Z) : Prop :=
  Z.of_nat (length l) = n /\ Forall is_byte l /\ le_value l = y + (x mod 2) * 2 ^ (8 * n - 1).
