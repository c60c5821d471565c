(** Specification vocabulary over plain integers. Nothing here mentions the model's functions. *)
From Coq Require Import ZArith String Ascii Bool List.
Import ListNotations.
Open Scope Z_scope.

(** r is the canonical residue of n modulo p *)
Definition residue (p n r : Z) : Prop := 0 <= r < p /\ (p | n - r).

(** integer powers with a natural exponent, written out as repeated multiplication *)
Fixpoint times (x : Z) (n : nat) : Z := match n with O => 1 | S k => x * times x k end.

(** value of a byte string read most / least significant byte first *)
Fixpoint be_value (l : list Z) : Z :=
  match l with [] => 0 | b :: l' => b * 256 ^ Z.of_nat (length l') + be_value l' end.
Fixpoint le_value (l : list Z) : Z :=
  match l with [] => 0 | b :: l' => b + 256 * le_value l' end.
Definition is_byte (b : Z) : Prop := 0 <= b < 256.

(** number of bytes needed for the residues modulo p: the least n with p <= 256^n *)
Definition byte_size (p n : Z) : Prop := 0 <= n /\ p - 1 < 256 ^ n /\ (n = 0 \/ 256 ^ (n - 1) <= p).

(** x has a square root modulo p *)
Definition square_mod (p x : Z) : Prop := exists y, (p | y * y - x).

(** binary digits, most significant first *)
Fixpoint bits_value (l : list bool) : Z :=
  match l with
  | [] => 0
  | b :: l' => (if b then 1 else 0) * 2 ^ Z.of_nat (length l') + bits_value l'
  end.

(** a digit character and its value in radixes up to 16 (either case) *)
Definition digit_of (c : ascii) : option Z :=
  let n := Z.of_nat (nat_of_ascii c) in
  if (48 <=? n) && (n <=? 57) then Some (n - 48)
  else if (97 <=? n) && (n <=? 102) then Some (n - 87)
  else if (65 <=? n) && (n <=? 70) then Some (n - 55)
  else None.

(** [numeral r s n]: the non-empty text s, all digits below r, denotes n *)
Inductive numeral (r : Z) : string -> Z -> Prop :=
| num_one c d : digit_of c = Some d -> d < r -> numeral r (String c EmptyString) d
| num_snoc s n c d : numeral r s n -> digit_of c = Some d -> d < r ->
    numeral r (s ++ String c EmptyString)%string (n * r + d).

(** integer expressions over variables: what a caller's chain of +, -, *, unary - and ^2 means *)
Inductive expr :=
| EVar (i : nat) | EInt (n : Z)
| EAdd (a b : expr) | ESub (a b : expr) | EMul (a b : expr) | ENeg (a : expr) | ESqr (a : expr).
Fixpoint den (rho : nat -> Z) (e : expr) : Z :=
  match e with
  | EVar i => rho i
  | EInt n => n
  | EAdd a b => den rho a + den rho b
  | ESub a b => den rho a - den rho b
  | EMul a b => den rho a * den rho b
  | ENeg a => - den rho a
  | ESqr a => den rho a * den rho a
  end.

(** *** texts of numbers, as the parser in fact accepts them *)
(** digits of radix r and underscores, starting with a digit *)
Inductive body (r : Z) : string -> Z -> Prop :=
| body_one c d : digit_of c = Some d -> d < r -> body r (String c EmptyString) d
| body_snoc s n c d : body r s n -> digit_of c = Some d -> d < r ->
    body r (s ++ String c EmptyString)%string (n * r + d)
| body_under s n : body r s n -> body r (s ++ "_")%string n.
(** with an optional sign *)
Inductive signed (r : Z) : string -> Z -> Prop :=
| signed_none s n : body r s n -> signed r s n
| signed_plus s n : body r s n -> signed r ("+" ++ s)%string n
| signed_minus s n : body r s n -> signed r ("-" ++ s)%string (- n).
(** radix prefixes *)
Definition radix_text (r : Z) (pre : string) : Prop :=
  (r = 10 /\ pre = ""%string) \/ (r = 16 /\ pre = "0x"%string)
  \/ (r = 8 /\ pre = "0o"%string) \/ (r = 2 /\ pre = "0b"%string).
Inductive literal : string -> Z -> Prop :=
| literal_empty : literal "" 0
| literal_pos r pre s n : radix_text r pre -> signed r s n -> literal (pre ++ s)%string n
| literal_neg r pre s n : radix_text r pre -> signed r s n -> literal ("-" ++ pre ++ s)%string (- n).

(** the same expressions over the Gaussian integers a + b i *)
Fixpoint gden (rho : nat -> Z * Z) (e : expr) : Z * Z :=
  match e with
  | EVar i => rho i
  | EInt n => (n, 0)
  | EAdd a b => (fst (gden rho a) + fst (gden rho b), snd (gden rho a) + snd (gden rho b))
  | ESub a b => (fst (gden rho a) - fst (gden rho b), snd (gden rho a) - snd (gden rho b))
  | EMul a b => (fst (gden rho a) * fst (gden rho b) - snd (gden rho a) * snd (gden rho b),
                 fst (gden rho a) * snd (gden rho b) + snd (gden rho a) * fst (gden rho b))
  | ENeg a => (- fst (gden rho a), - snd (gden rho a))
  | ESqr a => (fst (gden rho a) * fst (gden rho a) - snd (gden rho a) * snd (gden rho a),
               2 * fst (gden rho a) * snd (gden rho a))
  end.
(** a + b i has a square root modulo p *)
Definition gsquare_mod (p a b : Z) : Prop :=
  exists c d, (p | c * c - d * d - a) /\ (p | 2 * c * d - b).
