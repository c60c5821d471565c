(** The num-bigint / num-integer functions the crate calls. BigInt and BigUint are [Z]
    (a BigUint is a non-negative one); bytes are [Z] in 0..255, Vec<u8> is [list Z].
    The dependency is not part of /repo; this file states the behaviour assumed of it. *)
From Coq Require Import ZArith String Ascii Bool List.
From Verif.Model Require Import Out.
Import ListNotations.
Open Scope Z_scope.

(** num_integer::Integer::mod_floor: floored remainder; division by zero panics. *)
Definition mod_floor (a b : Z) : out Z :=
  if b =? 0 then Panic "attempt to divide by zero" else Ret (a mod b).

(** square-and-multiply, as BigUint::modpow; least significant bit of the exponent last *)
Fixpoint powm_pos (b : Z) (e : positive) (m : Z) : Z :=
  match e with
  | xH => b mod m
  | xO e' => let r := powm_pos b e' m in (r * r) mod m
  | xI e' => let r := powm_pos b e' m in ((r * r) mod m * b) mod m
  end.

Definition powm (b e m : Z) : Z :=
  match e with
  | Z0 => 1 mod m
  | Zpos e' => powm_pos b e' m
  | Zneg _ => 0
  end.

(** BigInt::modpow: negative exponents and a zero modulus panic. Only used with a
    non-negative base and modulus, where the result is the least non-negative residue. *)
Definition modpow (b e m : Z) : out Z :=
  if e <? 0 then Panic "negative exponentiation is not supported!"
  else if m =? 0 then Panic "divide by zero!"
  else Ret (powm b e m).

(** BigInt::bits / BigUint::bits: length of the magnitude in bits, 0 for 0. *)
Definition bits (n : Z) : Z := if n =? 0 then 0 else Z.log2 (Z.abs n) + 1.

(** digits of n in the given base, least significant first, no leading zero digit *)
Fixpoint digits_fuel (fuel : nat) (base n : Z) : list Z :=
  match fuel with
  | O => []
  | S k => if n =? 0 then [] else n mod base :: digits_fuel k base (n / base)
  end.
Definition digits (base n : Z) : list Z := digits_fuel (Z.to_nat (bits n)) base n.

(** BigUint::to_bytes_be: minimal big-endian bytes; one zero byte for 0. *)
Definition to_bytes_be (n : Z) : list Z := if n =? 0 then [0] else rev (digits 256 n).

(** BigUint::from_bytes_be, BigInt::from_bytes_be(Sign::Plus, _); empty input is 0. *)
Definition from_bytes_be (l : list Z) : Z := fold_left (fun acc b => acc * 256 + b) l 0.

(** BigUint::from_bytes_le, BigInt::from_bytes_le(Sign::Plus, _) *)
Definition from_bytes_le (l : list Z) : Z := fold_right (fun b acc => b + 256 * acc) 0 l.

(** BigInt::to_u32_digits().1: little-endian base-2^32 digits, empty for 0. *)
Definition to_u32_digits (n : Z) : list Z := digits (2 ^ 32) (Z.abs n).

(** Display of a BigInt: decimal, '-' for negative numbers, "0" for zero. *)
Definition digit_char (d : Z) : ascii := ascii_of_nat (Z.to_nat (48 + d)).
Fixpoint string_of_list (l : list ascii) : string :=
  match l with [] => EmptyString | c :: l' => String c (string_of_list l') end.
Definition show_nonneg (n : Z) : string :=
  if n =? 0 then "0"%string else string_of_list (map digit_char (rev (digits 10 n))).
Definition show (n : Z) : string :=
  if n <? 0 then String "-"%char (show_nonneg (- n)) else show_nonneg n.

(** value of a byte as a digit: 0-9, a-z, A-Z; 255 for anything else *)
Definition digit_val (c : ascii) : Z :=
  let b := Z.of_nat (nat_of_ascii c) in
  if (48 <=? b) && (b <=? 57) then b - 48
  else if (97 <=? b) && (b <=? 122) then b - 97 + 10
  else if (65 <=? b) && (b <=? 90) then b - 65 + 10
  else 255.

(** the digit loop of BigUint::from_str_radix; '_' is skipped *)
Fixpoint parse_digits (radix : Z) (acc : Z) (s : string) : option Z :=
  match s with
  | EmptyString => Some acc
  | String c s' =>
      if Ascii.eqb c "_"%char then parse_digits radix acc s'
      else if digit_val c <? radix then parse_digits radix (acc * radix + digit_val c) s'
      else None
  end.

Definition starts_with (c : ascii) (s : string) : bool :=
  match s with String c' _ => Ascii.eqb c' c | EmptyString => false end.
Definition tail1 (s : string) : string :=
  match s with String _ s' => s' | EmptyString => EmptyString end.

(** BigUint::from_str_radix: one optional '+' (not followed by another), then a digit,
    then digits and underscores; None is Err. *)
Definition biguint_from_str_radix (s : string) (radix : Z) : option Z :=
  let s := if starts_with "+" s && negb (starts_with "+" (tail1 s)) then tail1 s else s in
  match s with
  | EmptyString => None
  | String c _ => if Ascii.eqb c "_"%char then None else parse_digits radix 0 s
  end.

(** BigInt::from_str_radix / BigInt::parse_bytes: optional '-' (not followed by '+') first. *)
Definition bigint_from_str_radix (s : string) (radix : Z) : option Z :=
  if starts_with "-" s then
    let s := if starts_with "+" (tail1 s) then s else tail1 s in
    match biguint_from_str_radix s radix with Some n => Some (- n) | None => None end
  else biguint_from_str_radix s radix.

(** Option::unwrap / Result::unwrap *)
Definition unwrap {A} (o : option A) : out A :=
  match o with Some a => Ret a | None => Panic "called `unwrap()` on an error value" end.
