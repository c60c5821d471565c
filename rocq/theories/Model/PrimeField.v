(** src/primefield/mod.rs. An [Fp] is an Arc to a modulus and a square-root cache; its
    equality compares the modulus only (lines 27-31), so the model keeps the modulus. The
    cache and the reference count are modelled in SqrtCache.v; here [sqrt] recomputes the
    constants on each call (SqrtCache proves the cached run gives the same answers). *)
From Coq Require Import ZArith String Ascii Bool List.
From Verif.Model Require Import Out BigInt.
Import ListNotations.
Open Scope Z_scope.
Open Scope out_scope.

(** lines 20-23, 33-35 *)
Record Fp := mkFp { modulus : Z }.

(** lines 25-31, 34: PartialEq of Params and Fp *)
Definition fp_eqb (f g : Fp) : bool := modulus f =? modulus g.

(** lines 138-143 *)
Record FpElt := mkFpElt { val : Z; fld : Fp }.

(** line 139: derived PartialEq *)
Definition fpelt_eqb (a b : FpElt) : bool := (val a =? val b) && fp_eqb (fld a) (fld b).

(** lines 45-51: Fp::new; the argument is a BigUint *)
Definition fp_new (m : Z) : Fp := mkFp m.

(** lines 56-60 *)
Definition elt (F : Fp) (k : Z) : out FpElt :=
  k' <- mod_floor k (modulus F) ;; Ret (mkFpElt k' F).

(** lines 61-66 *)
Definition zero (F : Fp) : out FpElt := elt F 0.
Definition one (F : Fp) : out FpElt := elt F 1.

(** lines 70-72 *)
Definition size_bytes (F : Fp) : Z := (bits (modulus F) + 7) / 8.

(** lines 77-84: always Ok *)
Definition fp_from_bytes_be (F : Fp) (bytes : list Z) : out (io_result FpElt) :=
  e <- elt F (from_bytes_be bytes) ;; Ret (Ok e).
Definition fp_from_bytes_le (F : Fp) (bytes : list Z) : out (io_result FpElt) :=
  e <- elt F (from_bytes_le bytes) ;; Ret (Ok e).

(** lines 87-100: FromFactory for u8..i64; the machine integer is already a Z *)
Definition from_int (F : Fp) (k : Z) : out FpElt := elt F k.

(** str::is_char_boundary for a position inside or at the end of the text: the byte there
    is not a UTF-8 continuation byte *)
Definition is_continuation (c : ascii) : bool :=
  let b := Z.of_nat (nat_of_ascii c) in (128 <=? b) && (b <? 192).

(** lines 115-133: the prefix after the sign; [&sl[0..2]] panics off a char boundary *)
Definition radix_prefix (sl : string) : out (Z * string) :=
  match sl with
  | String c0 (String c1 rest) =>
      if negb (match rest with String c2 _ => is_continuation c2 | _ => false end)
      then
        if Ascii.eqb c0 "0" && Ascii.eqb c1 "o" then Ret (8, rest)
        else if Ascii.eqb c0 "0" && Ascii.eqb c1 "x" then Ret (16, rest)
        else if Ascii.eqb c0 "0" && Ascii.eqb c1 "b" then Ret (2, rest)
        else Ret (10, sl)
      else Panic "byte index 2 is not a char boundary"
  | _ => Ret (10, sl)
  end.

(** lines 102-136: FromFactory<&str> *)
Definition from_str (F : Fp) (s : string) : out FpElt :=
  match s with
  | EmptyString => zero F
  | _ =>
      let (neg, sl) := if starts_with "-" s then (-1, tail1 s) else (1, s) in
      rp <- radix_prefix sl ;;
      k <- unwrap (bigint_from_str_radix (snd rp) (fst rp)) ;;
      elt F (neg * k)
  end.

(** left padding with zeros to a given length: lines 150-158, [vec![0; field_len - bytes.len()]];
    the subtraction underflows (panic, or capacity overflow panic) when bytes is longer *)
Definition pad_left (len : Z) (bytes : list Z) : out (list Z) :=
  if len <? Z.of_nat (length bytes) then Panic "attempt to subtract with overflow"
  else Ret (repeat 0 (Z.to_nat (len - Z.of_nat (length bytes))) ++ bytes).

(** lines 147-159 *)
Definition elt_to_bytes_be (x : FpElt) : out (list Z) :=
  if val x <? 0 then Panic "called `unwrap()` on an error value"
  else pad_left (size_bytes (fld x)) (to_bytes_be (val x)).
(** lines 160-165 *)
Definition elt_to_bytes_le (x : FpElt) : out (list Z) :=
  b <- elt_to_bytes_be x ;; Ret (rev b).

Definition ERR_BIN_OP : string := "elements of different fields".
Definition ERR_EXP_SQR_OP : string := "exponent must be 2u32".
Definition ERR_EXP_INV_OP : string := "exponent must be -1i32".
Definition ERR_INV_OP : string := "numerator must be 1u32".

(** lines 184-189 *)
Definition red (x : FpElt) (k : Z) : out FpElt :=
  k' <- mod_floor k (modulus (fld x)) ;; Ret (mkFpElt k' (fld x)).

(** lines 170-181, 197-199 *)
Definition add (a b : FpElt) : out FpElt :=
  do_if_eq (fp_eqb (fld a) (fld b)) (red a (val a + val b)) ERR_BIN_OP.
(** lines 200-202 *)
Definition sub (a b : FpElt) : out FpElt :=
  do_if_eq (fp_eqb (fld a) (fld b)) (red a (val a - val b)) ERR_BIN_OP.
(** lines 203-205 *)
Definition mul (a b : FpElt) : out FpElt :=
  do_if_eq (fp_eqb (fld a) (fld b)) (red a (val a * val b)) ERR_BIN_OP.
(** line 212 *)
Definition neg (a : FpElt) : out FpElt := red a (- val a).

(** lines 228-235: exponent a BigUint *)
Definition pow_biguint (a : FpElt) (e : Z) : out FpElt :=
  k <- modpow (val a) e (modulus (fld a)) ;; red a k.
(** lines 237-244: exponent a BigInt, reduced modulo p-1 first *)
Definition pow_bigint (a : FpElt) (e : Z) : out FpElt :=
  e' <- mod_floor e (modulus (fld a) - 1) ;;
  if e' <? 0 then Panic "called `unwrap()` on an error value" else pow_biguint a e'.
(** lines 190-194 *)
Definition inv_mod (a : FpElt) : out FpElt := pow_bigint a (modulus (fld a) - 2).
(** lines 207-211 *)
Definition div (a b : FpElt) : out FpElt := i <- inv_mod b ;; mul a i.
(** lines 213-215 *)
Definition pow_u32 (a : FpElt) (e : Z) : out FpElt := do_if_eq (e =? 2) (mul a a) ERR_EXP_SQR_OP.
Definition sqr (a : FpElt) : out FpElt := pow_u32 a 2.
(** lines 216-218 *)
Definition pow_i32 (a : FpElt) (e : Z) : out FpElt := do_if_eq (e =? -1) (inv_mod a) ERR_EXP_INV_OP.
(** lines 220-226 *)
Definition u32_div (k : Z) (a : FpElt) : out FpElt := do_if_eq (k =? 1) (inv_mod a) ERR_INV_OP.

(** src/field.rs:25-33 *)
Definition cmov {A} (x y : A) (b : bool) : A := if b then y else x.

(** lines 248-254 *)
Inductive SqrtPrecmp :=
| P3MOD4 (exp : Z)
| P5MOD8 (exp : Z) (sqrt_minus_one : FpElt)
| P9MOD16
| P1MOD16.

(** lines 263-287; [p % 16u32] is a truncated remainder of a non-negative number *)
Definition calc_sqrt_precmp (F : Fp) : out SqrtPrecmp :=
  let p := modulus F in
  let res := Z.rem p 16 in
  if 3 =? Z.rem res 4 then Ret (P3MOD4 (Z.shiftr (p + 1) 2))
  else if 5 =? Z.rem res 8 then
    let k := Z.shiftr (p - 5) 3 in
    o1 <- one F ;; o2 <- one F ;; two <- add o1 o2 ;;
    t <- pow_bigint two k ;;
    t0 <- sqr t ;;
    t0 <- add t0 t0 ;;
    o3 <- one F ;;
    t0 <- add t0 o3 ;;
    t0 <- mul t0 t ;;
    Ret (P5MOD8 (k + 1) t0)
  else if 9 =? Z.rem res 16 then Ret P9MOD16
  else Ret P1MOD16.

(** lines 299-313, with the constants given *)
Definition sqrt_with (pre : SqrtPrecmp) (x : FpElt) : out FpElt :=
  match pre with
  | P3MOD4 exp => pow_bigint x exp
  | P5MOD8 exp sqrt_minus_one =>
      t0 <- pow_bigint x exp ;;
      t1 <- sqr t0 ;;
      let e := fpelt_eqb x t1 in
      t1 <- mul t0 sqrt_minus_one ;;
      Ret (cmov t1 t0 e)
  | P9MOD16 => Panic "not implemented"
  | P1MOD16 => Panic "not implemented"
  end.

(** lines 297-314 *)
Definition sqrt (x : FpElt) : out FpElt :=
  pre <- calc_sqrt_precmp (fld x) ;; sqrt_with pre x.

(** lines 328-330 *)
Definition is_zero (x : FpElt) : bool := val x =? 0.
(** lines 340-345 *)
Definition is_one (x : FpElt) : bool := val x =? 1.
Definition set_one (x : FpElt) : FpElt := mkFpElt 1 (fld x).

(** lines 291-296 *)
Definition is_square (x : FpElt) : out bool :=
  res <- pow_bigint x (Z.shiftr (modulus (fld x) - 1) 1) ;;
  Ret (is_one res || is_zero res).

(** lines 317-322 *)
Definition sgn0 (x : FpElt) : Z := 1 - 2 * Z.rem (val x) 2.

(** lines 348-353 *)
Definition elt_show (x : FpElt) : out string :=
  k <- mod_floor (val x) (modulus (fld x)) ;; Ret (show k).
