(** src/quadraticfield/mod.rs: GF(p)[i]/(i^2+1). The element's Vec<FpElt> always has two
    entries in the code, so the model keeps a pair. As for the prime field the cache cell
    is not part of the value. *)
From Coq Require Import ZArith String Ascii Bool List.
From Verif.Model Require Import Out BigInt PrimeField.
From Verif.Model Require WCurve.
Import ListNotations.
Open Scope Z_scope.
Open Scope out_scope.

(** lines 19-34 *)
Record Fp2 := mkFp2 { base : Fp }.
Definition fp2_eqb (F G : Fp2) : bool := fp_eqb (base F) (base G).

(** lines 131-136 *)
Record Fp2Elt := mkFp2Elt { re : FpElt; im : FpElt; fld2 : Fp2 }.

(** line 132: derived PartialEq *)
Definition fp2elt_eqb (a b : Fp2Elt) : bool :=
  fpelt_eqb (re a) (re b) && fpelt_eqb (im a) (im b) && fp2_eqb (fld2 a) (fld2 b).

(** lines 44-48 *)
Definition fp2_new (m : Z) : Fp2 := mkFp2 (fp_new m).

(** lines 53-64 *)
Definition elt2 (F : Fp2) (k : Z) : out Fp2Elt :=
  n0 <- elt (base F) k ;; n1 <- zero (base F) ;; Ret (mkFp2Elt n0 n1 F).
Definition zero2 (F : Fp2) : out Fp2Elt := elt2 F 0.
Definition one2 (F : Fp2) : out Fp2Elt := elt2 F 1.

(** lines 68-70 *)
Definition size_bytes2 (F : Fp2) : Z := 2 * size_bytes (base F).

(** Result::unwrap *)
Definition unwrap_io {A} (r : io_result A) : out A :=
  match r with Ok a => Ret a | Err _ => Panic "called `Result::unwrap()` on an `Err` value" end.

(** lines 75-87 *)
Definition fp2_from_bytes_be (F : Fp2) (bytes : list Z) : out (io_result Fp2Elt) :=
  let len := size_bytes2 F in
  if negb (len =? Z.of_nat (length bytes)) then Ret (Err "wrong size")
  else
    let size := len / 2 in
    s0 <- WCurve.slice bytes 0 size ;;
    r0 <- fp_from_bytes_be (base F) s0 ;; n0 <- unwrap_io r0 ;;
    s1 <- WCurve.slice bytes size (2 * size) ;;
    r1 <- fp_from_bytes_be (base F) s1 ;; n1 <- unwrap_io r1 ;;
    Ret (Ok (mkFp2Elt n0 n1 F)).
(** lines 88-100 *)
Definition fp2_from_bytes_le (F : Fp2) (bytes : list Z) : out (io_result Fp2Elt) :=
  let len := size_bytes2 F in
  if negb (len =? Z.of_nat (length bytes)) then Ret (Err "wrong size")
  else
    let size := len / 2 in
    s0 <- WCurve.slice bytes 0 size ;;
    r0 <- fp_from_bytes_le (base F) s0 ;; n0 <- unwrap_io r0 ;;
    s1 <- WCurve.slice bytes size (2 * size) ;;
    r1 <- fp_from_bytes_le (base F) s1 ;; n1 <- unwrap_io r1 ;;
    Ret (Ok (mkFp2Elt n0 n1 F)).

(** [s.splitn(2, ',')] when there is a comma: the parts before and after the first one *)
Fixpoint split_comma (s : string) : option (string * string) :=
  match s with
  | EmptyString => None
  | String c s' =>
      if Ascii.eqb c "," then Some (EmptyString, s')
      else match split_comma s' with
           | Some (l, r) => Some (String c l, r)
           | None => None
           end
  end.

(** lines 120-128: without a comma [vs[1]] is out of bounds, after vs[0] has been parsed *)
Definition from_str2 (F : Fp2) (s : string) : out Fp2Elt :=
  match split_comma s with
  | Some (l, r) =>
      n0 <- from_str (base F) l ;; n1 <- from_str (base F) r ;; Ret (mkFp2Elt n0 n1 F)
  | None => n0 <- from_str (base F) s ;; Panic "index out of bounds"
  end.

(** lines 142-156 *)
Definition elt2_to_bytes_be (x : Fp2Elt) : out (list Z) :=
  b0 <- elt_to_bytes_be (re x) ;; b1 <- elt_to_bytes_be (im x) ;; Ret (b0 ++ b1).
Definition elt2_to_bytes_le (x : Fp2Elt) : out (list Z) :=
  b0 <- elt_to_bytes_le (re x) ;; b1 <- elt_to_bytes_le (im x) ;; Ret (b0 ++ b1).

(** lines 159-178, 196-198 *)
Definition add2 (a b : Fp2Elt) : out Fp2Elt :=
  do_if_eq (fp2_eqb (fld2 a) (fld2 b))
    (n0 <- add (re a) (re b) ;; n1 <- add (im a) (im b) ;; Ret (mkFp2Elt n0 n1 (fld2 a)))
    ERR_BIN_OP.
(** lines 199-205 *)
Definition sub2 (a b : Fp2Elt) : out Fp2Elt :=
  do_if_eq (fp2_eqb (fld2 a) (fld2 b))
    (n0 <- sub (re a) (re b) ;; n1 <- sub (im a) (im b) ;; Ret (mkFp2Elt n0 n1 (fld2 a)))
    ERR_BIN_OP.
(** lines 206-215 *)
Definition mul2 (a b : Fp2Elt) : out Fp2Elt :=
  do_if_eq (fp2_eqb (fld2 a) (fld2 b))
    (m0 <- mul (re a) (re b) ;; m1 <- mul (im a) (im b) ;; n0 <- sub m0 m1 ;;
     m2 <- mul (re a) (im b) ;; m3 <- mul (im a) (re b) ;; n1 <- add m2 m3 ;;
     Ret (mkFp2Elt n0 n1 (fld2 a)))
    ERR_BIN_OP.
(** line 222 *)
Definition neg2 (a : Fp2Elt) : out Fp2Elt :=
  n0 <- neg (re a) ;; n1 <- neg (im a) ;; Ret (mkFp2Elt n0 n1 (fld2 a)).
(** lines 187-193: multiplies by the element, not by its conjugate *)
Definition inv_mod2 (a : Fp2Elt) : out Fp2Elt :=
  m0 <- mul (re a) (re a) ;; m1 <- mul (im a) (im a) ;; s <- add m0 m1 ;;
  den <- u32_div 1 s ;;
  n0 <- mul den (re a) ;; n1 <- mul den (im a) ;;
  Ret (mkFp2Elt n0 n1 (fld2 a)).
(** lines 217-221 *)
Definition div2 (a b : Fp2Elt) : out Fp2Elt := i <- inv_mod2 b ;; mul2 a i.
(** lines 223-228 *)
Definition pow_u32_2 (a : Fp2Elt) (e : Z) : out Fp2Elt := do_if_eq (e =? 2) (mul2 a a) ERR_EXP_SQR_OP.
Definition pow_i32_2 (a : Fp2Elt) (e : Z) : out Fp2Elt := do_if_eq (e =? -1) (inv_mod2 a) ERR_EXP_INV_OP.
(** lines 230-236 *)
Definition u32_div2 (k : Z) (a : Fp2Elt) : out Fp2Elt := do_if_eq (k =? 1) (inv_mod2 a) ERR_INV_OP.

(** lines 347-350: One::one() for Fp2Elt has no field to build from *)
Definition fp2elt_one : out Fp2Elt := Panic "not implemented".

(** the inner loop [for j in (0..31).rev()] of lines 245-251: 31 rounds, bits 30..0 *)
Fixpoint pow_bits (rounds : nat) (vi : Z) (x o : Fp2Elt) : out Fp2Elt :=
  match rounds with
  | O => Ret o
  | S j =>
      o <- mul2 o o ;;
      o <- (if Z.land (Z.shiftr vi (Z.of_nat j)) 1 =? 1 then mul2 o x else Ret o) ;;
      pow_bits j vi x o
  end.
(** lines 244-252 *)
Fixpoint pow_words (v : list Z) (x o : Fp2Elt) : out Fp2Elt :=
  match v with
  | [] => Ret o
  | vi :: v' => o <- pow_bits 31 vi x o ;; pow_words v' x o
  end.
(** lines 238-255, with the value of [Fp2Elt::one()] (line 243) as a parameter *)
Definition pow_biguint2_from (one_ : out Fp2Elt) (x : Fp2Elt) (e : Z) : out Fp2Elt :=
  let v := to_u32_digits e in
  o <- one_ ;;
  pow_words (rev v) x o.
Definition pow_biguint2 : Fp2Elt -> Z -> out Fp2Elt := pow_biguint2_from fp2elt_one.
(** lines 257-264 *)
Definition pow_bigint2_from (one_ : out Fp2Elt) (x : Fp2Elt) (e : Z) : out Fp2Elt :=
  if e <? 0 then Panic "called `unwrap()` on an error value" else pow_biguint2_from one_ x e.
Definition pow_bigint2 : Fp2Elt -> Z -> out Fp2Elt := pow_bigint2_from fp2elt_one.

(** lines 281-290 *)
Definition calc_sqrt_precmp2 (F : Fp2) : out (Z * Z) :=
  let p := modulus (base F) in
  if 3 =? Z.rem p 4 then Ret (Z.shiftr (p - 3) 2, Z.shiftr (p - 1) 1)
  else Panic "not implemented".

(** lines 338-340 *)
Definition is_zero2 (x : Fp2Elt) : bool := is_zero (re x) && is_zero (im x).

(** lines 295-302 *)
Definition is_square2 (x : Fp2Elt) : out bool :=
  m0 <- mul (re x) (re x) ;; m1 <- mul (im x) (im x) ;; t0 <- add m0 m1 ;;
  t1 <- pow_bigint t0 (Z.shiftr (modulus (base (fld2 x)) - 1) 1) ;;
  o <- one (base (fld2 x)) ;;
  Ret (fpelt_eqb t1 o).

(** lines 305-321: sqrt once it has the constants, with the power of lines 307 and 317 as a parameter *)
Definition sqrt2_steps (pw : Fp2Elt -> Z -> out Fp2Elt) (pre : Z * Z) (x : Fp2Elt) : out Fp2Elt :=
  let (c1, c2) := pre in
  a1 <- pw x c1 ;;
  a1a <- mul2 a1 x ;;
  alpha <- mul2 a1 a1a ;;
  let x0 := a1a in
  o <- one2 (fld2 x) ;;
  t <- add2 alpha o ;;
  if is_zero2 t then
    i0 <- from_int (base (fld2 x)) 0 ;; i1 <- from_int (base (fld2 x)) 1 ;;
    mul2 x0 (mkFp2Elt i0 i1 (fld2 x))
  else
    o <- one2 (fld2 x) ;;
    par <- add2 alpha o ;;
    b <- pw par c2 ;;
    mul2 x0 b.
(** lines 303-322 *)
Definition sqrt2_using (pw : Fp2Elt -> Z -> out Fp2Elt) (x : Fp2Elt) : out Fp2Elt :=
  pre <- calc_sqrt_precmp2 (fld2 x) ;; sqrt2_steps pw pre x.
Definition sqrt2 : Fp2Elt -> out Fp2Elt := sqrt2_using pow_bigint2.

(** lines 325-332: [|] and [^] are bitwise on i32 (two's complement, as on Z) *)
Definition sgn0_2 (x : Fp2Elt) : Z :=
  let s0 := sgn0 (re x) in
  let z0 := if is_zero (re x) then 1 else 0 in
  let s1 := sgn0 (im x) in
  Z.lor s0 (Z.lxor z0 s1).
