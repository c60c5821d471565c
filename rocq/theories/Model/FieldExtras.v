(** Remaining trait methods of the two field types: num_traits::Zero / One, get_modulus,
    conditional move, and the square-root cache of the quadratic extension. A method taking
    [&mut self] is a function from the old value to the new one. *)
From Coq Require Import ZArith String Bool List.
From Verif.Model Require Import Out BigInt PrimeField QuadField.
Import ListNotations.
Open Scope Z_scope.

(** primefield/mod.rs:325-327, 337-339: unimplemented!() *)
Definition fpelt_trait_zero : out FpElt := Panic "not implemented".
Definition fpelt_trait_one : out FpElt := Panic "not implemented".
(** primefield/mod.rs:331-333 *)
Definition set_zero (x : FpElt) : FpElt := mkFpElt 0 (fld x).
(** primefield/mod.rs:67-69 *)
Definition get_modulus (F : Fp) : Z := modulus F.

(** quadraticfield/mod.rs:335-337 ([one()] is QuadField.fp2elt_one) *)
Definition fp2elt_trait_zero : out Fp2Elt := Panic "not implemented".
(** quadraticfield/mod.rs:341-344 *)
Definition set_zero2 (x : Fp2Elt) : Fp2Elt := mkFp2Elt (set_zero (re x)) (set_zero (im x)) (fld2 x).
(** quadraticfield/mod.rs:351-353 *)
Definition is_one2 (x : Fp2Elt) : bool := is_one (re x) && is_zero (im x).
(** quadraticfield/mod.rs:354-357 *)
Definition set_one2 (x : Fp2Elt) : Fp2Elt := mkFp2Elt (set_one (re x)) (set_zero (im x)) (fld2 x).
(** quadraticfield/mod.rs:65-67 *)
Definition get_modulus2 (F : Fp2) : Z := get_modulus (base F).
(** quadraticfield/mod.rs:103-116: FromFactory for u8..i64; the machine integer is already a Z *)
Definition from_int2 (F : Fp2) (k : Z) : out Fp2Elt := elt2 F k.

(** quadraticfield/mod.rs:19-22: Params; as in SqrtCache the cell is borrowed or not *)
Record Cell2 := mkCell2 { q_field : Fp2; q_cache : option (Z * Z); q_borrowed : bool }.
(** quadraticfield/mod.rs:44-48 *)
Definition cell2_new (m : Z) : Cell2 := mkCell2 (fp2_new m) None false.
(** quadraticfield/mod.rs:274-280, one caller: borrow_mut, then the argument of get_or_insert
    is evaluated whether or not the cell is filled, then the borrow is dropped (also when the
    evaluation panics) *)
Definition get_sqrt_precmp2 (c : Cell2) : Cell2 * out (Z * Z) :=
  if q_borrowed c then (c, Panic "already mutably borrowed")
  else
    match calc_sqrt_precmp2 (q_field c) with
    | Ret new =>
        let pre := match q_cache c with Some old => old | None => new end in
        (mkCell2 (q_field c) (Some pre) false, Ret pre)
    | Panic msg => (mkCell2 (q_field c) (q_cache c) false, Panic msg)
    end.
(** n calls one after the other, with their answers *)
Fixpoint get_history2 (c : Cell2) (n : nat) : Cell2 * list (out (Z * Z)) :=
  match n with
  | O => (c, [])
  | S k => let (c1, r) := get_sqrt_precmp2 c in let (c2, rs) := get_history2 c1 k in (c2, r :: rs)
  end.
