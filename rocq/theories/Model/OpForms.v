(** The operators whose owned and borrowed variants have bodies of their own.  All other operators
    come from one [impl_op_ex!] body per operator, which the macro repeats for every variant. *)
From Coq Require Import ZArith String Bool List.
From Verif.Model Require Import Out BigInt PrimeField QuadField FieldExtras Scalar.
From Verif.Model Require WCurve MCurve ECurve.
Open Scope Z_scope.
Open Scope out_scope.

(** how the two operands are passed *)
Inductive form := RefRef | RefVal | ValRef | ValVal.

(** primefield/mod.rs:170-175: &FpElt + &FpElt *)
Definition fp_add_ref_ref (a b : FpElt) : out FpElt :=
  do_if_eq (fp_eqb (fld a) (fld b)) (red a (val a + val b)) ERR_BIN_OP.
(** primefield/mod.rs:176-181: &FpElt + FpElt *)
Definition fp_add_ref_val (a b : FpElt) : out FpElt :=
  do_if_eq (fp_eqb (fld a) (fld b)) (red a (val a + val b)) ERR_BIN_OP.
(** primefield/mod.rs:197-199: FpElt + &FpElt and FpElt + FpElt, one body *)
Definition fp_add_val (a b : FpElt) : out FpElt :=
  do_if_eq (fp_eqb (fld a) (fld b)) (red a (val a + val b)) ERR_BIN_OP.
Definition fp_add_form (w : form) : FpElt -> FpElt -> out FpElt :=
  match w with
  | RefRef => fp_add_ref_ref | RefVal => fp_add_ref_val | ValRef => fp_add_val | ValVal => fp_add_val
  end.

(** quadraticfield/mod.rs:180-186 *)
Definition elt_of (a : Fp2Elt) (n0 n1 : FpElt) : Fp2Elt := mkFp2Elt n0 n1 (fld2 a).
(** quadraticfield/mod.rs:159-168: &Fp2Elt + &Fp2Elt; the components are added as &FpElt + &FpElt *)
Definition fp2_add_ref_ref (a b : Fp2Elt) : out Fp2Elt :=
  do_if_eq (fp2_eqb (fld2 a) (fld2 b))
    (n0 <- fp_add_ref_ref (re a) (re b) ;; n1 <- fp_add_ref_ref (im a) (im b) ;; Ret (elt_of a n0 n1))
    ERR_BIN_OP.
(** quadraticfield/mod.rs:169-178: &Fp2Elt + Fp2Elt *)
Definition fp2_add_ref_val (a b : Fp2Elt) : out Fp2Elt :=
  do_if_eq (fp2_eqb (fld2 a) (fld2 b))
    (n0 <- fp_add_ref_ref (re a) (re b) ;; n1 <- fp_add_ref_ref (im a) (im b) ;; Ret (elt_of a n0 n1))
    ERR_BIN_OP.
(** quadraticfield/mod.rs:196-198: Fp2Elt + &Fp2Elt and Fp2Elt + Fp2Elt *)
Definition fp2_add_val (a b : Fp2Elt) : out Fp2Elt :=
  do_if_eq (fp2_eqb (fld2 a) (fld2 b))
    (n0 <- fp_add_ref_ref (re a) (re b) ;; n1 <- fp_add_ref_ref (im a) (im b) ;; Ret (elt_of a n0 n1))
    ERR_BIN_OP.
Definition fp2_add_form (w : form) : Fp2Elt -> Fp2Elt -> out Fp2Elt :=
  match w with
  | RefRef => fp2_add_ref_ref | RefVal => fp2_add_ref_val | ValRef => fp2_add_val | ValVal => fp2_add_val
  end.

(** the three ways to write k * P: no &Scalar * Point *)
Inductive left_form := LRefRef | LValRef | LValVal.

(** weierstrass/scalar.rs:90-96, 97-103, 104-110 *)
Definition w_scalar_mul (w : left_form) (oc : bool) (k : Scalar) (P : WCurve.Point) : out WCurve.Point :=
  match w with
  | LRefRef => WCurve.pt_mul oc P k
  | LValRef => WCurve.pt_mul oc P k
  | LValVal => WCurve.pt_mul oc P k
  end.
(** montgomery/scalar.rs:90-96, 97-103, 104-110 *)
Definition m_scalar_mul (w : left_form) (oc : bool) (k : Scalar) (P : MCurve.Point) : out MCurve.Point :=
  match w with
  | LRefRef => MCurve.pt_mul oc P k
  | LValRef => MCurve.pt_mul oc P k
  | LValVal => MCurve.pt_mul oc P k
  end.
(** edwards/scalar.rs:96-102, 103-109, 110-116 *)
Definition e_scalar_mul (w : left_form) (oc : bool) (k : Scalar) (P : ECurve.Point) : out ECurve.Point :=
  match w with
  | LRefRef => ECurve.pt_mul oc P k
  | LValRef => ECurve.pt_mul oc P k
  | LValVal => ECurve.pt_mul oc P k
  end.

(** ops.rs:82-93: [n.lift(&f)] is [f.from(n)], here for the machine integers and for texts, into Fp and into Fp2 *)
Definition lift_int (n : Z) (F : Fp) : out FpElt := from_int F n.
Definition lift_str (s : string) (F : Fp) : out FpElt := from_str F s.
Definition lift_int2 (n : Z) (F : Fp2) : out Fp2Elt := from_int2 F n.
Definition lift_str2 (s : string) (F : Fp2) : out Fp2Elt := from_str2 F s.
