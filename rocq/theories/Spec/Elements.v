(** Values of the library as its operations return them: field elements, elements of the quadratic extension, scalars. *)
From Coq Require Import ZArith.
From Verif.Model Require Import Out BigInt PrimeField QuadField Scalar.
Open Scope Z_scope.

(** well-formed elements of the field with modulus p *)
Definition valid (p : Z) (x : FpElt) : Prop := fld x = mkFp p /\ 0 <= val x < p.

(** the moduli the code supports *)
Definition sqrt_modulus (p : Z) : Prop := p mod 4 = 3 \/ p mod 8 = 5.

(** an element of Fp2::new(p) as all operations return it *)
Definition valid2 (p : Z) (x : Fp2Elt) : Prop :=
  fld2 x = fp2_new p /\ valid p (re x) /\ valid p (im x).
(** the value a + b i as a pair *)
Definition gval (x : Fp2Elt) : Z * Z := (val (re x), val (im x)).

(** what scalar_new and the operators return *)
Definition valid_scalar (r : Z) (a : Scalar) : Prop := sr a = r /\ 0 <= sk a < r.
