(** Montgomery curves with a coefficient b other than 1: C33. *)

From Coq Require Import ZArith Znumtheory Lia String Bool List Ring Field.
From Verif.Math Require Import Fld Zp MontB ECGroup.
From Verif.Spec Require Import Arith Curve MPoints Exceptions.
From Verif.Model Require Import Out BigInt PrimeField Scalar MCurve.
From Verif.Proofs Require Import FieldP FieldProps CurveP SmallP.
From Verif.Proofs Require Import BytesP.
From Verif.Proofs Require WeierP WeierProps MontP MontProps ExcepProps.
Import ListNotations.
Open Scope Z_scope.
From Verif.Proofs Require Import MontBProps.

(** on a curve with b <> 1 no addition of a point with y <> 0 to itself returns the double: it panics, or returns something else *)
Theorem C33_doubling_needs_b_one : forall e P Q x y R C, mont_b e -> val (c_b e) <> 1 ->
  mpoint e P (Affine x y) -> mpoint e Q (Affine x y) -> y <> 0 -> msum e (Affine x y) (Affine x y) C ->
  pt_add P Q = Ret R -> ~ mpoint e R C.
Proof. exact c33_doubling_needs_b_one. Qed.
Print Assumptions C33_doubling_needs_b_one.

(** on a curve with a point with y <> 0, the addition is right on all pairs exactly when b = 1 and no point has the ordinate s *)
Theorem C33_exact_condition : forall e x y, mont_b e -> mon e (Affine x y) -> y <> 0 ->
  (mont e <-> forall P Q A B, mpoint e P A -> mpoint e Q B ->
     exists R, pt_add P Q = Ret R /\ forall C, mpoint e R C <-> msum e A B C).
Proof. exact c33_exact_condition. Qed.
Print Assumptions C33_exact_condition.

(** reading bytes does not need b = 1: for every b <> 0 decode reads every encoding of every affine point as that point *)
Theorem C35_decode_any_b : forall e buf n c x y, mont_b e -> sqrt_modulus (modulus (c_f e)) -> byte_size (modulus (c_f e)) n ->
  sec1 n x y c buf -> mon e (Affine x y) -> exists Q, decode e buf = Ret (Ok Q) /\ mpoint e Q (Affine x y).
Proof. exact c35_decode_any_b. Qed.
Print Assumptions C35_decode_any_b.

(** 4 y^2 = x^3 + 3 x^2 + x modulo 7 has the points (3, 3) and (3, 4) *)
Example C35_any_b_ex :
  let n7 v := mkFpElt v (mkFp 7) in let e := mkCurve (mkFp 7) (n7 3) (n7 4) (n7 1) 3 (n7 3) (n7 3) 1 in
  let P y := Ret (Ok (mkPoint e (mkProy (n7 3) (n7 y) (n7 1)))) in
  decode e [3; 3] = P 3 /\ decode e [2; 3] = P 4 /\ decode e [4; 3; 3] = P 3.
Proof. exact c35_any_b_ex. Qed.

(** modulo 7: on 4 y^2 = x^3 + 3 x^2 + x the double of (3,3) is (2,3) and the code returns (5,2); on 2 y^2 = x^3 + x^2 + x it panics *)
Example C33_needs_b_one_ex :
  let n7 v := mkFpElt v (mkFp 7) in
  let e := mkCurve (mkFp 7) (n7 3) (n7 4) (n7 1) 3 (n7 3) (n7 3) 1 in
  let e' := mkCurve (mkFp 7) (n7 1) (n7 2) (n7 1) 3 (n7 3) (n7 3) 1 in
  let P c := mkPoint c (mkProy (n7 3) (n7 3) (n7 1)) in
  let R := mkPoint e (mkProy (n7 4) (n7 3) (n7 5)) in
  mont_b e /\ mpoint e (P e) (Affine 3 3) /\ msum e (Affine 3 3) (Affine 3 3) (Affine 2 3)
  /\ pt_add (P e) (P e) = Ret R /\ mpoint e R (Affine 5 2)
  /\ mont_b e' /\ mpoint e' (P e') (Affine 3 3) /\ pt_add (P e') (P e') = Panic "not valid point".
Proof. exact c33_needs_b_one_ex. Qed.
