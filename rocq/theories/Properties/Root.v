(** C69: which of the two square roots sqrt returns, and what it returns when there is none. *)

From Coq Require Import ZArith Znumtheory Zpow_facts Lia String Bool List Ring Field.
From Verif.Math Require Import Fld Pow Zp Residue Roots.
From Verif.Spec Require Import Arith Elements Roots.
From Verif.Model Require Import Out BigInt PrimeField.
From Verif.Proofs Require Import FieldP FieldProps SmallP.
Import ListNotations.
Open Scope Z_scope.
From Verif.Proofs Require Import RootProps.

(** p = 3 mod 4: sqrt(x) is x^((p+1)/4) for every x.  For a square it is the one root that is itself a
    square; for a non-square it is a root of -x. *)
Theorem C69_root_3mod4 : forall p x, prime p -> p mod 4 = 3 -> valid p x ->
  exists y, sqrt x = Ret y /\ valid p y /\ residue p (val x ^ ((p + 1) / 4)) (val y)
  /\ (square_mod p (val x) -> mul y y = Ret x /\ square_mod p (val y)
      /\ forall z, valid p z -> mul z z = Ret x -> square_mod p (val z) -> z = y)
  /\ (~ square_mod p (val x) -> exists n, neg x = Ret n /\ mul y y = Ret n).
Proof. exact c69_root_3mod4. Qed.
Print Assumptions C69_root_3mod4.

(** p = 3 mod 4: sqrt is multiplicative, on squares and non-squares alike *)
Theorem C69_product_3mod4 : forall p x y a b m, prime p -> p mod 4 = 3 -> valid p x -> valid p y ->
  sqrt x = Ret a -> sqrt y = Ret b -> mul x y = Ret m ->
  exists r, sqrt m = Ret r /\ mul a b = Ret r.
Proof. exact c69_product_3mod4. Qed.
Print Assumptions C69_product_3mod4.

(** p = 5 mod 8: sqrt(4) is 2 or -2, and with s = sqrt(4) the root of a square is the only one that is
    a fourth power or s times a fourth power; a fourth power's root is a fourth power.  For a
    non-square the result y has y^4 = -x^2. *)
Theorem C69_root_5mod8 : forall p x, prime p -> p mod 8 = 5 -> valid p x ->
  exists f s y, elt (fp_new p) 4 = Ret f /\ sqrt f = Ret s
  /\ (residue p 2 (val s) \/ residue p (-2) (val s))
  /\ sqrt x = Ret y /\ valid p y
  /\ (square_mod p (val x) -> mul y y = Ret x
      /\ (fourth_mod p (val x) -> fourth_mod p (val y))
      /\ (~ fourth_mod p (val x) -> times_fourth_mod p (val s) (val y))
      /\ forall z, valid p z -> mul z z = Ret x ->
           fourth_mod p (val z) \/ times_fourth_mod p (val s) (val z) -> z = y)
  /\ (~ square_mod p (val x) -> (p | val y ^ 4 + val x ^ 2)).
Proof. exact c69_root_5mod8. Qed.
Print Assumptions C69_root_5mod8.

(** p = 5 mod 8: the value itself.  With r = x^((p+3)/8) it is r when r^2 = x, and r times
    (2t^2+1)t, t = 2^((p-5)/8), otherwise. *)
Theorem C69_formula_5mod8 : forall p x, prime p -> p mod 8 = 5 -> valid p x ->
  let r := val x ^ ((p + 3) / 8) in let t := 2 ^ ((p - 5) / 8) in
  exists y, sqrt x = Ret y /\ valid p y
  /\ ((p | r * r - val x) -> residue p r (val y))
  /\ (~ (p | r * r - val x) -> residue p (r * ((2 * t ^ 2 + 1) * t)) (val y)).
Proof. exact c69_formula_5mod8. Qed.
Print Assumptions C69_formula_5mod8.

(** both signs of sqrt(4) occur: 2 modulo 13, -2 modulo 37.  Modulo 13 the fourth powers are 1, 3, 9 *)
Example C69_ex : prime 13 /\ prime 37 /\ prime 7
  /\ sqrt (mkFpElt 4 (mkFp 13)) = Ret (mkFpElt 2 (mkFp 13))
  /\ sqrt (mkFpElt 4 (mkFp 37)) = Ret (mkFpElt 35 (mkFp 37))
  /\ sqrt (mkFpElt 3 (mkFp 13)) = Ret (mkFpElt 9 (mkFp 13)) /\ sqrt (mkFpElt 9 (mkFp 13)) = Ret (mkFpElt 3 (mkFp 13))
  /\ sqrt (mkFpElt 10 (mkFp 13)) = Ret (mkFpElt 6 (mkFp 13))
  /\ sqrt (mkFpElt 2 (mkFp 13)) = Ret (mkFpElt 7 (mkFp 13)) /\ (7 ^ 4 + 2 ^ 2) mod 13 = 0
  /\ sqrt (mkFpElt 2 (mkFp 7)) = Ret (mkFpElt 4 (mkFp 7))
  /\ sqrt (mkFpElt 3 (mkFp 7)) = Ret (mkFpElt 2 (mkFp 7)) /\ sqrt (mkFpElt 6 (mkFp 7)) = Ret (mkFpElt 1 (mkFp 7)).
Proof. exact c69_ex. Qed.
