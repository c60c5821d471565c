(** The Display texts: what [format!("{}", x)] gives for every printable type of the crate.
    Formatting a BigInt/BigUint is [BigInt.show]; a FpElt is [PrimeField.elt_show]. Writing to
    a String never fails, so fmt::Result is not modelled. Formatter flags (width, fill, sign)
    are not modelled: every [write!] of the crate starts from a plain "{}". *)
From Coq Require Import ZArith String Ascii.
From Verif.Model Require Import Out BigInt PrimeField QuadField Scalar.
From Verif.Model Require WCurve MCurve ECurve.
Open Scope string_scope.
Open Scope Z_scope.

(** "\n" *)
Definition NL : string := String (ascii_of_nat 10) EmptyString.

(** primefield/mod.rs:355-359 *)
Definition fp_show (F : Fp) : string := "GF(" ++ show (modulus F) ++ ")".
(** quadraticfield/mod.rs:366-370 *)
Definition fp2_show (F : Fp2) : string := fp_show (base F) ++ "^2".
(** quadraticfield/mod.rs:360-364 *)
Definition elt2_show (x : Fp2Elt) : out string :=
  a <- elt_show (re x) ;; b <- elt_show (im x) ;; Ret (a ++ "+i*" ++ b).
(** weierstrass/scalar.rs:155-159, montgomery/scalar.rs:155-159, edwards/scalar.rs:161-165 *)
Definition scalar_show (s : Scalar) : string := show (sk s).

(** weierstrass/point.rs:227-231 *)
Definition wpoint_show (P : WCurve.Point) : out string :=
  x <- elt_show (WCurve.px (WCurve.pc P)) ;; y <- elt_show (WCurve.py (WCurve.pc P)) ;;
  z <- elt_show (WCurve.pz (WCurve.pc P)) ;;
  Ret (NL ++ "x: " ++ x ++ NL ++ "y: " ++ y ++ NL ++ "z: " ++ z).
(** montgomery/point.rs:142-146 *)
Definition mpoint_show (P : MCurve.Point) : out string :=
  x <- elt_show (MCurve.px (MCurve.pc P)) ;; y <- elt_show (MCurve.py (MCurve.pc P)) ;;
  z <- elt_show (MCurve.pz (MCurve.pc P)) ;;
  Ret (NL ++ "x: " ++ x ++ NL ++ "y: " ++ y ++ NL ++ "z: " ++ z).
(** edwards/point.rs:133-141 *)
Definition epoint_show (P : ECurve.Point) : out string :=
  x <- elt_show (ECurve.px (ECurve.pc P)) ;; y <- elt_show (ECurve.py (ECurve.pc P)) ;;
  t <- elt_show (ECurve.ptt (ECurve.pc P)) ;; z <- elt_show (ECurve.pz (ECurve.pc P)) ;;
  Ret (NL ++ "x: " ++ x ++ NL ++ "y: " ++ y ++ NL ++ "t: " ++ t ++ NL ++ "z: " ++ z).

(** weierstrass/curve.rs:159-167 *)
Definition wcurve_show (e : WCurve.Curve) : out string :=
  a <- elt_show (WCurve.c_a e) ;; b <- elt_show (WCurve.c_b e) ;;
  Ret ("Weierstrass Curve y^2=x^3+ax+b" ++ NL ++ "a: " ++ a ++ NL ++ "b: " ++ b).
(** montgomery/curve.rs:164-172 *)
Definition mcurve_show (e : MCurve.Curve) : out string :=
  a <- elt_show (MCurve.c_a e) ;; b <- elt_show (MCurve.c_b e) ;;
  Ret ("Montgomery Curve by^2=x^3+ax^2+x" ++ NL ++ "a: " ++ a ++ NL ++ "b: " ++ b).
(** edwards/curve.rs:149-157 *)
Definition ecurve_show (e : ECurve.Curve) : out string :=
  a <- elt_show (ECurve.c_a e) ;; d <- elt_show (ECurve.c_d e) ;;
  Ret ("Twisted Edwards Curve ax^2+y^2=1+dx^2y^2" ++ NL ++ "a: " ++ a ++ NL ++ "d: " ++ d).

(** instances/weier.rs:15-19, mont.rs:15-19, edw.rs:15-19: the identifier prints its name *)
Definition wid_show (q : WCurve.Params) : string := WCurve.pp_name q.
Definition mid_show (q : MCurve.Params) : string := MCurve.pp_name q.
Definition eid_show (q : ECurve.Params) : string := ECurve.pp_name q.
