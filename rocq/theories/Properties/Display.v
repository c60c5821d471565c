(** C52: the Display texts, and reading a quadratic-field element from text. *)

From Coq Require Import ZArith Lia String Ascii Bool List.
From Verif.Math Require Import Zp.
From Verif.Spec Require Import Arith Text.
From Verif.Model Require Import Out BigInt PrimeField QuadField Scalar Display.
From Verif.Model Require WCurve MCurve ECurve.
From Verif.Model Require Import Instances.
From Verif.Proofs Require Import FieldP FieldProps BytesP SerialProps QuadProps TextP.
Import ListNotations.
Open Scope Z_scope.
From Verif.Proofs Require Import DisplayProps.

(** the decimal text of a number exists, is unique, and names one number only *)
Theorem C52_decimal : forall n, 0 <= n ->
  exists s, decimal s n /\ (forall t, decimal t n -> t = s) /\ (forall m, decimal s m -> m = n).
Proof. exact c52_decimal. Qed.
Print Assumptions C52_decimal.

(** fields print their modulus *)
Theorem C52_fields : forall p, 0 <= p -> exists s, decimal s p
  /\ fp_show (fp_new p) = ("GF(" ++ s ++ ")")%string /\ fp2_show (fp2_new p) = ("GF(" ++ s ++ ")^2")%string.
Proof. exact c52_fields. Qed.
Print Assumptions C52_fields.

(** and only fields with the same modulus print alike *)
Theorem C52_fields_injective : forall p q, 0 <= p -> 0 <= q ->
  (fp_show (fp_new p) = fp_show (fp_new q) -> fp_eqb (fp_new p) (fp_new q) = true)
  /\ (fp2_show (fp2_new p) = fp2_show (fp2_new q) -> fp2_eqb (fp2_new p) (fp2_new q) = true)
  /\ fp_show (fp_new p) <> fp2_show (fp2_new q).
Proof. exact c52_fields_injective. Qed.
Print Assumptions C52_fields_injective.

(** an element prints its residue in decimal; within one field the text tells it *)
Theorem C52_elements : forall p x, valid p x -> exists s, elt_show x = Ret s /\ decimal s (val x)
  /\ from_str (fp_new p) s = Ret x.
Proof. exact c52_elements. Qed.
Print Assumptions C52_elements.

Theorem C52_elements_injective : forall p x y, valid p x -> valid p y -> elt_show x = elt_show y -> x = y.
Proof. exact c52_elements_injective. Qed.
Print Assumptions C52_elements_injective.

(** the field is not in the text: equal texts do not mean equal elements *)
Theorem C52_elements_of_two_fields_refuted : forall p q, 1 < p -> 1 < q -> p <> q ->
  exists x y, valid p x /\ valid q y /\ elt_show x = Ret "1"%string /\ elt_show y = Ret "1"%string
    /\ fpelt_eqb x y = false.
Proof. exact c52_elements_of_two_fields_refuted. Qed.
Print Assumptions C52_elements_of_two_fields_refuted.

(** f.from("l,r") of a quadratic field: both halves are number literals, the first is the
    real part; every other text panics *)
Theorem C52_quadratic_reading : forall p s, 0 < p ->
  (forall l r a b, s = (l ++ "," ++ r)%string -> literal l a -> literal r b ->
     exists x, from_str2 (fp2_new p) s = Ret x /\ valid2 p x
       /\ residue p a (val (re x)) /\ residue p b (val (im x)))
  /\ ((forall l r a b, s = (l ++ "," ++ r)%string -> ~ (literal l a /\ literal r b)) ->
      exists msg, from_str2 (fp2_new p) s = Panic msg).
Proof. exact c52_quadratic_reading. Qed.
Print Assumptions C52_quadratic_reading.

(** a quadratic element prints "re+i*im"; with a comma in place of "+i*" it can be read back *)
Theorem C52_quadratic_text : forall p x, valid2 p x ->
  exists a b, decimal a (val (re x)) /\ decimal b (val (im x))
    /\ elt2_show x = Ret (a ++ "+i*" ++ b)%string /\ from_str2 (fp2_new p) (a ++ "," ++ b)%string = Ret x.
Proof. exact c52_quadratic_text. Qed.
Print Assumptions C52_quadratic_text.

Theorem C52_quadratic_text_injective : forall p x y, valid2 p x -> valid2 p y -> elt2_show x = elt2_show y -> x = y.
Proof. exact c52_quadratic_text_injective. Qed.
Print Assumptions C52_quadratic_text_injective.

(** "the printed text reads back" fails for every quadratic element: from() panics on it *)
Theorem C52_quadratic_text_unreadable_refuted : forall p x, valid2 p x ->
  exists s msg, elt2_show x = Ret s /\ from_str2 (fp2_new p) s = Panic msg.
Proof. exact c52_quadratic_text_unreadable_refuted. Qed.
Print Assumptions C52_quadratic_text_unreadable_refuted.

Theorem C52_scalars : forall k r, 0 < r -> exists s, scalar_new k r = Ret s /\ decimal (scalar_show s) (k mod r).
Proof. exact c52_scalars. Qed.
Print Assumptions C52_scalars.

(** scalar equality and the text: same group order, same text, same scalar *)
Theorem C52_scalars_injective : forall k l r s t, 0 < r -> scalar_new k r = Ret s -> scalar_new l r = Ret t ->
  (scalar_show s = scalar_show t <-> k mod r = l mod r) /\ (scalar_eqb s t = true <-> k mod r = l mod r).
Proof. exact c52_scalars_injective. Qed.
Print Assumptions C52_scalars_injective.

(** scalars of groups of different order are never equal, whatever they print *)
Theorem C52_scalars_of_two_groups : forall k l r q s t, 0 < r -> 0 < q -> r <> q ->
  scalar_new k r = Ret s -> scalar_new l q = Ret t -> scalar_eqb s t = false.
Proof. exact c52_scalars_of_two_groups. Qed.
Print Assumptions C52_scalars_of_two_groups.

(** points print their projective coordinates in decimal *)
Theorem C52_points : forall p,
  (forall P : WCurve.Point, valid p (WCurve.px (WCurve.pc P)) -> valid p (WCurve.py (WCurve.pc P)) ->
     valid p (WCurve.pz (WCurve.pc P)) -> exists x y z, decimal x (val (WCurve.px (WCurve.pc P)))
     /\ decimal y (val (WCurve.py (WCurve.pc P))) /\ decimal z (val (WCurve.pz (WCurve.pc P)))
     /\ wpoint_show P = Ret (NL ++ "x: " ++ x ++ NL ++ "y: " ++ y ++ NL ++ "z: " ++ z)%string)
  /\ (forall P : MCurve.Point, valid p (MCurve.px (MCurve.pc P)) -> valid p (MCurve.py (MCurve.pc P)) ->
     valid p (MCurve.pz (MCurve.pc P)) -> exists x y z, decimal x (val (MCurve.px (MCurve.pc P)))
     /\ decimal y (val (MCurve.py (MCurve.pc P))) /\ decimal z (val (MCurve.pz (MCurve.pc P)))
     /\ mpoint_show P = Ret (NL ++ "x: " ++ x ++ NL ++ "y: " ++ y ++ NL ++ "z: " ++ z)%string)
  /\ (forall P : ECurve.Point, valid p (ECurve.px (ECurve.pc P)) -> valid p (ECurve.py (ECurve.pc P)) ->
     valid p (ECurve.ptt (ECurve.pc P)) -> valid p (ECurve.pz (ECurve.pc P)) ->
     exists x y t z, decimal x (val (ECurve.px (ECurve.pc P))) /\ decimal y (val (ECurve.py (ECurve.pc P)))
     /\ decimal t (val (ECurve.ptt (ECurve.pc P))) /\ decimal z (val (ECurve.pz (ECurve.pc P)))
     /\ epoint_show P = Ret (NL ++ "x: " ++ x ++ NL ++ "y: " ++ y ++ NL ++ "t: " ++ t ++ NL ++ "z: " ++ z)%string).
Proof. exact c52_points. Qed.
Print Assumptions C52_points.

(** on one curve the text tells the coordinates *)
Theorem C52_points_injective : forall p,
  (forall P Q : WCurve.Point, WCurve.pe P = WCurve.pe Q ->
     valid p (WCurve.px (WCurve.pc P)) -> valid p (WCurve.py (WCurve.pc P)) -> valid p (WCurve.pz (WCurve.pc P)) ->
     valid p (WCurve.px (WCurve.pc Q)) -> valid p (WCurve.py (WCurve.pc Q)) -> valid p (WCurve.pz (WCurve.pc Q)) ->
     wpoint_show P = wpoint_show Q -> P = Q)
  /\ (forall P Q : MCurve.Point, MCurve.pe P = MCurve.pe Q ->
     valid p (MCurve.px (MCurve.pc P)) -> valid p (MCurve.py (MCurve.pc P)) -> valid p (MCurve.pz (MCurve.pc P)) ->
     valid p (MCurve.px (MCurve.pc Q)) -> valid p (MCurve.py (MCurve.pc Q)) -> valid p (MCurve.pz (MCurve.pc Q)) ->
     mpoint_show P = mpoint_show Q -> P = Q)
  /\ (forall P Q : ECurve.Point, ECurve.pe P = ECurve.pe Q ->
     valid p (ECurve.px (ECurve.pc P)) -> valid p (ECurve.py (ECurve.pc P)) -> valid p (ECurve.ptt (ECurve.pc P)) ->
     valid p (ECurve.pz (ECurve.pc P)) ->
     valid p (ECurve.px (ECurve.pc Q)) -> valid p (ECurve.py (ECurve.pc Q)) -> valid p (ECurve.ptt (ECurve.pc Q)) ->
     valid p (ECurve.pz (ECurve.pc Q)) ->
     epoint_show P = epoint_show Q -> P = Q).
Proof. exact c52_points_injective. Qed.
Print Assumptions C52_points_injective.

(** but the text is not a function of the point: (1:2:1) and (2:4:2) on y^2 = x^3 + 3 over
    GF(7), equal for ==, print differently *)
Theorem C52_equal_points_print_differently_refuted : exists P Q s t,
  WCurve.pe P = WCurve.pe Q /\ WCurve.is_on_curve (WCurve.pe P) (WCurve.pc P) = Ret true
  /\ WCurve.is_on_curve (WCurve.pe P) (WCurve.pc Q) = Ret true /\ WCurve.pt_eqb P Q = Ret true
  /\ wpoint_show P = Ret s /\ wpoint_show Q = Ret t /\ s <> t.
Proof. exact c52_equal_points_print_differently_refuted. Qed.
Print Assumptions C52_equal_points_print_differently_refuted.

(** curves print their two coefficients *)
Theorem C52_curves : forall p,
  (forall e : WCurve.Curve, valid p (WCurve.c_a e) -> valid p (WCurve.c_b e) ->
     exists a b, decimal a (val (WCurve.c_a e)) /\ decimal b (val (WCurve.c_b e))
     /\ wcurve_show e = Ret ("Weierstrass Curve y^2=x^3+ax+b" ++ NL ++ "a: " ++ a ++ NL ++ "b: " ++ b)%string)
  /\ (forall e : MCurve.Curve, valid p (MCurve.c_a e) -> valid p (MCurve.c_b e) ->
     exists a b, decimal a (val (MCurve.c_a e)) /\ decimal b (val (MCurve.c_b e))
     /\ mcurve_show e = Ret ("Montgomery Curve by^2=x^3+ax^2+x" ++ NL ++ "a: " ++ a ++ NL ++ "b: " ++ b)%string)
  /\ (forall e : ECurve.Curve, valid p (ECurve.c_a e) -> valid p (ECurve.c_d e) ->
     exists a d, decimal a (val (ECurve.c_a e)) /\ decimal d (val (ECurve.c_d e))
     /\ ecurve_show e = Ret ("Twisted Edwards Curve ax^2+y^2=1+dx^2y^2" ++ NL ++ "a: " ++ a ++ NL ++ "d: " ++ d)%string).
Proof. exact c52_curves. Qed.
Print Assumptions C52_curves.

(** over one field, curves with the same text have the same equation *)
Theorem C52_curves_injective : forall p,
  (forall e f : WCurve.Curve, valid p (WCurve.c_a e) -> valid p (WCurve.c_b e) -> valid p (WCurve.c_a f) -> valid p (WCurve.c_b f) ->
     wcurve_show e = wcurve_show f -> WCurve.c_a e = WCurve.c_a f /\ WCurve.c_b e = WCurve.c_b f)
  /\ (forall e f : MCurve.Curve, valid p (MCurve.c_a e) -> valid p (MCurve.c_b e) -> valid p (MCurve.c_a f) -> valid p (MCurve.c_b f) ->
     mcurve_show e = mcurve_show f -> MCurve.c_a e = MCurve.c_a f /\ MCurve.c_b e = MCurve.c_b f)
  /\ (forall e f : ECurve.Curve, valid p (ECurve.c_a e) -> valid p (ECurve.c_d e) -> valid p (ECurve.c_a f) -> valid p (ECurve.c_d f) ->
     ecurve_show e = ecurve_show f -> ECurve.c_a e = ECurve.c_a f /\ ECurve.c_d e = ECurve.c_d f).
Proof. exact c52_curves_injective. Qed.
Print Assumptions C52_curves_injective.

(** the text leaves out field, order, generator and cofactor: unequal curves print alike *)
Theorem C52_unequal_curves_print_alike_refuted : forall p q, 1 < p -> 1 < q -> p <> q ->
  exists (e f : WCurve.Curve) s, WCurve.c_f e = fp_new p /\ WCurve.c_f f = fp_new q
    /\ valid p (WCurve.c_a e) /\ valid p (WCurve.c_b e) /\ valid q (WCurve.c_a f) /\ valid q (WCurve.c_b f)
    /\ wcurve_show e = Ret s /\ wcurve_show f = Ret s /\ WCurve.curve_eqb e f = false.
Proof. exact c52_unequal_curves_print_alike_refuted. Qed.
Print Assumptions C52_unequal_curves_print_alike_refuted.

(** the identifiers of the shipped curves print different names *)
Theorem C52_names : 
  let names := (map wid_show [P256_PARAMS; P384_PARAMS; P521_PARAMS; SECP256K1_PARAMS; SECP256K1_3ISO_PARAMS;
                             BLS12381G1_PARAMS; BLS12381G1_11ISO_PARAMS]
    ++ map mid_show [CURVE25519_PARAMS; CURVE448_PARAMS] ++ map eid_show [EDWARDS25519_PARAMS; EDWARDS448_PARAMS])%list in
  names = ["P256"; "P384"; "P521"; "secp256k1"; "secp256k1_3iso"; "bls12381_g1"; "bls12381_g1_11iso";
           "curve25519"; "curve448"; "edwards25519"; "edwards448"]%string /\ NoDup names.
Proof. exact c52_names. Qed.
Print Assumptions C52_names.

Example C52_ex :
  let x := mkFp2Elt (mkFpElt 12 (mkFp 103)) (mkFpElt 100 (mkFp 103)) (mkFp2 (mkFp 103)) in
  valid2 103 x /\ elt2_show x = Ret "12+i*100"%string /\ fp2_show (fld2 x) = "GF(103)^2"%string
  /\ from_str2 (fp2_new 103) "12,-0x3" = Ret x /\ from_str2 (fp2_new 103) "12" = Panic "index out of bounds"
  /\ scalar_show (mkScalar 10 13) = "10"%string.
Proof. exact c52_ex. Qed.
