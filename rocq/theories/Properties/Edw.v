(** Twisted Edwards curves: C36-C39 and the Edwards parts of C31, C32, C49. *)

From Coq Require Import ZArith Znumtheory Lia String Bool List Ring Field.
From Verif.Math Require Import Fld Zp Residue Edwards.
From Verif.Spec Require Import Arith Curve.
From Verif.Model Require Import Out BigInt PrimeField Scalar ECurve.
From Verif.Proofs Require Import FieldP FieldProps BytesP SerialProps ScalarProps CurveP LadderP SmallP EdwP.
From Verif.Proofs Require WeierP WeierProps.
From Verif.Spec Require Export EPoints.
Import WeierProps(byte_size_unique, size_of, coord_K, bits_small, residue_mod, residue_is_mod, elt_res, Fcomm).
Import ListNotations.
Open Scope Z_scope.
From Verif.Proofs Require Import EdwProps.

(** the sum of two points of the curve is always defined: the specification's denominators never vanish *)
Theorem C36_law_is_total : forall e A B, edw e -> eon e A -> eon e B ->
  exists C, eon e C /\ forall C', esum e A B C' <-> C' = C.
Proof. exact c36_law_is_total. Qed.
Print Assumptions C36_law_is_total.

Theorem C36_addition : forall e P Q A B, edw e -> epoint e P A -> epoint e Q B ->
  exists R, pt_add P Q = Ret R /\ forall C, epoint e R C <-> esum e A B C.
Proof. exact c36_addition. Qed.
Print Assumptions C36_addition.

Theorem C36_negation : forall e P A, edw e -> epoint e P A ->
  exists R, pt_neg P = Ret R /\ forall C, epoint e R C <-> C = edwards_neg (modulus (c_f e)) A.
Proof. exact c36_negation. Qed.
Print Assumptions C36_negation.

Theorem C36_subtraction : forall e P Q A B, edw e -> epoint e P A -> epoint e Q B ->
  exists R, pt_sub P Q = Ret R /\ forall C, epoint e R C <-> esum e A (edwards_neg (modulus (c_f e)) B) C.
Proof. exact c36_subtraction. Qed.
Print Assumptions C36_subtraction.

(** the extended coordinate of every point is consistent: t z = x y *)
Theorem C36_extended_coordinate : forall e P A, edw e -> epoint e P A ->
  (modulus (c_f e) | val (ptt (pc P)) * val (pz (pc P)) - val (px (pc P)) * val (py (pc P))).
Proof. exact c36_extended_coordinate. Qed.
Print Assumptions C36_extended_coordinate.

(** new_point accepts exactly the points of the curve, and panics on all others *)
Theorem C36_new_point : forall e x y, edw e -> valid (modulus (c_f e)) x -> valid (modulus (c_f e)) y ->
  (eon e (val x, val y) -> exists P, new_point e x y = Ret P /\ epoint e P (val x, val y))
  /\ (~ eon e (val x, val y) -> new_point e x y = Panic "not valid point").
Proof. exact c36_new_point. Qed.
Print Assumptions C36_new_point.

(** the tuples passing the curve test are the representatives of the points, and the zero tuple *)
Theorem C36_accepted_tuples : forall e c, edw e ->
  valid (modulus (c_f e)) (px c) -> valid (modulus (c_f e)) (py c) ->
  valid (modulus (c_f e)) (ptt c) -> valid (modulus (c_f e)) (pz c) ->
  exists t, is_on_curve e c = Ret t
    /\ (t = true <-> (exists A, epoint e (mkPoint e c) A)
                     \/ (val (px c) = 0 /\ val (py c) = 0 /\ val (ptt c) = 0 /\ val (pz c) = 0)).
Proof. exact c36_accepted_tuples. Qed.
Print Assumptions C36_accepted_tuples.

Theorem C37_associative : forall e P Q R A B C, edw e -> epoint e P A -> epoint e Q B -> epoint e R C ->
  same (bind (pt_add P Q) (fun S => pt_add S R)) (bind (pt_add Q R) (fun S => pt_add P S)).
Proof. exact c37_associative. Qed.
Print Assumptions C37_associative.

Theorem C37_commutative : forall e P Q A B, edw e -> epoint e P A -> epoint e Q B ->
  same (pt_add P Q) (pt_add Q P).
Proof. exact c37_commutative. Qed.
Print Assumptions C37_commutative.

Theorem C37_identity_and_inverse : forall e P A, edw e -> epoint e P A ->
  same (bind (identity e) (fun O => pt_add P O)) (Ret P) /\ same (bind (identity e) (fun O => pt_add O P)) (Ret P)
  /\ same (bind (pt_neg P) (fun N => pt_add P N)) (identity e) /\ same (pt_sub P P) (identity e).
Proof. exact c37_identity_and_inverse. Qed.
Print Assumptions C37_identity_and_inverse.

Theorem C37_equality_is_congruence : forall e P P' Q Q' A A' B B', edw e ->
  epoint e P A -> epoint e P' A' -> epoint e Q B -> epoint e Q' B' ->
  pt_eqb P P' = Ret true -> pt_eqb Q Q' = Ret true ->
  same (pt_add P Q) (pt_add P' Q') /\ same (pt_sub P Q) (pt_sub P' Q') /\ same (pt_neg P) (pt_neg P').
Proof. exact c37_equality_is_congruence. Qed.
Print Assumptions C37_equality_is_congruence.

(** k * P is the k-fold sum of P *)
Theorem C37_scalar_multiplication : forall oc e P A k, edw e -> epoint e P A -> valid_scalar (c_r e) k ->
  Z.log2 (c_r e) < 2 ^ 63 -> (oc = true -> sk k <> 0) ->
  exists R, pt_mul oc P k = Ret R /\ forall C, epoint e R C <-> multiple (esum e) (0, 1) A (Z.to_nat (sk k)) C.
Proof. exact c37_scalar_multiplication. Qed.
Print Assumptions C37_scalar_multiplication.

(** with overflow checks the zero scalar panics instead of giving the identity *)
Theorem C37_zero_scalar_panics : forall e P A, edw e -> epoint e P A ->
  pt_mul true P (mkScalar 0 (c_r e)) = Panic "attempt to subtract with overflow".
Proof. exact c37_zero_scalar_panics. Qed.
Print Assumptions C37_zero_scalar_panics.

(** on points killed by r, scalar multiplication is a homomorphism from the scalars modulo r *)
Theorem C37_homomorphism : forall e P A k l, edw e -> epoint e P A ->
  valid_scalar (c_r e) k -> valid_scalar (c_r e) l -> Z.log2 (c_r e) < 2 ^ 63 ->
  multiple (esum e) (0, 1) A (Z.to_nat (c_r e)) (0, 1) ->
  same (bind (pt_mul false P k) (fun X => bind (pt_mul false P l) (fun Y => pt_add X Y)))
       (bind (sc_add k l) (fun m => pt_mul false P m))
  /\ same (bind (pt_mul false P k) (fun X => pt_mul false X l))
       (bind (sc_mul k l) (fun m => pt_mul false P m)).
Proof. exact c37_homomorphism. Qed.
Print Assumptions C37_homomorphism.

(** is_zero exactly when x = 0, that is on the identity (0,1) and on the point (0,-1) of order 2 *)
Theorem C38_is_zero : forall e P A, edw e -> epoint e P A ->
  (pt_is_zero P = true <-> fst A = 0) /\ (fst A = 0 <-> A = (0, 1) \/ A = (0, modulus (c_f e) - 1)).
Proof. exact c38_is_zero. Qed.
Print Assumptions C38_is_zero.

(** on the identity the test is true *)
Theorem C38_identity_is_zero : forall e, edw e -> exists I, identity e = Ret I /\ epoint e I (0, 1) /\ pt_is_zero I = true.
Proof. exact c38_identity_is_zero. Qed.
Print Assumptions C38_identity_is_zero.

(** on every curve some point other than the identity is reported as zero *)
Theorem C38_other_zero_point : forall e, edw e -> exists P I, epoint e P (0, modulus (c_f e) - 1)
  /\ pt_is_zero P = true /\ identity e = Ret I /\ pt_eqb P I = Ret false.
Proof. exact c38_other_zero_point. Qed.
Print Assumptions C38_other_zero_point.

Theorem C38_is_zero_iff_identity_refuted : exists e P I, edw e /\ epoint e P (0, modulus (c_f e) - 1)
  /\ identity e = Ret I /\ pt_is_zero P = true /\ pt_eqb P I = Ret false.
Proof. exact c38_is_zero_iff_identity_refuted. Qed.
Print Assumptions C38_is_zero_iff_identity_refuted.

Theorem C32_edw_equality : forall e P Q A B, edw e -> epoint e P A -> epoint e Q B ->
  exists t, pt_eqb P Q = Ret t /\ (t = true <-> A = B).
Proof. exact c32_edw_equality. Qed.
Print Assumptions C32_edw_equality.

(** a point represents one affine point, and every point of the curve is represented *)
Theorem C32_edw_representation : forall e, edw e ->
  (forall P A B, epoint e P A -> epoint e P B -> A = B)
  /\ (forall A, eon e A -> exists P, epoint e P A).
Proof. exact c32_edw_representation. Qed.
Print Assumptions C32_edw_representation.

(** the tuple (0,0,0,0) passes the curve test and is equal to every point: the equality above holds only
    because no operation produces it (C36, C37) *)
Theorem C32_edw_zero_tuple : forall e P A, edw e -> epoint e P A ->
  let z := mkFpElt 0 (c_f e) in let O := mkPoint e (mkProy z z z z) in
  is_on_curve e (pc O) = Ret true /\ pt_eqb O P = Ret true /\ pt_eqb P O = Ret true /\ (forall B, ~ epoint e O B).
Proof. exact c32_edw_zero_tuple. Qed.
Print Assumptions C32_edw_zero_tuple.

(** normalize keeps every point, the identity included *)
Theorem C31_edw_normalize : forall e P A, edw e -> epoint e P A ->
  exists R, normalize P = Ret R /\ epoint e R A
    /\ val (px (pc R)) = fst A /\ val (py (pc R)) = snd A /\ val (pz (pc R)) = 1.
Proof. exact c31_edw_normalize. Qed.
Print Assumptions C31_edw_normalize.

(** fixed length, y little-endian with the low bit of x on top, whatever the compression flag *)
Theorem C39_encode : forall e P x y c n, edw e -> epoint e P (x, y) -> ed_size (modulus (c_f e)) n ->
  exists buf, encode P c = Ret buf /\ ed_text n x y buf.
Proof. exact c39_encode. Qed.
Print Assumptions C39_encode.

(** the size is floor(bits(p)/8) + 1 *)
Theorem C39_size : forall p n, 2 < p -> (ed_size p n <-> n = (Z.log2 p + 1) / 8 + 1).
Proof. exact c39_size. Qed.
Print Assumptions C39_size.

Theorem C39_round_trip : forall e P A c, edw e -> sqrt_modulus (modulus (c_f e)) -> epoint e P A ->
  exists buf Q, encode P c = Ret buf /\ decode e buf = Ret (Ok Q) /\ epoint e Q A /\ pt_eqb Q P = Ret true.
Proof. exact c39_round_trip. Qed.
Print Assumptions C39_round_trip.

(** decode answers Ok exactly on the encodings of the points of the curve *)
Theorem C39_decode_ok : forall e buf n, edw e -> sqrt_modulus (modulus (c_f e)) -> Forall is_byte buf ->
  ed_size (modulus (c_f e)) n ->
  (forall Q, decode e buf = Ret (Ok Q) -> exists x y, ed_text n x y buf /\ eon e (x, y) /\ epoint e Q (x, y))
  /\ (forall x y, ed_text n x y buf -> eon e (x, y) -> exists Q, decode e buf = Ret (Ok Q) /\ epoint e Q (x, y)).
Proof. exact c39_decode_ok. Qed.
Print Assumptions C39_decode_ok.

(** the encoding is canonical: whatever decode accepts is the encoding of the point it returns *)
Theorem C39_decode_encode : forall e buf Q c, edw e -> sqrt_modulus (modulus (c_f e)) -> Forall is_byte buf ->
  decode e buf = Ret (Ok Q) -> encode Q c = Ret buf.
Proof. exact c39_decode_encode. Qed.
Print Assumptions C39_decode_encode.

(** different points have different encodings, whatever the modulus *)
Theorem C39_encode_injective : forall e P Q A B c c' buf, edw e ->
  epoint e P A -> epoint e Q B -> encode P c = Ret buf -> encode Q c' = Ret buf -> A = B.
Proof. exact c39_encode_injective. Qed.
Print Assumptions C39_encode_injective.

(** Err exactly on a wrong length, on a value y not below p, and on the sign bit set with x = 0 (y = 1 or -1) *)
Theorem C39_decode_err : forall e buf n, edw e -> sqrt_modulus (modulus (c_f e)) -> Forall is_byte buf ->
  ed_size (modulus (c_f e)) n ->
  ((exists m, decode e buf = Ret (Err m)) <->
   Z.of_nat (length buf) <> n \/
   exists y s, le_value buf = y + s * 2 ^ (8 * n - 1) /\ 0 <= y < 2 ^ (8 * n - 1) /\ 0 <= s <= 1
     /\ (modulus (c_f e) <= y \/ (s = 1 /\ (modulus (c_f e) | y * y - 1)))).
Proof. exact c39_decode_err. Qed.
Print Assumptions C39_decode_err.

(** panic exactly when the length and the value y are right but no point of the curve has this y *)
Theorem C39_decode_panics : forall e buf n, edw e -> sqrt_modulus (modulus (c_f e)) -> Forall is_byte buf ->
  ed_size (modulus (c_f e)) n ->
  ((exists m, decode e buf = Panic m) <->
   Z.of_nat (length buf) = n /\
   exists y s, le_value buf = y + s * 2 ^ (8 * n - 1) /\ 0 <= y < modulus (c_f e) /\ 0 <= s <= 1
     /\ forall x, ~ eon e (x, y)).
Proof. exact c39_decode_panics. Qed.
Print Assumptions C39_decode_panics.

(** whatever a history of operations returns is the point that the history means *)
Theorem C37_history_sound : forall oc e t P, egroup e -> term_bytes t -> run oc e t = Ret P ->
  exists A, emeans oc e t A /\ epoint e P A.
Proof. exact c37_history_sound. Qed.
Print Assumptions C37_history_sound.

(** and a history that means a point never panics *)
Theorem C37_history_complete : forall oc e t A, egroup e -> term_bytes t -> emeans oc e t A ->
  exists P, run oc e t = Ret P /\ epoint e P A.
Proof. exact c37_history_complete. Qed.
Print Assumptions C37_history_complete.

Theorem C49_edw_different_curves : forall P Q, pe P <> pe Q -> pt_add P Q = Panic "points of different curves".
Proof. exact c49_edw_different_curves. Qed.
Print Assumptions C49_edw_different_curves.

Theorem C49_edw_different_orders : forall oc P k, sr k <> c_r (pe P) -> pt_mul oc P k = Panic "Scalar don't match with point".
Proof. exact c49_edw_different_orders. Qed.
Print Assumptions C49_edw_different_orders.

(** comparing points of different curves is false over one field, but panics over different fields *)
Theorem C49_edw_equality_across_curves : forall e1 e2 P Q A B, edw e1 -> edw e2 -> e1 <> e2 -> epoint e1 P A -> epoint e2 Q B ->
  (modulus (c_f e1) = modulus (c_f e2) -> pt_eqb P Q = Ret false)
  /\ (modulus (c_f e1) <> modulus (c_f e2) -> pt_eqb P Q = Panic "elements of different fields").
Proof. exact c49_edw_equality_across_curves. Qed.
Print Assumptions C49_edw_equality_across_curves.

Example C36_ex : edw E29 /\ epoint E29 (pt29 2 22 15 1) (2, 22) /\ epoint E29 (pt29 6 10 1 2) (3, 5)
  /\ pt_add (pt29 2 22 15 1) (pt29 6 10 1 2) = Ret (pt29 7 0 0 3)
  /\ pt_neg (pt29 6 10 1 2) = Ret (pt29 23 10 28 2)
  /\ new_point E29 (n29 3) (n29 6) = Panic "not valid point"
  /\ is_on_curve E29 (mkProy (n29 6) (n29 10) (n29 2) (n29 2)) = Ret false.
Proof. exact c36_ex. Qed.

(** when d is a square the formulas are not complete: on -x^2 + y^2 = 1 + 4 x^2 y^2 modulo 13 the sum of (2,2)
    and (2,-2) is the zero tuple, which equals every point *)
Theorem C36_addition_on_any_curve_refuted : exists e P Q R,
  prime (modulus (c_f e)) /\ epoint e P (2, 2) /\ epoint e Q (2, 11) /\ pt_add P Q = Ret R
  /\ (forall A, ~ epoint e R A) /\ pt_eqb R P = Ret true /\ pt_eqb R Q = Ret true /\ pt_eqb P Q = Ret false.
Proof. exact c36_addition_on_any_curve_refuted. Qed.
Print Assumptions C36_addition_on_any_curve_refuted.

Example C37_ex : egroup E29
  /\ run true E29 (TMul (TAdd TGenerator (TDecode [133])) 3) = Ret (pt29 26 0 0 22)
  /\ emeans true E29 (TDecode [133]) (3, 5)
  /\ pt_mul true (pt29 2 22 15 1) (mkScalar 2 7) = Ret (pt29 15 7 24 8)
  /\ pt_mul false (pt29 2 22 15 1) (mkScalar 0 7) = Ret (pt29 0 1 0 1).
Proof. exact c37_ex. Qed.

Example C38_ex : epoint E29 (pt29 0 26 0 3) (0, 28) /\ pt_is_zero (pt29 0 26 0 3) = true
  /\ pt_is_zero (pt29 6 10 1 2) = false /\ pt_eqb (pt29 0 26 0 3) (pt29 0 1 0 1) = Ret false.
Proof. exact c38_ex. Qed.

Example C39_ex : ed_size 29 1 /\ encode (pt29 6 10 1 2) true = Ret [133] /\ encode (pt29 6 10 1 2) false = Ret [133]
  /\ decode E29 [133] = Ret (Ok (pt29 3 5 15 1)) /\ decode E29 [5] = Ret (Ok (pt29 26 5 14 1))
  /\ decode E29 [1] = Ret (Ok (pt29 0 1 0 1)) /\ (exists m, decode E29 [129] = Ret (Err m))
  /\ (exists m, decode E29 [30] = Ret (Err m)) /\ (exists m, decode E29 [2] = Panic m).
Proof. exact c39_ex. Qed.

Example C31_edw_ex : normalize (pt29 6 10 1 2) = Ret (pt29 3 5 15 1) /\ normalize (pt29 0 3 0 3) = Ret (pt29 0 1 0 1).
Proof. exact c31_edw_ex. Qed.

Example C32_edw_ex : pt_eqb (pt29 6 10 1 2) (pt29 3 5 15 1) = Ret true /\ pt_eqb (pt29 6 10 1 2) (pt29 2 22 15 1) = Ret false.
Proof. exact c32_edw_ex. Qed.

Example C49_edw_ex : pt_add (pt29 2 22 15 1) (mkPoint (mkCurve (mkFp 29) (n29 28) (n29 2) 7 (n29 2) (n29 22) 8) (pc (pt29 2 22 15 1)))
    = Panic "points of different curves"
  /\ pt_mul true (pt29 2 22 15 1) (mkScalar 3 13) = Panic "Scalar don't match with point".
Proof. exact c49_edw_ex. Qed.
