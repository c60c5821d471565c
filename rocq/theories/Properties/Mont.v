(** Montgomery curves: C33-C35 and the Montgomery parts of C27, C31, C32, C49. *)

From Coq Require Import ZArith Znumtheory Lia String Bool List Ring Field.
From Verif.Math Require Import Fld Zp Residue ECGroup RCB MontAdd.
From Verif.Spec Require Import Arith Curve.
From Verif.Model Require Import Out BigInt PrimeField Scalar MCurve.
From Verif.Proofs Require Import FieldP FieldProps BytesP SerialProps ScalarProps CurveP LadderP SmallP MontP.
From Verif.Proofs Require WeierP WeierProps.
From Verif.Spec Require Export MPoints.
Import WeierProps(byte_size_unique, size_is_nb, size_of, coord_K, bits_small, residue_mod, residue_is_mod, elt_res, Fcomm, sec1_len).
Import ListNotations.
Open Scope Z_scope.
From Verif.Proofs Require Import MontProps.

(** new_point accepts exactly the points of the curve, and panics on all others *)
Theorem C33_new_point : forall e x y, mont e -> valid (modulus (c_f e)) x -> valid (modulus (c_f e)) y ->
  (mon e (Affine (val x) (val y)) -> exists P, new_point e x y = Ret P /\ mpoint e P (Affine (val x) (val y)))
  /\ (~ mon e (Affine (val x) (val y)) -> new_point e x y = Panic "not valid point").
Proof. exact c33_new_point. Qed.
Print Assumptions C33_new_point.

Theorem C33_addition : forall e P Q A B, mont e -> mpoint e P A -> mpoint e Q B ->
  exists R, pt_add P Q = Ret R /\ forall C, mpoint e R C <-> msum e A B C.
Proof. exact c33_addition. Qed.
Print Assumptions C33_addition.

Theorem C33_negation : forall e P A, mont e -> mpoint e P A ->
  exists R, pt_neg P = Ret R /\ forall C, mpoint e R C <-> C = negative (modulus (c_f e)) A.
Proof. exact c33_negation. Qed.
Print Assumptions C33_negation.

Theorem C33_subtraction : forall e P Q A B, mont e -> mpoint e P A -> mpoint e Q B ->
  exists R, pt_sub P Q = Ret R /\ forall C, mpoint e R C <-> msum e A (negative (modulus (c_f e)) B) C.
Proof. exact c33_subtraction. Qed.
Print Assumptions C33_subtraction.

Theorem C34_associative : forall e P Q R A B C, mont e -> mpoint e P A -> mpoint e Q B -> mpoint e R C ->
  same (bind (pt_add P Q) (fun S => pt_add S R)) (bind (pt_add Q R) (fun S => pt_add P S)).
Proof. exact c34_associative. Qed.
Print Assumptions C34_associative.

Theorem C34_commutative : forall e P Q A B, mont e -> mpoint e P A -> mpoint e Q B ->
  same (pt_add P Q) (pt_add Q P).
Proof. exact c34_commutative. Qed.
Print Assumptions C34_commutative.

Theorem C34_identity_and_inverse : forall e P A, mont e -> mpoint e P A ->
  same (bind (identity e) (fun O => pt_add P O)) (Ret P) /\ same (bind (identity e) (fun O => pt_add O P)) (Ret P)
  /\ same (bind (pt_neg P) (fun N => pt_add P N)) (identity e) /\ same (pt_sub P P) (identity e).
Proof. exact c34_identity_and_inverse. Qed.
Print Assumptions C34_identity_and_inverse.

Theorem C34_equality_is_congruence : forall e P P' Q Q' A A' B B', mont e ->
  mpoint e P A -> mpoint e P' A' -> mpoint e Q B -> mpoint e Q' B' ->
  pt_eqb P P' = Ret true -> pt_eqb Q Q' = Ret true ->
  same (pt_add P Q) (pt_add P' Q') /\ same (pt_sub P Q) (pt_sub P' Q') /\ same (pt_neg P) (pt_neg P').
Proof. exact c34_equality_is_congruence. Qed.
Print Assumptions C34_equality_is_congruence.

(** k * P is the k-fold sum of P *)
Theorem C34_scalar_multiplication : forall oc e P A k, mont e -> mpoint e P A -> valid_scalar (c_r e) k ->
  Z.log2 (c_r e) < 2 ^ 63 -> (oc = true -> sk k <> 0) ->
  exists R, pt_mul oc P k = Ret R /\ forall C, mpoint e R C <-> multiple (msum e) Infinity A (Z.to_nat (sk k)) C.
Proof. exact c34_scalar_multiplication. Qed.
Print Assumptions C34_scalar_multiplication.

(** with overflow checks the zero scalar panics instead of giving the identity *)
Theorem C34_zero_scalar_panics : forall e P A, mont e -> mpoint e P A ->
  pt_mul true P (mkScalar 0 (c_r e)) = Panic "attempt to subtract with overflow".
Proof. exact c34_zero_scalar_panics. Qed.
Print Assumptions C34_zero_scalar_panics.

(** on points killed by r, scalar multiplication is a homomorphism from the scalars modulo r *)
Theorem C34_homomorphism : forall e P A k l, mont e -> mpoint e P A ->
  valid_scalar (c_r e) k -> valid_scalar (c_r e) l -> Z.log2 (c_r e) < 2 ^ 63 ->
  multiple (msum e) Infinity A (Z.to_nat (c_r e)) Infinity ->
  same (bind (pt_mul false P k) (fun X => bind (pt_mul false P l) (fun Y => pt_add X Y)))
       (bind (sc_add k l) (fun m => pt_mul false P m))
  /\ same (bind (pt_mul false P k) (fun X => pt_mul false X l))
       (bind (sc_mul k l) (fun m => pt_mul false P m)).
Proof. exact c34_homomorphism. Qed.
Print Assumptions C34_homomorphism.

Theorem C27_mont_is_zero : forall e P A, mont e -> mpoint e P A ->
  exists I, identity e = Ret I /\ mpoint e I Infinity
    /\ (pt_is_zero P = true <-> A = Infinity) /\ (pt_is_zero P = true <-> pt_eqb P I = Ret true).
Proof. exact c27_mont_is_zero. Qed.
Print Assumptions C27_mont_is_zero.

Theorem C32_mont_equality : forall e P Q A B, mont e -> mpoint e P A -> mpoint e Q B ->
  exists t, pt_eqb P Q = Ret t /\ (t = true <-> A = B).
Proof. exact c32_mont_equality. Qed.
Print Assumptions C32_mont_equality.

(** a point represents one affine point, and every point of the curve is represented *)
Theorem C32_mont_representation : forall e, mont e ->
  (forall P A B, mpoint e P A -> mpoint e P B -> A = B)
  /\ (forall A, mon e A -> exists P, mpoint e P A).
Proof. exact c32_mont_representation. Qed.
Print Assumptions C32_mont_representation.

Theorem C31_mont_normalize : forall e P x y, mont e -> mpoint e P (Affine x y) ->
  exists R, normalize P = Ret R /\ mpoint e R (Affine x y)
    /\ val (px (pc R)) = x /\ val (py (pc R)) = y /\ val (pz (pc R)) = 1.
Proof. exact c31_mont_normalize. Qed.
Print Assumptions C31_mont_normalize.

(** the identity, however, becomes the point (0,0) of order 2, not zero and not equal to the identity *)
Theorem C31_mont_normalize_identity_breaks : forall e P, mont e -> mpoint e P Infinity ->
  exists R, normalize P = Ret R /\ mpoint e R (Affine 0 0) /\ pt_is_zero R = false /\ pt_eqb R P = Ret false.
Proof. exact c31_mont_normalize_identity_breaks. Qed.
Print Assumptions C31_mont_normalize_identity_breaks.

Theorem C35_encode : forall e P x y c n, mont e -> mpoint e P (Affine x y) -> byte_size (modulus (c_f e)) n ->
  exists buf, encode P c = Ret buf /\ sec1 n x y c buf.
Proof. exact c35_encode. Qed.
Print Assumptions C35_encode.

Theorem C35_round_trip : forall e P x y c, mont e -> sqrt_modulus (modulus (c_f e)) -> mpoint e P (Affine x y) ->
  exists buf Q, encode P c = Ret buf /\ decode e buf = Ret (Ok Q) /\ mpoint e Q (Affine x y) /\ pt_eqb Q P = Ret true.
Proof. exact c35_round_trip. Qed.
Print Assumptions C35_round_trip.

(** the identity is not encoded as the single byte 0 but as the coordinates (0,0), that is like the point
    of order 2, to which it decodes *)
Theorem C35_encode_identity_breaks : forall e P c n, mont e -> sqrt_modulus (modulus (c_f e)) ->
  mpoint e P Infinity -> byte_size (modulus (c_f e)) n ->
  exists buf Q, encode P c = Ret buf
    /\ buf = (if c then 2 :: repeat 0 (Z.to_nat n) else 4 :: repeat 0 (2 * Z.to_nat n))
    /\ decode e buf = Ret (Ok Q) /\ mpoint e Q (Affine 0 0) /\ pt_eqb Q P = Ret false /\ encode Q c = Ret buf.
Proof. exact c35_encode_identity_breaks. Qed.
Print Assumptions C35_encode_identity_breaks.

(** decode answers Ok exactly on the accepted texts of the affine points of the curve *)
Theorem C35_decode_ok : forall e buf n, mont e -> sqrt_modulus (modulus (c_f e)) -> Forall is_byte buf ->
  byte_size (modulus (c_f e)) n ->
  (forall Q, decode e buf = Ret (Ok Q) -> exists c x y, accepted n x y c buf /\ mon e (Affine x y) /\ mpoint e Q (Affine x y))
  /\ (forall c x y, accepted n x y c buf -> mon e (Affine x y) -> exists Q, decode e buf = Ret (Ok Q) /\ mpoint e Q (Affine x y)).
Proof. exact c35_decode_ok. Qed.
Print Assumptions C35_decode_ok.

(** Err exactly on the texts of length other than 1 that are no encoding of a pair of residues *)
Theorem C35_decode_err : forall e buf n, mont e -> sqrt_modulus (modulus (c_f e)) -> Forall is_byte buf ->
  byte_size (modulus (c_f e)) n ->
  ((exists m, decode e buf = Ret (Err m)) <->
   length buf <> 1%nat /\ ~ exists c x y, coord (modulus (c_f e)) x /\ coord (modulus (c_f e)) y /\ sec1 n x y c buf).
Proof. exact c35_decode_err. Qed.
Print Assumptions C35_decode_err.

(** panic on every text of length 1 and on every well-formed encoding of no point of the curve *)
Theorem C35_decode_panics : forall e buf n, mont e -> sqrt_modulus (modulus (c_f e)) -> Forall is_byte buf ->
  byte_size (modulus (c_f e)) n ->
  ((exists m, decode e buf = Panic m) <->
   length buf = 1%nat \/
   ((exists c x y, coord (modulus (c_f e)) x /\ coord (modulus (c_f e)) y /\ sec1 n x y c buf)
    /\ ~ exists c x y, accepted n x y c buf /\ mon e (Affine x y))).
Proof. exact c35_decode_panics. Qed.
Print Assumptions C35_decode_panics.

(** an accepted text is the encoding of the decoded point in its own mode, except that a point of order 2
    is also accepted with the other tag *)
Theorem C35_decode_encode : forall e buf Q n, mont e -> sqrt_modulus (modulus (c_f e)) -> Forall is_byte buf ->
  byte_size (modulus (c_f e)) n -> decode e buf = Ret (Ok Q) ->
  encode Q (Z.of_nat (length buf) =? n + 1) = Ret buf
  \/ (exists x bx, buf = 3 :: bx /\ mpoint e Q (Affine x 0) /\ encode Q true = Ret (2 :: bx)).
Proof. exact c35_decode_encode. Qed.
Print Assumptions C35_decode_encode.

(** whatever a history of operations returns is the point that the history means *)
Theorem C34_history_sound : forall oc e t P, mgroup e -> term_bytes t -> run oc e t = Ret P ->
  exists A, mmeans oc e t A /\ mpoint e P A.
Proof. exact c34_history_sound. Qed.
Print Assumptions C34_history_sound.

(** and a history that means a point never panics *)
Theorem C34_history_complete : forall oc e t A, mgroup e -> term_bytes t -> mmeans oc e t A ->
  exists P, run oc e t = Ret P /\ mpoint e P A.
Proof. exact c34_history_complete. Qed.
Print Assumptions C34_history_complete.

Theorem C49_mont_different_curves : forall P Q, pe P <> pe Q -> pt_add P Q = Panic "points of different curves".
Proof. exact c49_mont_different_curves. Qed.
Print Assumptions C49_mont_different_curves.

Theorem C49_mont_different_orders : forall oc P k, sr k <> c_r (pe P) -> pt_mul oc P k = Panic "Scalar don't match with point".
Proof. exact c49_mont_different_orders. Qed.
Print Assumptions C49_mont_different_orders.

(** comparing points of different curves is false over one field, but panics over different fields *)
Theorem C49_mont_equality_across_curves : forall e1 e2 P Q A B, mont e1 -> mont e2 -> e1 <> e2 -> mpoint e1 P A -> mpoint e2 Q B ->
  (modulus (c_f e1) = modulus (c_f e2) -> pt_eqb P Q = Ret false)
  /\ (modulus (c_f e1) <> modulus (c_f e2) -> pt_eqb P Q = Panic "elements of different fields").
Proof. exact c49_mont_equality_across_curves. Qed.
Print Assumptions C49_mont_equality_across_curves.

(** the triple (0,0,0) passes the curve test and is equal to every point: the equality above holds only
    because no operation produces it (C33, C34) *)
Theorem C32_mont_zero_triple : forall e P A, mont e -> mpoint e P A ->
  let O := mkPoint e (mkProy (mkFpElt 0 (c_f e)) (mkFpElt 0 (c_f e)) (mkFpElt 0 (c_f e))) in
  is_on_curve e (pc O) = Ret true /\ pt_eqb O P = Ret true /\ pt_eqb P O = Ret true /\ (forall B, ~ mpoint e O B).
Proof. exact c32_mont_zero_triple. Qed.
Print Assumptions C32_mont_zero_triple.

(** on a normalized point is_two_torsion says that P + P is the identity; on other representatives of the
    same point, and on the identity, it answers false *)
Theorem C34_two_torsion : forall e P x y, mont e -> mpoint e P (Affine x y) ->
  (is_two_torsion P = true <-> val (pz (pc P)) = 1 /\ msum e (Affine x y) (Affine x y) Infinity).
Proof. exact c34_two_torsion. Qed.
Print Assumptions C34_two_torsion.

Example C33_ex : mont E19 /\ mpoint E19 (pt19 7 6 1) (Affine 7 6) /\ mpoint E19 (pt19 12 2 2) (Affine 6 1)
  /\ pt_add (pt19 7 6 1) (pt19 12 2 2) = Ret (pt19 14 4 15)
  /\ pt_add (pt19 7 6 1) (pt19 7 13 1) = Ret (pt19 0 5 0)
  /\ pt_add (pt19 0 0 3) (pt19 0 0 3) = Ret (pt19 0 5 0).
Proof. exact c33_ex. Qed.

(** with b <> 1 the formulas, which ignore b, leave the curve: on 2y^2 = x^3 + x^2 + x modulo 7 the sum of
    (0,0) and (3,3) is (5,2), but the addition panics *)
Theorem C33_addition_for_all_b_refuted : exists e P Q m,
  prime (modulus (c_f e)) /\ val (c_b e) = 2 /\ ~ (modulus (c_f e) | val (c_a e) * val (c_a e) - 4)
  /\ (forall x, ~ (modulus (c_f e) | x * x * x + val (c_a e) * (x * x) + x - val (c_b e) * (val (c_s e) * val (c_s e))))
  /\ mpoint e P (Affine 0 0) /\ mpoint e Q (Affine 3 3)
  /\ msum e (Affine 0 0) (Affine 3 3) (Affine 5 2)
  /\ pt_add P Q = Panic m.
Proof. exact c33_addition_for_all_b_refuted. Qed.
Print Assumptions C33_addition_for_all_b_refuted.

Example C34_ex : mgroup E19
  /\ run true E19 (TMul (TAdd TGenerator (TDecode [2; 7])) 3) = Ret (pt19 10 14 15)
  /\ pt_mul true (pt19 7 6 1) (mkScalar 2 5) = Ret (pt19 5 15 11)
  /\ pt_mul false (pt19 7 6 1) (mkScalar 0 5) = Ret (pt19 0 1 0)
  /\ is_two_torsion (pt19 0 0 1) = true /\ is_two_torsion (pt19 0 0 3) = false.
Proof. exact c34_ex. Qed.

Example C35_ex : encode (pt19 12 2 2) true = Ret [3; 6] /\ encode (pt19 12 2 2) false = Ret [4; 6; 1]
  /\ decode E19 [3; 6] = Ret (Ok (pt19 6 1 1)) /\ byte_size 19 1
  /\ decode E19 [4; 19; 1] = Ret (Err "Invalid x coordinate").
Proof. exact c35_ex. Qed.

Theorem C35_identity_round_trip_refuted : exists e P Q, mont e /\ mpoint e P Infinity
  /\ encode P true = Ret [2; 0] /\ decode e [2; 0] = Ret (Ok Q) /\ pt_eqb P Q = Ret false.
Proof. exact c35_identity_round_trip_refuted. Qed.
Print Assumptions C35_identity_round_trip_refuted.

Theorem C35_unique_encodings_refuted : exists e b1 b2 Q, mont e /\ b1 <> b2 /\ length b1 = length b2
  /\ decode e b1 = Ret (Ok Q) /\ decode e b2 = Ret (Ok Q).
Proof. exact c35_unique_encodings_refuted. Qed.
Print Assumptions C35_unique_encodings_refuted.

Theorem C35_encode_injective_refuted : exists e P Q c, mont e /\ mpoint e P Infinity /\ mpoint e Q (Affine 0 0)
  /\ encode P c = encode Q c.
Proof. exact c35_encode_injective_refuted. Qed.
Print Assumptions C35_encode_injective_refuted.

Theorem C35_decode_never_panics_refuted : exists e b1 b2 b3 m1 m2 m3, mont e
  /\ Forall is_byte b1 /\ Forall is_byte b2 /\ Forall is_byte b3
  /\ b1 = [0] /\ decode e b1 = Panic m1
  /\ b2 = [4; 7; 1] /\ decode e b2 = Panic m2
  /\ b3 = [2; 1] /\ decode e b3 = Panic m3.
Proof. exact c35_decode_never_panics_refuted. Qed.
Print Assumptions C35_decode_never_panics_refuted.

Example C27_mont_ex : mpoint E19 (pt19 0 3 0) Infinity /\ pt_is_zero (pt19 0 3 0) = true /\ pt_is_zero (pt19 0 0 3) = false.
Proof. exact c27_mont_ex. Qed.

Example C31_mont_ex : normalize (pt19 12 2 2) = Ret (pt19 6 1 1) /\ normalize (pt19 0 3 0) = Ret (pt19 0 0 1).
Proof. exact c31_mont_ex. Qed.

Example C32_mont_ex : pt_eqb (pt19 12 2 2) (pt19 6 1 1) = Ret true /\ pt_eqb (pt19 12 2 2) (pt19 7 6 1) = Ret false.
Proof. exact c32_mont_ex. Qed.

Example C49_mont_ex : pt_add (pt19 7 6 1) (mkPoint (mkCurve (mkFp 19) (n19 6) (n19 1) (n19 5) 7 (n19 7) (n19 6) 4) (pc (pt19 7 6 1)))
    = Panic "points of different curves"
  /\ pt_mul true (pt19 7 6 1) (mkScalar 3 13) = Panic "Scalar don't match with point".
Proof. exact c49_mont_ex. Qed.
