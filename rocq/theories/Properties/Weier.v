(** Weierstrass curves: C23-C32, C49. *)

From Coq Require Import ZArith Znumtheory Lia String Bool List Ring Field.
From Verif.Math Require Import Fld Zp Residue ECGroup RCB.
From Verif.Spec Require Import Arith Curve.
From Verif.Model Require Import Out BigInt PrimeField Scalar WCurve.
From Verif.Proofs Require Import FieldP FieldProps BytesP SerialProps ScalarProps CurveP LadderP WeierP.
From Verif.Spec Require Export WPoints.
Import ListNotations.
Open Scope Z_scope.
From Verif.Proofs Require Import WeierProps.

(** new_point accepts exactly the points of the curve, and panics on all others *)
Theorem C23_new_point : forall e x y, weier e -> valid (modulus (c_f e)) x -> valid (modulus (c_f e)) y ->
  (won e (Affine (val x) (val y)) -> exists P, new_point e x y = Ret P /\ wpoint e P (Affine (val x) (val y)))
  /\ (~ won e (Affine (val x) (val y)) -> new_point e x y = Panic "not valid point").
Proof. exact c23_new_point. Qed.
Print Assumptions C23_new_point.

Theorem C24_addition : forall e P Q A B, weier e -> wpoint e P A -> wpoint e Q B ->
  exists R, pt_add P Q = Ret R /\ forall C, wpoint e R C <-> wsum e A B C.
Proof. exact c24_addition. Qed.
Print Assumptions C24_addition.

Theorem C24_negation : forall e P A, weier e -> wpoint e P A ->
  exists R, pt_neg P = Ret R /\ forall C, wpoint e R C <-> C = negative (modulus (c_f e)) A.
Proof. exact c24_negation. Qed.
Print Assumptions C24_negation.

Theorem C24_subtraction : forall e P Q A B, weier e -> wpoint e P A -> wpoint e Q B ->
  exists R, pt_sub P Q = Ret R /\ forall C, wpoint e R C <-> wsum e A (negative (modulus (c_f e)) B) C.
Proof. exact c24_subtraction. Qed.
Print Assumptions C24_subtraction.

Theorem C25_associative : forall e P Q R A B C, weier e -> wpoint e P A -> wpoint e Q B -> wpoint e R C ->
  same (bind (pt_add P Q) (fun S => pt_add S R)) (bind (pt_add Q R) (fun S => pt_add P S)).
Proof. exact c25_associative. Qed.
Print Assumptions C25_associative.

Theorem C25_commutative : forall e P Q A B, weier e -> wpoint e P A -> wpoint e Q B ->
  same (pt_add P Q) (pt_add Q P).
Proof. exact c25_commutative. Qed.
Print Assumptions C25_commutative.

Theorem C25_identity_and_inverse : forall e P A, weier e -> wpoint e P A ->
  same (bind (identity e) (fun O => pt_add P O)) (Ret P) /\ same (bind (identity e) (fun O => pt_add O P)) (Ret P)
  /\ same (bind (pt_neg P) (fun N => pt_add P N)) (identity e) /\ same (pt_sub P P) (identity e).
Proof. exact c25_identity_and_inverse. Qed.
Print Assumptions C25_identity_and_inverse.

Theorem C25_equality_is_congruence : forall e P P' Q Q' A A' B B', weier e ->
  wpoint e P A -> wpoint e P' A' -> wpoint e Q B -> wpoint e Q' B' ->
  pt_eqb P P' = Ret true -> pt_eqb Q Q' = Ret true ->
  same (pt_add P Q) (pt_add P' Q') /\ same (pt_sub P Q) (pt_sub P' Q') /\ same (pt_neg P) (pt_neg P').
Proof. exact c25_equality_is_congruence. Qed.
Print Assumptions C25_equality_is_congruence.

(** k * P is the k-fold sum of P *)
Theorem C26_scalar_multiplication : forall oc e P A k, weier e -> wpoint e P A -> valid_scalar (c_r e) k ->
  Z.log2 (c_r e) < 2 ^ 63 -> (oc = true -> sk k <> 0) ->
  exists R, pt_mul oc P k = Ret R /\ forall C, wpoint e R C <-> multiple (wsum e) Infinity A (Z.to_nat (sk k)) C.
Proof. exact c26_scalar_multiplication. Qed.
Print Assumptions C26_scalar_multiplication.

(** with overflow checks the zero scalar panics instead of giving the identity *)
Theorem C26_zero_scalar_panics : forall e P A, weier e -> wpoint e P A ->
  pt_mul true P (mkScalar 0 (c_r e)) = Panic "attempt to subtract with overflow".
Proof. exact c26_zero_scalar_panics. Qed.
Print Assumptions C26_zero_scalar_panics.

(** on points killed by r, scalar multiplication is a homomorphism from the scalars modulo r *)
Theorem C26_homomorphism : forall e P A k l, weier e -> wpoint e P A ->
  valid_scalar (c_r e) k -> valid_scalar (c_r e) l -> Z.log2 (c_r e) < 2 ^ 63 ->
  multiple (wsum e) Infinity A (Z.to_nat (c_r e)) Infinity ->
  same (bind (pt_mul false P k) (fun X => bind (pt_mul false P l) (fun Y => pt_add X Y)))
       (bind (sc_add k l) (fun m => pt_mul false P m))
  /\ same (bind (pt_mul false P k) (fun X => pt_mul false X l))
       (bind (sc_mul k l) (fun m => pt_mul false P m)).
Proof. exact c26_homomorphism. Qed.
Print Assumptions C26_homomorphism.

Theorem C27_is_zero : forall e P A, weier e -> wpoint e P A ->
  exists I, identity e = Ret I /\ wpoint e I Infinity
    /\ (pt_is_zero P = true <-> A = Infinity) /\ (pt_is_zero P = true <-> pt_eqb P I = Ret true).
Proof. exact c27_is_zero. Qed.
Print Assumptions C27_is_zero.

Theorem C32_equality : forall e P Q A B, weier e -> wpoint e P A -> wpoint e Q B ->
  exists t, pt_eqb P Q = Ret t /\ (t = true <-> A = B).
Proof. exact c32_equality. Qed.
Print Assumptions C32_equality.

(** a point represents one affine point, and every point of the curve is represented *)
Theorem C32_representation : forall e, weier e ->
  (forall P A B, wpoint e P A -> wpoint e P B -> A = B)
  /\ (forall A, won e A -> exists P, wpoint e P A).
Proof. exact c32_representation. Qed.
Print Assumptions C32_representation.

Theorem C31_normalize : forall e P x y, weier e -> wpoint e P (Affine x y) ->
  exists R, normalize P = Ret R /\ wpoint e R (Affine x y)
    /\ val (px (pc R)) = x /\ val (py (pc R)) = y /\ val (pz (pc R)) = 1.
Proof. exact c31_normalize. Qed.
Print Assumptions C31_normalize.

(** the identity, however, becomes the triple (0,0,1), which is not a point of the curve, not zero
    and not equal to the identity *)
Theorem C31_normalize_identity_breaks : forall e P, weier e -> wpoint e P Infinity ->
  exists R, normalize P = Ret R /\ val (px (pc R)) = 0 /\ val (py (pc R)) = 0 /\ val (pz (pc R)) = 1
    /\ is_on_curve e (pc R) = Ret false /\ pt_is_zero R = false /\ pt_eqb R P = Ret false.
Proof. exact c31_normalize_identity_breaks. Qed.
Print Assumptions C31_normalize_identity_breaks.

Theorem C28_encode : forall e P x y c n, weier e -> wpoint e P (Affine x y) -> byte_size (modulus (c_f e)) n ->
  exists buf, encode P c = Ret buf /\ sec1 n x y c buf.
Proof. exact c28_encode. Qed.
Print Assumptions C28_encode.

Theorem C28_round_trip : forall e P x y c, weier e -> sqrt_modulus (modulus (c_f e)) -> wpoint e P (Affine x y) ->
  exists buf Q, encode P c = Ret buf /\ decode e buf = Ret (Ok Q) /\ wpoint e Q (Affine x y) /\ pt_eqb Q P = Ret true.
Proof. exact c28_round_trip. Qed.
Print Assumptions C28_round_trip.

(** the identity is not encoded as the single byte 0 but as the coordinates (0,0) of no curve point;
    decoding that panics (uncompressed) or, when b is a square, returns another point (compressed) *)
Theorem C28_encode_identity_breaks : forall e P c n, weier e -> sqrt_modulus (modulus (c_f e)) ->
  wpoint e P Infinity -> byte_size (modulus (c_f e)) n ->
  exists buf, encode P c = Ret buf
    /\ buf = (if c then 2 :: repeat 0 (Z.to_nat n) else 4 :: repeat 0 (2 * Z.to_nat n))
    /\ buf <> [0]
    /\ ((exists m, decode e buf = Panic m) \/ (exists Q, c = true /\ decode e buf = Ret (Ok Q) /\ pt_eqb Q P = Ret false)).
Proof. exact c28_encode_identity_breaks. Qed.
Print Assumptions C28_encode_identity_breaks.

(** decode answers Ok exactly on the SEC1 encodings (either mode) of the affine points of the curve *)
Theorem C29_decode_ok : forall e buf n, weier e -> sqrt_modulus (modulus (c_f e)) -> Forall is_byte buf ->
  byte_size (modulus (c_f e)) n ->
  (forall Q, decode e buf = Ret (Ok Q) -> exists c x y, sec1 n x y c buf /\ won e (Affine x y) /\ wpoint e Q (Affine x y))
  /\ (forall c x y, sec1 n x y c buf -> won e (Affine x y) -> exists Q, decode e buf = Ret (Ok Q) /\ wpoint e Q (Affine x y)).
Proof. exact c29_decode_ok. Qed.
Print Assumptions C29_decode_ok.

(** Err exactly on the texts of length other than 1 that are no encoding of a pair of residues *)
Theorem C29_decode_err : forall e buf n, weier e -> sqrt_modulus (modulus (c_f e)) -> Forall is_byte buf ->
  byte_size (modulus (c_f e)) n ->
  ((exists m, decode e buf = Ret (Err m)) <->
   length buf <> 1%nat /\ ~ exists c x y, coord (modulus (c_f e)) x /\ coord (modulus (c_f e)) y /\ sec1 n x y c buf).
Proof. exact c29_decode_err. Qed.
Print Assumptions C29_decode_err.

(** panic on every text of length 1 and on every well-formed encoding of no point of the curve *)
Theorem C29_decode_panics : forall e buf n, weier e -> sqrt_modulus (modulus (c_f e)) -> Forall is_byte buf ->
  byte_size (modulus (c_f e)) n ->
  ((exists m, decode e buf = Panic m) <->
   length buf = 1%nat \/
   ((exists c x y, coord (modulus (c_f e)) x /\ coord (modulus (c_f e)) y /\ sec1 n x y c buf)
    /\ ~ exists c x y, sec1 n x y c buf /\ won e (Affine x y))).
Proof. exact c29_decode_panics. Qed.
Print Assumptions C29_decode_panics.

(** an accepted text is the encoding of the decoded point in its own mode *)
Theorem C30_decode_encode : forall e buf Q n, weier e -> sqrt_modulus (modulus (c_f e)) -> Forall is_byte buf ->
  byte_size (modulus (c_f e)) n -> decode e buf = Ret (Ok Q) ->
  encode Q (Z.of_nat (length buf) =? n + 1) = Ret buf.
Proof. exact c30_decode_encode. Qed.
Print Assumptions C30_decode_encode.

Theorem C30_unique_encodings : forall e b1 b2 Q1 Q2, weier e -> sqrt_modulus (modulus (c_f e)) ->
  Forall is_byte b1 -> Forall is_byte b2 -> decode e b1 = Ret (Ok Q1) -> decode e b2 = Ret (Ok Q2) ->
  length b1 = length b2 -> pt_eqb Q1 Q2 = Ret true -> b1 = b2.
Proof. exact c30_unique_encodings. Qed.
Print Assumptions C30_unique_encodings.

(** whatever a history of operations returns is the point that the history means *)
Theorem C23_history_sound : forall oc e t P, wgroup e -> term_bytes t -> run oc e t = Ret P ->
  exists A, wmeans oc e t A /\ wpoint e P A.
Proof. exact c23_history_sound. Qed.
Print Assumptions C23_history_sound.

(** and a history that means a point never panics *)
Theorem C23_history_complete : forall oc e t A, wgroup e -> term_bytes t -> wmeans oc e t A ->
  exists P, run oc e t = Ret P /\ wpoint e P A.
Proof. exact c23_history_complete. Qed.
Print Assumptions C23_history_complete.

Example C23_ex : wgroup E7
  /\ run true E7 (TMul (TAdd TGenerator (TDecode [3; 2])) (-4)) = Ret (pt7 2 6 4)
  /\ run true E7 (TNew 8 2) = Panic "not valid point".
Proof. exact c23_ex. Qed.

Example C24_ex : weier E7 /\ wpoint E7 (pt7 1 1 1) (Affine 1 1) /\ wpoint E7 (pt7 4 6 2) (Affine 2 3)
  /\ pt_add (pt7 1 1 1) (pt7 4 6 2) = Ret (pt7 6 1 6) /\ pt_add (pt7 1 1 1) (pt7 1 1 1) = Ret (pt7 2 4 1)
  /\ pt_add (pt7 1 1 1) (pt7 1 6 1) = Ret (pt7 0 4 0).
Proof. exact c24_ex. Qed.

(** without the hypothesis on points of order 2 the formulas are not complete: on y^2 = x^3 + x + 3
    modulo 7 the sum of (4,1) and (6,1), whose difference has order 2, is the forbidden (0,0,0) *)
Theorem C24_complete_for_all_curves_refuted : exists e P Q R,
  prime (modulus (c_f e)) /\ valid 7 (c_a e) /\ valid 7 (c_b e) /\ wpoint e P (Affine 4 1) /\ wpoint e Q (Affine 6 1)
  /\ pt_add P Q = Ret R /\ pc R = mkProy (n7 0) (n7 0) (n7 0) /\ forall A, ~ wpoint e R A.
Proof. exact c24_complete_for_all_curves_refuted. Qed.
Print Assumptions C24_complete_for_all_curves_refuted.

Example C25_ex : same (bind (pt_add (pt7 1 1 1) (pt7 4 6 2)) (fun S => pt_add S (pt7 1 1 1)))
    (bind (pt_add (pt7 4 6 2) (pt7 1 1 1)) (fun S => pt_add (pt7 1 1 1) S)).
Proof. exact c25_ex. Qed.

Example C26_ex : wpoint E7 (pt7 1 1 1) (Affine 1 1) /\ valid_scalar (c_r E7) (mkScalar 7 11)
  /\ pt_mul true (pt7 1 1 1) (mkScalar 7 11) = Ret (pt7 3 5 6)
  /\ pt_mul false (pt7 1 1 1) (mkScalar 0 11) = Ret (pt7 0 1 0)
  /\ (exists R, pt_mul true (pt7 1 1 1) (mkScalar 10 11) = Ret R /\ pt_eqb R (pt7 1 6 1) = Ret true)
  /\ multiple (wsum E7) Infinity (Affine 1 1) (Z.to_nat (c_r E7)) Infinity.
Proof. exact c26_ex. Qed.

Example C27_ex : wpoint E7 (pt7 0 3 0) Infinity /\ pt_is_zero (pt7 0 3 0) = true /\ pt_is_zero (pt7 4 6 2) = false.
Proof. exact c27_ex. Qed.

Example C28_ex : encode (pt7 4 6 2) true = Ret [3; 2] /\ encode (pt7 4 6 2) false = Ret [4; 2; 3]
  /\ decode E7 [3; 2] = Ret (Ok (pt7 2 3 1)) /\ byte_size 7 1.
Proof. exact c28_ex. Qed.

Theorem C28_identity_round_trip_refuted : exists e P m, weier e /\ wpoint e P Infinity
  /\ encode P false = Ret [4; 0; 0] /\ decode e [4; 0; 0] = Panic m.
Proof. exact c28_identity_round_trip_refuted. Qed.
Print Assumptions C28_identity_round_trip_refuted.

Example C29_ex : Forall is_byte [4; 2; 3] /\ decode E7 [4; 2; 3] = Ret (Ok (pt7 2 3 1))
  /\ decode E7 [4; 7; 3] = Ret (Err "Invalid x coordinate") /\ decode E7 [5; 2] = Ret (Err "Invalid tag specified")
  /\ decode E7 [] = Ret (Err "Wrong input buffer size.").
Proof. exact c29_ex. Qed.

Theorem C29_decode_never_panics_refuted : exists e b1 b2 b3 m1 m2 m3, weier e
  /\ Forall is_byte b1 /\ Forall is_byte b2 /\ Forall is_byte b3
  /\ b1 = [0] /\ decode e b1 = Panic m1
  /\ b2 = [4; 2; 1] /\ decode e b2 = Panic m2
  /\ b3 = [2; 0] /\ decode e b3 = Panic m3.
Proof. exact c29_decode_never_panics_refuted. Qed.
Print Assumptions C29_decode_never_panics_refuted.

Example C30_ex : decode E7 [2; 2] = Ret (Ok (pt7 2 4 1)) /\ encode (pt7 2 4 1) true = Ret [2; 2].
Proof. exact c30_ex. Qed.

Example C31_ex : normalize (pt7 4 6 2) = Ret (pt7 2 3 1).
Proof. exact c31_ex. Qed.

Theorem C31_normalize_keeps_point_refuted : exists e P R, weier e /\ wpoint e P Infinity /\ normalize P = Ret R
  /\ pt_is_zero R = false /\ pt_eqb R P = Ret false.
Proof. exact c31_normalize_keeps_point_refuted. Qed.
Print Assumptions C31_normalize_keeps_point_refuted.

Example C32_ex : pt_eqb (pt7 4 6 2) (pt7 2 3 1) = Ret true /\ pt_eqb (pt7 4 6 2) (pt7 1 1 1) = Ret false.
Proof. exact c32_ex. Qed.

(** the triple (0,0,0) passes the curve test and is equal to every point: the equality above holds only
    because no operation produces it (C23, C24) *)
Theorem C32_zero_triple : forall e P A, weier e -> wpoint e P A ->
  let O := mkPoint e (mkProy (mkFpElt 0 (c_f e)) (mkFpElt 0 (c_f e)) (mkFpElt 0 (c_f e))) in
  is_on_curve e (pc O) = Ret true /\ pt_eqb O P = Ret true /\ pt_eqb P O = Ret true /\ (forall B, ~ wpoint e O B).
Proof. exact c32_zero_triple. Qed.
Print Assumptions C32_zero_triple.

Theorem C49_different_curves : forall P Q, pe P <> pe Q -> pt_add P Q = Panic "points of different curves".
Proof. exact c49_different_curves. Qed.
Print Assumptions C49_different_curves.

Theorem C49_different_orders : forall oc P k, sr k <> c_r (pe P) -> pt_mul oc P k = Panic "Scalar don't match with point".
Proof. exact c49_different_orders. Qed.
Print Assumptions C49_different_orders.

(** comparing points of different curves is false over one field, but panics over different fields *)
Theorem C49_equality_across_curves : forall e1 e2 P Q A B, weier e1 -> weier e2 -> e1 <> e2 -> wpoint e1 P A -> wpoint e2 Q B ->
  (modulus (c_f e1) = modulus (c_f e2) -> pt_eqb P Q = Ret false)
  /\ (modulus (c_f e1) <> modulus (c_f e2) -> pt_eqb P Q = Panic "elements of different fields").
Proof. exact c49_equality_across_curves. Qed.
Print Assumptions C49_equality_across_curves.

(** mixing fields when making a point panics too *)
Theorem C49_new_point_wrong_field : forall e x y, weier e -> fld x <> c_f e ->
  exists m, new_point e x y = Panic m.
Proof. exact c49_new_point_wrong_field. Qed.
Print Assumptions C49_new_point_wrong_field.

Example C49_ex : pt_add (pt7 1 1 1) (mkPoint (mkCurve (mkFp 7) (n7 1) (n7 6) 13 (n7 1) (n7 1) 1) (pc (pt7 1 1 1)))
    = Panic "points of different curves"
  /\ pt_mul true (pt7 1 1 1) (mkScalar 3 13) = Panic "Scalar don't match with point".
Proof. exact c49_ex. Qed.
