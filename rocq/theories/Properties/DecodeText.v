(** Why decode fails: C72. *)

From Coq Require Import ZArith Znumtheory Lia String Bool List.
From Verif.Math Require Import Fld Zp Residue ECGroup.
From Verif.Spec Require Import Arith Curve WPoints MPoints EPoints DecodeText.
From Verif.Model Require Import Out BigInt PrimeField Scalar.
From Verif.Model Require WCurve MCurve ECurve.
From Verif.Proofs Require Import BytesP FieldP FieldProps CurveP SmallP.
From Verif.Proofs Require SerialProps WeierP MontP EdwP WeierProps MontProps EdwProps.
Import ListNotations.
Open Scope Z_scope.
From Verif.Proofs Require Import DecodeTextProps.

(** the text of the error, on every curve over a prime field and every list of numbers *)
Theorem C72_weier_error : forall e buf n m, prime (modulus (WCurve.c_f e)) -> byte_size (modulus (WCurve.c_f e)) n ->
  (WCurve.decode e buf = Ret (Err m) <-> sec1_error (modulus (WCurve.c_f e)) n buf m).
Proof. exact c72_weier_error. Qed.
Print Assumptions C72_weier_error.

Theorem C72_mont_error : forall e buf n m, prime (modulus (MCurve.c_f e)) -> byte_size (modulus (MCurve.c_f e)) n ->
  (MCurve.decode e buf = Ret (Err m) <-> sec1_error (modulus (MCurve.c_f e)) n buf m).
Proof. exact c72_mont_error. Qed.
Print Assumptions C72_mont_error.

(** the text of the panic *)
Theorem C72_weier_panic : forall e buf n m, weier e -> sqrt_modulus (modulus (WCurve.c_f e)) -> Forall is_byte buf ->
  byte_size (modulus (WCurve.c_f e)) n ->
  (WCurve.decode e buf = Panic m <-> sec1_panic (modulus (WCurve.c_f e)) n (fun x y => won e (Affine x y)) buf m).
Proof. exact c72_weier_panic. Qed.
Print Assumptions C72_weier_panic.

Theorem C72_mont_panic : forall e buf n m, mont e -> sqrt_modulus (modulus (MCurve.c_f e)) -> Forall is_byte buf ->
  byte_size (modulus (MCurve.c_f e)) n ->
  (MCurve.decode e buf = Panic m <-> sec1_panic (modulus (MCurve.c_f e)) n (fun x y => mon e (Affine x y)) buf m).
Proof. exact c72_mont_panic. Qed.
Print Assumptions C72_mont_panic.

Theorem C72_edw_error : forall e buf n m, edw e -> sqrt_modulus (modulus (ECurve.c_f e)) -> Forall is_byte buf ->
  ed_size (modulus (ECurve.c_f e)) n ->
  (ECurve.decode e buf = Ret (Err m) <-> ed_error (modulus (ECurve.c_f e)) n buf m).
Proof. exact c72_edw_error. Qed.
Print Assumptions C72_edw_error.

(** every panic of the Edwards decoder (its inputs are in C39) comes from the check of the new point *)
Theorem C72_edw_panic : forall e buf m, edw e -> sqrt_modulus (modulus (ECurve.c_f e)) -> Forall is_byte buf ->
  ECurve.decode e buf = Panic m -> m = "not valid point"%string.
Proof. exact c72_edw_panic. Qed.
Print Assumptions C72_edw_panic.

(** the small curves modulo 7, 19 and 29: every kind of refusal *)
Example C72_ex :
  byte_size 19 1 /\ ed_size 29 1
  /\ map (MCurve.decode MontProps.E19) [[]; [4; 20; 1]; [0; 7]; [4; 7]; [2; 7; 6]; [4; 7; 19]; [5; 7]] =
     map (fun m => Ret (Err m)) ["Wrong input buffer size."; "Invalid x coordinate"; "Point at infinity should just be a single zero byte";
       "Invalid bytes for deserialization"; "Invalid bytes for deserialization"; "Invalid y coordinate"; "Invalid tag specified"]%string
  /\ map (MCurve.decode MontProps.E19) [[0]; [4; 7; 5]; [2; 1]] =
     map Panic ["range end index out of range for slice"; "not valid point"; "not valid point"]%string
  /\ map (WCurve.decode WeierProps.E7) [[]; [4; 8; 1]; [0; 6]; [4; 6]; [3; 6; 6]; [4; 6; 7]; [5; 6]] =
     map (fun m => Ret (Err m)) ["Wrong input buffer size."; "Invalid x coordinate"; "Point at infinity should just be a single zero byte";
       "Invalid bytes for deserialization"; "Invalid bytes for deserialization"; "Invalid y coordinate"; "Invalid tag specified"]%string
  /\ map (ECurve.decode EdwProps.E29) [[1; 1]; [29]; [129]] =
     map (fun m => Ret (Err m)) ["Wrong input buffer size."; "Invalid y value chosen"; "Failed decoding on square root"]%string
  /\ ECurve.decode EdwProps.E29 [2] = Panic "not valid point".
Proof. exact c72_ex. Qed.
