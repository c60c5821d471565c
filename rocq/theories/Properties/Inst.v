(** The shipped curves have the standard parameters, and those satisfy everything the general theorems ask for. *)

From Coq Require Import ZArith Znumtheory Lia String Ascii Bool List.
From Verif.Math Require Import Fld Zp.
From Verif.Math Require Import Prime_p25519 Prime_p256 Prime_p384 Prime_p448 Prime_p521 Prime_pbls Prime_psecp Prime_r25519 Prime_r256 Prime_r384 Prime_r448 Prime_r521 Prime_rbls Prime_rsecp.
From Verif.Spec Require Import Arith Curve Instances.
From Verif.Model Require Import Out BigInt PrimeField Instances.
From Verif.Model Require WCurve MCurve ECurve.
From Verif.Proofs Require Import FieldP FieldProps InstShip.
From Verif.Proofs Require Import Inst_P256 Inst_P384 Inst_P521 Inst_SECP256K1 Inst_SECP256K1_3ISO Inst_BLS12381G1 Inst_BLS12381G1_11ISO Inst_CURVE25519 Inst_CURVE448 Inst_EDWARDS25519 Inst_EDWARDS448.
From Verif.Proofs Require WeierProps MontProps EdwProps.
Import ListNotations.
Open Scope Z_scope.
Open Scope out_scope.
From Verif.Proofs Require Import InstProps.

Theorem C48_P256 : w_shipped P256 std_P256.
Proof. exact c48_P256. Qed.
Print Assumptions C48_P256.

Theorem C48_P384 : w_shipped P384 std_P384.
Proof. exact c48_P384. Qed.
Print Assumptions C48_P384.

Theorem C48_P521 : w_shipped P521 std_P521.
Proof. exact c48_P521. Qed.
Print Assumptions C48_P521.

Theorem C48_SECP256K1 : w_shipped SECP256K1 std_SECP256K1.
Proof. exact c48_SECP256K1. Qed.
Print Assumptions C48_SECP256K1.

Theorem C48_SECP256K1_3ISO : w_shipped SECP256K1_3ISO std_SECP256K1_3ISO.
Proof. exact c48_SECP256K1_3ISO. Qed.
Print Assumptions C48_SECP256K1_3ISO.

Theorem C48_BLS12381G1 : w_shipped BLS12381G1 std_BLS12381G1.
Proof. exact c48_BLS12381G1. Qed.
Print Assumptions C48_BLS12381G1.

Theorem C48_BLS12381G1_11ISO : w_shipped BLS12381G1_11ISO std_BLS12381G1_11ISO.
Proof. exact c48_BLS12381G1_11ISO. Qed.
Print Assumptions C48_BLS12381G1_11ISO.

Theorem C48_CURVE25519 : m_shipped CURVE25519 std_CURVE25519.
Proof. exact c48_CURVE25519. Qed.
Print Assumptions C48_CURVE25519.

Theorem C48_CURVE448 : m_shipped CURVE448 std_CURVE448.
Proof. exact c48_CURVE448. Qed.
Print Assumptions C48_CURVE448.

Theorem C48_EDWARDS25519 : e_shipped EDWARDS25519 std_EDWARDS25519.
Proof. exact c48_EDWARDS25519. Qed.
Print Assumptions C48_EDWARDS25519.

Theorem C48_EDWARDS448 : e_shipped EDWARDS448 std_EDWARDS448.
Proof. exact c48_EDWARDS448. Qed.
Print Assumptions C48_EDWARDS448.

Example C48_ex : (e <- P256 ;; G <- WCurve.get_generator e ;; D <- WCurve.core_doubling G ;; N <- WCurve.normalize D ;;
  Ret (val (WCurve.px (WCurve.pc N)), val (WCurve.py (WCurve.pc N)))) =
  Ret (0x7cf27b188d034f7e8a52380304b51ac3c08969e277f21b35a60b48fc47669978, 0x07775510db8ed040293d9ac69f7430dbba7dade63ce982299e04b79d227873d1).
Proof. exact c48_ex. Qed.
