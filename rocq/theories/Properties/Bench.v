(** C74: the programs shipped beside the library: the benchmark loops for any number of rounds, the example and the documentation's example. *)

From Coq Require Import ZArith Znumtheory Zpow_facts Lia String Ascii Bool List.
From Verif.Math Require Import Fld Zp RCB.
From Verif.Spec Require Import Arith Curve Elements Text.
From Verif.Spec Require Instances.
From Verif.Model Require Import Out BigInt PrimeField Scalar OpForms Display CurveExtras Benches.
From Verif.Model Require Instances.
From Verif.Model Require WCurve MCurve.
From Verif.Proofs Require Import FieldP FieldProps ScalarProps CurveP WeierP.
From Verif.Proofs Require WeierProps MontProps InstProps LawProps DisplayProps TextP.
From Verif.Spec Require Export Shipped Benches.
Import Spec.Instances Model.Instances.
From Verif.Math Require Import ECGroup.
Import ListNotations.
Open Scope Z_scope.
Local Open Scope out_scope.
From Verif.Proofs Require Import BenchProps.

(** benches/field.rs *)
Theorem C74_field_bench : Forall fp_bench_runs bench_curves.
Proof. exact c74_field_bench. Qed.
Print Assumptions C74_field_bench.

(** benches/curve.rs, in both build profiles *)
Theorem C74_curve_bench : ec_bench_runs P256 std_P256 /\ ec_bench_runs P384 std_P384 /\ ec_bench_runs P521 std_P521.
Proof. exact c74_curve_bench. Qed.
Print Assumptions C74_curve_bench.

(** examples/call01.rs runs to its end and prints the version, a line of text and the doubles of three base points *)
Theorem C74_example : exists t u v A B C, call01 = Ret ["0.2.3"; "Example!"; "G: " ++ t ++ " "; "G: " ++ u ++ " "; "G: " ++ v ++ " "]%string
  /\ w_double std_P256 A /\ point_text (w_p std_P256) A t
  /\ w_double std_P384 B /\ point_text (w_p std_P384) B u
  /\ m_double std_CURVE25519 C /\ point_text (m_p std_CURVE25519) C v.
Proof. exact c74_example. Qed.
Print Assumptions C74_example.

(** and so does the example in the documentation, which prints the curves too *)
Theorem C74_documentation : exists a b t a' b' t' A A', doc_example = Ret
    ["Weierstrass Curve y^2=x^3+ax+b" ++ NL ++ "a: " ++ a ++ NL ++ "b: " ++ b ++ NL ++ "2G: " ++ t ++ " ";
     "Montgomery Curve by^2=x^3+ax^2+x" ++ NL ++ "a: " ++ a' ++ NL ++ "b: " ++ b' ++ NL ++ "2G: " ++ t' ++ " "]%string
  /\ decimal a (w_a std_P256 mod w_p std_P256) /\ decimal b (w_b std_P256 mod w_p std_P256) /\ w_double std_P256 A /\ point_text (w_p std_P256) A t
  /\ decimal a' (m_a std_CURVE25519 mod m_p std_CURVE25519) /\ decimal b' 1 /\ m_double std_CURVE25519 A' /\ point_text (m_p std_CURVE25519) A' t'.
Proof. exact c74_documentation. Qed.
Print Assumptions C74_documentation.

(** the same loops on y^2 = x^3 + x + 6 modulo 7, whose base point (1,1) has order 11: 2^5 = -1 modulo 11, so five doublings give -G,
    as do three multiplications by -1; and -1 + 15 * 3 = 2, -(15^3) = 6 modulo 7. On P-256 the second round gives 29 *)
Example C74_ex :
  (P <- bench_ec_add (Ret WeierProps.E7) 5 ;; WCurve.pt_eqb P (WeierProps.pt7 1 6 1)) = Ret true
  /\ (P <- bench_ec_mul true (Ret WeierProps.E7) 3 ;; WCurve.pt_eqb P (WeierProps.pt7 1 6 1)) = Ret true
  /\ (P <- bench_ec_mul true (Ret WeierProps.E7) 4 ;; WCurve.pt_eqb P (WeierProps.pt7 1 1 1)) = Ret true
  /\ (x <- bench_fp_add (Ret WeierProps.E7) 3 ;; Ret (val x)) = Ret 2
  /\ (x <- bench_fp_mul (Ret WeierProps.E7) 3 ;; Ret (val x)) = Ret 6
  /\ (x <- bench_fp_inv (Ret WeierProps.E7) 3 ;; Ret (val x)) = Ret 6
  /\ (x <- bench_fp_add P256 2 ;; Ret (val x)) = Ret 29.
Proof. exact c74_ex. Qed.
