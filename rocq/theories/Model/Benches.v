(** The programs the repository ships beside the library: the two benchmarks, the example and the example in the crate's
    documentation. Criterion calls the closure given to [b.iter] as often as it likes; the closures own their variables, so each
    benchmark is a loop over its own state, run here [n] times. Criterion itself (timing, reports) is not modelled. println! is
    modelled by the text of the line, without the final newline. *)
From Coq Require Import ZArith String List.
From Verif.Model Require Import Out BigInt PrimeField Scalar OpForms Display CurveExtras Instances.
From Verif.Model Require WCurve MCurve.
Import ListNotations.
Open Scope string_scope.
Open Scope Z_scope.
Open Scope out_scope.

(** b.iter(|| x = step(x)), the closure called n times *)
Fixpoint b_iter {A : Type} (step : A -> out A) (n : nat) (x : A) : out A :=
  match n with
  | O => Ret x
  | S n => y <- step x ;; b_iter step n y
  end.

(** benches/curve.rs:10 and benches/field.rs:8 *)
Definition bench_curves : list (out WCurve.Curve) := [P256; P384; P521].

(** benches/field.rs:9-11, 14, 18: x0 = &x0 + &y0 *)
Definition bench_fp_add (id : out WCurve.Curve) (n : nat) : out FpElt :=
  ec <- id ;; let f := w_get_field ec in
  x0 <- from_int f (-1) ;; y0 <- from_int f 15 ;;
  b_iter (fun x0 => add x0 y0) n x0.
(** benches/field.rs:9-10, 12, 15, 19: x1 = &x1 * &y1 *)
Definition bench_fp_mul (id : out WCurve.Curve) (n : nat) : out FpElt :=
  ec <- id ;; let f := w_get_field ec in
  x1 <- from_int f (-1) ;; y1 <- from_int f 15 ;;
  b_iter (fun x1 => mul x1 y1) n x1.
(** benches/field.rs:9-10, 13, 20: x2 = 1u32 / &x2 *)
Definition bench_fp_inv (id : out WCurve.Curve) (n : nat) : out FpElt :=
  ec <- id ;; let f := w_get_field ec in
  x2 <- from_int f (-1) ;;
  b_iter (fun x2 => u32_div 1 x2) n x2.

(** benches/curve.rs:11-12, 17: g0 = &g0 + &g0 *)
Definition bench_ec_add (id : out WCurve.Curve) (n : nat) : out WCurve.Point :=
  ec <- id ;; g0 <- WCurve.get_generator ec ;;
  b_iter (fun g0 => WCurve.pt_add g0 g0) n g0.
(** benches/curve.rs:11-14, 18: g1 = &k * &g1; oc: the build checks for overflow (cargo bench does not, cargo test --benches does) *)
Definition bench_ec_mul (oc : bool) (id : out WCurve.Curve) (n : nat) : out WCurve.Point :=
  ec <- id ;; g0 <- WCurve.get_generator ec ;; let g1 := g0 in
  k <- WCurve.new_scalar ec (-1) ;;
  b_iter (fun g1 => w_scalar_mul LRefRef oc k g1) n g1.

(** src/lib.rs:54-61: CARGO_PKG_VERSION is the version in Cargo.toml:3 *)
Definition version : string := "0.2.3".

(** examples/call01.rs:9-12, 13-16 *)
Definition print_w (id : out WCurve.Curve) : out string :=
  ec <- id ;; g0 <- WCurve.get_generator ec ;; g1 <- WCurve.get_generator ec ;;
  s <- WCurve.pt_add g0 g1 ;; t <- wpoint_show s ;; Ret ("G: " ++ t ++ " ").
(** examples/call01.rs:17-20 *)
Definition print_m (id : out MCurve.Curve) : out string :=
  ec <- id ;; g0 <- MCurve.get_generator ec ;; g1 <- MCurve.get_generator ec ;;
  s <- MCurve.pt_add g0 g1 ;; t <- mpoint_show s ;; Ret ("G: " ++ t ++ " ").
(** examples/call01.rs:6-21 *)
Definition call01 : out (list string) :=
  a <- print_w P256 ;; b <- print_w P384 ;; c <- print_m CURVE25519 ;;
  Ret [version; "Example!"; a; b; c].

(** src/lib.rs:16-19 *)
Definition doc_w (id : out WCurve.Curve) : out string :=
  ec <- id ;; g0 <- WCurve.get_generator ec ;; g1 <- WCurve.get_generator ec ;;
  s <- WCurve.pt_add g0 g1 ;; c <- wcurve_show ec ;; t <- wpoint_show s ;; Ret (c ++ NL ++ "2G: " ++ t ++ " ").
(** src/lib.rs:21-24 *)
Definition doc_m (id : out MCurve.Curve) : out string :=
  ec <- id ;; g0 <- MCurve.get_generator ec ;; g1 <- MCurve.get_generator ec ;;
  s <- MCurve.pt_add g0 g1 ;; c <- mcurve_show ec ;; t <- mpoint_show s ;; Ret (c ++ NL ++ "2G: " ++ t ++ " ").
(** src/lib.rs:12-25 *)
Definition doc_example : out (list string) :=
  a <- doc_w P256 ;; b <- doc_m CURVE25519 ;; Ret [a; b].
