(** Maps from field elements to curves: src/weierstrass/sswu.rs, src/weierstrass/svdw.rs,
    src/montgomery/elligator2.rs. *)
From Coq Require Import ZArith String Bool List.
From Verif.Model Require Import Out BigInt PrimeField.
From Verif.Model Require WCurve MCurve.
Import ListNotations.
Open Scope Z_scope.
Open Scope out_scope.

Definition ERR_PARAMS : string := "wrong input parameters".

(** *** sswu.rs *)
(** sswu.rs:9-15 *)
Record SSWU := mkSSWU {
  sw_e : WCurve.Curve; sw_c1 : FpElt; sw_c2 : FpElt; sw_z : FpElt }.

(** sswu.rs:27-36; every condition is evaluated before the conjunction *)
Definition sswu_verify (e : WCurve.Curve) (z : FpElt) : out bool :=
  let a := WCurve.c_a e in let b := WCurve.c_b e in
  let precond1 := negb (is_zero a) in
  let precond2 := negb (is_zero b) in
  sq <- is_square z ;; let cond1 := negb sq in
  m1 <- from_int (WCurve.c_f e) (-1) ;; let cond2 := negb (fpelt_eqb z m1) in
  za <- mul z a ;; iza <- u32_div 1 za ;; x <- mul b iza ;;
  xx <- sqr x ;; s <- add xx a ;; xs <- mul x s ;; gx <- add xs b ;;
  cond4 <- is_square gx ;;
  Ret (precond1 && precond2 && cond1 && cond2 && cond4).

(** sswu.rs:18-26 *)
Definition sswu_new (e : WCurve.Curve) (z : FpElt) : out SSWU :=
  ok <- sswu_verify e z ;;
  if negb ok then Panic ERR_PARAMS
  else (
    nb <- neg (WCurve.c_b e) ;; ia <- u32_div 1 (WCurve.c_a e) ;; c1 <- mul nb ia ;;
    iz <- u32_div 1 z ;; c2 <- neg iz ;;
    Ret (mkSSWU e c1 c2 z)).

(** sswu.rs:41-70 *)
Definition sswu_map (m : SSWU) (u : FpElt) : out WCurve.Point :=
  let e := sw_e m in let F := WCurve.c_f e in
  t1 <- sqr u ;;
  t1 <- mul (sw_z m) t1 ;;
  t2 <- sqr t1 ;;
  x1 <- add t1 t2 ;;
  x1 <- u32_div 1 x1 ;;
  let e1 := is_zero x1 in
  o <- one F ;; x1 <- add x1 o ;;
  let x1 := cmov x1 (sw_c2 m) e1 in
  x1 <- mul x1 (sw_c1 m) ;;
  gx1 <- sqr x1 ;;
  gx1 <- add gx1 (WCurve.c_a e) ;;
  gx1 <- mul gx1 x1 ;;
  gx1 <- add gx1 (WCurve.c_b e) ;;
  x2 <- mul t1 x1 ;;
  t2 <- mul t1 t2 ;;
  gx2 <- mul gx1 t2 ;;
  e2 <- is_square gx1 ;;
  let x := cmov x2 x1 e2 in
  let y2 := cmov gx2 gx1 e2 in
  y <- sqrt y2 ;;
  let e3 := sgn0 u =? sgn0 y in
  ny <- neg y ;; let y := cmov ny y e3 in
  WCurve.new_point e x y.

(** *** svdw.rs *)
(** svdw.rs:9-16 *)
Record SVDW := mkSVDW {
  sv_e : WCurve.Curve; sv_c1 : FpElt; sv_c2 : FpElt; sv_c3 : FpElt; sv_c4 : FpElt; sv_z : FpElt }.

(** svdw.rs:44-46 *)
Definition svdw_gx (e : WCurve.Curve) (x : FpElt) : out FpElt :=
  xx <- sqr x ;; s <- add xx (WCurve.c_a e) ;; xs <- mul x s ;; add xs (WCurve.c_b e).

(** svdw.rs:47-60 *)
Definition svdw_verify (e : WCurve.Curve) (z : FpElt) : out bool :=
  let F := WCurve.c_f e in
  f2 <- from_int F 2 ;; f3 <- from_int F 3 ;; f4 <- from_int F 4 ;;
  gz <- svdw_gx e z ;;
  nz <- neg z ;; i2 <- u32_div 1 f2 ;; nz2 <- mul nz i2 ;; gz2 <- svdw_gx e nz2 ;;
  zz <- sqr z ;; m3 <- mul f3 zz ;; m4 <- mul f4 (WCurve.c_a e) ;; s <- add m3 m4 ;; ns <- neg s ;;
  fg <- mul f4 gz ;; ifg <- u32_div 1 fg ;; t0 <- mul ns ifg ;;
  let cond1 := negb (is_zero gz) in
  let cond2 := negb (is_zero t0) in
  cond3 <- is_square t0 ;;
  cond4a <- is_square gz ;;
  cond4b <- is_square gz2 ;;
  Ret (cond1 && cond2 && cond3 && (cond4a || cond4b)).

(** svdw.rs:19-43 *)
Definition svdw_new (e : WCurve.Curve) (z : FpElt) : out SVDW :=
  ok <- svdw_verify e z ;;
  if negb ok then Panic ERR_PARAMS
  else (
    let F := WCurve.c_f e in
    f2 <- from_int F 2 ;; f3 <- from_int F 3 ;; f4 <- from_int F 4 ;;
    g <- svdw_gx e z ;; gz <- neg g ;;
    c1 <- neg gz ;;
    nz <- neg z ;; i2 <- u32_div 1 f2 ;; c2 <- mul nz i2 ;;
    zz <- sqr z ;; m3 <- mul f3 zz ;; m4 <- mul f4 (WCurve.c_a e) ;; t0 <- add m3 m4 ;;
    gt <- mul gz t0 ;; c3 <- sqrt gt ;;
    c3 <- (if sgn0 c3 =? -1 then neg c3 else Ret c3) ;;
    fg <- mul f4 gz ;; it <- u32_div 1 t0 ;; c4 <- mul fg it ;;
    Ret (mkSVDW e c1 c2 c3 c4 z)).

(** svdw.rs:65-107 *)
Definition svdw_map (m : SVDW) (u : FpElt) : out WCurve.Point :=
  let e := sv_e m in let F := WCurve.c_f e in
  let A := WCurve.c_a e in let B := WCurve.c_b e in
  t1 <- sqr u ;;
  t1 <- mul t1 (sv_c1 m) ;;
  o <- one F ;; t2 <- add o t1 ;;
  o <- one F ;; t1 <- sub o t1 ;;
  t3 <- mul t1 t2 ;;
  t3 <- u32_div 1 t3 ;;
  t4 <- mul u t1 ;;
  t4 <- mul t4 t3 ;;
  t4 <- mul t4 (sv_c3 m) ;;
  x1 <- sub (sv_c2 m) t4 ;;
  gx1 <- sqr x1 ;;
  gx1 <- add gx1 A ;;
  gx1 <- mul gx1 x1 ;;
  gx1 <- add gx1 B ;;
  e1 <- is_square gx1 ;;
  x2 <- add (sv_c2 m) t4 ;;
  gx2 <- sqr x2 ;;
  gx2 <- add gx2 A ;;
  gx2 <- mul gx2 x2 ;;
  gx2 <- add gx2 B ;;
  sq2 <- is_square gx2 ;; let e2 := sq2 && negb e1 in
  x3 <- sqr t2 ;;
  x3 <- mul x3 t3 ;;
  x3 <- sqr x3 ;;
  x3 <- mul x3 (sv_c4 m) ;;
  x3 <- add x3 (sv_z m) ;;
  let x := cmov x3 x1 e1 in
  let x := cmov x x2 e2 in
  gx <- sqr x ;;
  gx <- add gx A ;;
  gx <- mul gx x ;;
  gx <- add gx B ;;
  y <- sqrt gx ;;
  let e3 := sgn0 u =? sgn0 y in
  ny <- neg y ;; let y := cmov ny y e3 in
  WCurve.new_point e x y.

(** *** montgomery/elligator2.rs *)
(** elligator2.rs:9-14 *)
Record Ell2 := mkEll2 { el_e : MCurve.Curve; el_z : FpElt; el_ca : FpElt; el_cb : FpElt }.

(** elligator2.rs:17-31: [ca = a / (1/b)], [cb = (1/b)^2] *)
Definition ell2_new (e : MCurve.Curve) (z : FpElt) : out Ell2 :=
  if negb (negb (is_zero (MCurve.c_a e)) && negb (is_zero (MCurve.c_b e))) then Panic ERR_PARAMS
  else (
    inb <- u32_div 1 (MCurve.c_b e) ;;
    ca <- div (MCurve.c_a e) inb ;;
    cb <- sqr inb ;;
    Ret (mkEll2 e z ca cb)).

(** elligator2.rs:36-64 *)
Definition ell2_map (m : Ell2) (u : FpElt) : out MCurve.Point :=
  let e := el_e m in let F := MCurve.c_f e in
  t1 <- sqr u ;;
  t1 <- mul (el_z m) t1 ;;
  m1 <- from_int F (-1) ;; let e1 := fpelt_eqb t1 m1 in
  z <- zero F ;; let t1 := cmov t1 z e1 in
  o <- one F ;; x1 <- add t1 o ;;
  x1 <- u32_div 1 x1 ;;
  nca <- neg (el_ca m) ;; x1 <- mul nca x1 ;;
  gx1 <- add x1 (el_ca m) ;;
  gx1 <- mul gx1 x1 ;;
  gx1 <- add gx1 (el_cb m) ;;
  gx1 <- mul gx1 x1 ;;
  nx1 <- neg x1 ;; x2 <- sub nx1 (el_ca m) ;;
  gx2 <- mul t1 gx1 ;;
  e2 <- is_square gx1 ;;
  let x := cmov x2 x1 e2 in
  let y2 := cmov gx2 gx1 e2 in
  y <- sqrt y2 ;;
  let e3 := sgn0 y =? 1 in
  ny <- neg y ;; let y := cmov ny y (xorb e2 e3) in
  x <- mul x (MCurve.c_b e) ;;
  y <- mul y (MCurve.c_b e) ;;
  MCurve.new_point e x y.
