(** The API calls that take a square root, as programs of Shared.v. Each is the function of the
    same name in WCurve, MCurve, ECurve, Maps and RationalMaps (where the lines of the source are
    given), with the call of sqrt replaced by a request to the shared field; Proofs/SharedProps.v
    shows that a program run alone computes that function. *)
From Coq Require Import ZArith String Bool List.
From Verif.Model Require Import Out BigInt PrimeField QuadField Shared.
From Verif.Model Require WCurve MCurve ECurve Maps RationalMaps.
Import ListNotations.
Open Scope Z_scope.

(** programs over prime fields *)
Notation fprog := (prog (Q := FpElt) (R := FpElt)).
Declare Scope prog_scope.
Delimit Scope prog_scope with prog.
Notation "x <- m ;; k" := (pbind (Done m) (fun x => k))
  (at level 100, m at next level, right associativity) : prog_scope.
Notation "y <-- 'sqrt' x ;; k" := (Ask x (fun y => k))
  (at level 100, x at next level, right associativity) : prog_scope.
Open Scope prog_scope.

(** weierstrass/curve.rs:93-156 *)
Definition p_w_decode (e : WCurve.Curve) (buf : list Z) : fprog (io_result WCurve.Point) :=
  let size := size_bytes (WCurve.c_f e) in
  let blen := Z.of_nat (length buf) in
  if negb ((blen =? 1) || (blen =? size + 1) || (blen =? 2 * size + 1))
  then Done (Ret (Err WCurve.ERR_SIZE))
  else
    match buf with
    | [] => Done (Panic "index out of bounds")
    | tag :: _ =>
      xs <- WCurve.slice buf 1 (size + 1) ;;
      let x_val := from_bytes_be xs in
      let p := modulus (WCurve.c_f e) in
      if p <=? x_val then Done (Ret (Err WCurve.ERR_X))
      else if tag =? 0 then
        if negb (blen =? 1) then Done (Ret (Err WCurve.ERR_INF))
        else (P <- WCurve.identity e ;; Done (Ret (Ok P)))
      else if tag =? 4 then
        if negb (blen =? 2 * size + 1) then Done (Ret (Err WCurve.ERR_BYTES))
        else (
          x <- elt (WCurve.c_f e) x_val ;;
          ys <- WCurve.slice buf (size + 1) blen ;;
          let y_val := from_bytes_be ys in
          if p <=? y_val then Done (Ret (Err WCurve.ERR_Y))
          else (
            y <- elt (WCurve.c_f e) y_val ;;
            P <- WCurve.new_point e x y ;; Done (Ret (Ok P))))
      else if (tag =? 2) || (tag =? 3) then
        if negb (blen =? size + 1) then Done (Ret (Err WCurve.ERR_BYTES))
        else (
          x <- elt (WCurve.c_f e) x_val ;;
          xx <- mul x x ;;
          xx_a <- add xx (WCurve.c_a e) ;;
          xxx_ax <- mul xx_a x ;;
          xxx_ax_b <- add xxx_ax (WCurve.c_b e) ;;
          y_sqrt <-- sqrt xxx_ax_b ;;
          let deser_tag := WCurve.sign_tag (sgn0 y_sqrt) in
          y <- (if negb (tag =? deser_tag) then neg y_sqrt else Ret y_sqrt) ;;
          P <- WCurve.new_point e x y ;; Done (Ret (Ok P)))
      else Done (Ret (Err WCurve.ERR_TAG))
    end.

(** montgomery/curve.rs:95-161 *)
Definition p_m_decode (e : MCurve.Curve) (buf : list Z) : fprog (io_result MCurve.Point) :=
  let size := size_bytes (MCurve.c_f e) in
  let blen := Z.of_nat (length buf) in
  if negb ((blen =? 1) || (blen =? size + 1) || (blen =? 2 * size + 1))
  then Done (Ret (Err WCurve.ERR_SIZE))
  else
    match buf with
    | [] => Done (Panic "index out of bounds")
    | tag :: _ =>
      xs <- WCurve.slice buf 1 (size + 1) ;;
      let x_val := from_bytes_be xs in
      let p := modulus (MCurve.c_f e) in
      if p <=? x_val then Done (Ret (Err WCurve.ERR_X))
      else if tag =? 0 then
        if negb (blen =? 1) then Done (Ret (Err WCurve.ERR_INF))
        else (P <- MCurve.identity e ;; Done (Ret (Ok P)))
      else if tag =? 4 then
        if negb (blen =? 2 * size + 1) then Done (Ret (Err WCurve.ERR_BYTES))
        else (
          x <- elt (MCurve.c_f e) x_val ;;
          ys <- WCurve.slice buf (size + 1) blen ;;
          let y_val := from_bytes_be ys in
          if p <=? y_val then Done (Ret (Err WCurve.ERR_Y))
          else (
            y <- elt (MCurve.c_f e) y_val ;;
            P <- MCurve.new_point e x y ;; Done (Ret (Ok P))))
      else if (tag =? 2) || (tag =? 3) then
        if negb (blen =? size + 1) then Done (Ret (Err WCurve.ERR_BYTES))
        else (
          o <- one (MCurve.c_f e) ;;
          x <- elt (MCurve.c_f e) x_val ;;
          x_a <- add x (MCurve.c_a e) ;;
          xx_ax <- mul x_a x ;;
          xx_ax_1 <- add xx_ax o ;;
          byy <- mul xx_ax_1 x ;;
          b_inv <- div o (MCurve.c_b e) ;;
          yy <- mul byy b_inv ;;
          y_sqrt <-- sqrt yy ;;
          let deser_tag := WCurve.sign_tag (sgn0 y_sqrt) in
          y <- (if negb (tag =? deser_tag) then neg y_sqrt else Ret y_sqrt) ;;
          P <- MCurve.new_point e x y ;; Done (Ret (Ok P)))
      else Done (Ret (Err WCurve.ERR_TAG))
    end.

(** edwards/curve.rs:108-146 *)
Definition p_e_decode (e : ECurve.Curve) (buf : list Z) : fprog (io_result ECurve.Point) :=
  let p := modulus (ECurve.c_f e) in
  let size := ECurve.enc_size (ECurve.c_f e) in
  if negb (Z.of_nat (length buf) =? size) then Done (Ret (Err ECurve.ERR_SIZE))
  else
    match rev buf with
    | [] => Done (Panic "attempt to subtract with overflow")
    | last :: _ =>
      let x_0 := Z.land (Z.shiftr last 7) 1 in
      y_bytes <- ECurve.update_last (fun b => Z.land b 127) buf ;;
      let y_zz := from_bytes_le y_bytes in
      if p <=? y_zz then Done (Ret (Err ECurve.ERR_Y))
      else (
        y <- elt (ECurve.c_f e) y_zz ;;
        yy <- mul y y ;;
        o <- one (ECurve.c_f e) ;; minus_one <- neg o ;;
        u <- add yy minus_one ;;
        dyy <- mul (ECurve.c_d e) yy ;; v <- sub dyy (ECurve.c_a e) ;;
        u_inv_v <- div u v ;;
        x_sqrt <-- sqrt u_inv_v ;;
        z <- zero (ECurve.c_f e) ;;
        if fpelt_eqb x_sqrt z && (x_0 =? 1) then Done (Ret (Err ECurve.ERR_SQRT))
        else (
          let tag := ECurve.sign_bit (sgn0 x_sqrt) in
          x <- (if negb (tag =? x_0) then neg x_sqrt else Ret x_sqrt) ;;
          P <- ECurve.new_point e x y ;; Done (Ret (Ok P))))
    end.

(** sswu.rs:41-70 *)
Definition p_sswu_map (m : Maps.SSWU) (u : FpElt) : fprog WCurve.Point :=
  let e := Maps.sw_e m in let F := WCurve.c_f e in
  t1 <- sqr u ;;
  t1 <- mul (Maps.sw_z m) t1 ;;
  t2 <- sqr t1 ;;
  x1 <- add t1 t2 ;;
  x1 <- u32_div 1 x1 ;;
  let e1 := is_zero x1 in
  o <- one F ;; x1 <- add x1 o ;;
  let x1 := cmov x1 (Maps.sw_c2 m) e1 in
  x1 <- mul x1 (Maps.sw_c1 m) ;;
  gx1 <- sqr x1 ;;
  gx1 <- add gx1 (WCurve.c_a e) ;;
  gx1 <- mul gx1 x1 ;;
  gx1 <- add gx1 (WCurve.c_b e) ;;
  x2 <- mul t1 x1 ;;
  t2 <- mul t1 t2 ;;
  gx2 <- mul gx1 t2 ;;
  e2 <- is_square gx1 ;;
  let x := cmov x2 x1 e2 in
  let y2 := cmov gx2 gx1 e2 in
  y <-- sqrt y2 ;;
  let e3 := sgn0 u =? sgn0 y in
  ny <- neg y ;; let y := cmov ny y e3 in
  Done (WCurve.new_point e x y).

(** svdw.rs:19-43 *)
Definition p_svdw_new (e : WCurve.Curve) (z : FpElt) : fprog Maps.SVDW :=
  ok <- Maps.svdw_verify e z ;;
  if negb ok then Done (Panic Maps.ERR_PARAMS)
  else (
    let F := WCurve.c_f e in
    f2 <- from_int F 2 ;; f3 <- from_int F 3 ;; f4 <- from_int F 4 ;;
    g <- Maps.svdw_gx e z ;; gz <- neg g ;;
    c1 <- neg gz ;;
    nz <- neg z ;; i2 <- u32_div 1 f2 ;; c2 <- mul nz i2 ;;
    zz <- sqr z ;; m3 <- mul f3 zz ;; m4 <- mul f4 (WCurve.c_a e) ;; t0 <- add m3 m4 ;;
    gt <- mul gz t0 ;; c3 <-- sqrt gt ;;
    c3 <- (if sgn0 c3 =? -1 then neg c3 else Ret c3) ;;
    fg <- mul f4 gz ;; it <- u32_div 1 t0 ;; c4 <- mul fg it ;;
    Done (Ret (Maps.mkSVDW e c1 c2 c3 c4 z))).

(** svdw.rs:65-107 *)
Definition p_svdw_map (m : Maps.SVDW) (u : FpElt) : fprog WCurve.Point :=
  let e := Maps.sv_e m in let F := WCurve.c_f e in
  let A := WCurve.c_a e in let B := WCurve.c_b e in
  t1 <- sqr u ;;
  t1 <- mul t1 (Maps.sv_c1 m) ;;
  o <- one F ;; t2 <- add o t1 ;;
  o <- one F ;; t1 <- sub o t1 ;;
  t3 <- mul t1 t2 ;;
  t3 <- u32_div 1 t3 ;;
  t4 <- mul u t1 ;;
  t4 <- mul t4 t3 ;;
  t4 <- mul t4 (Maps.sv_c3 m) ;;
  x1 <- sub (Maps.sv_c2 m) t4 ;;
  gx1 <- sqr x1 ;;
  gx1 <- add gx1 A ;;
  gx1 <- mul gx1 x1 ;;
  gx1 <- add gx1 B ;;
  e1 <- is_square gx1 ;;
  x2 <- add (Maps.sv_c2 m) t4 ;;
  gx2 <- sqr x2 ;;
  gx2 <- add gx2 A ;;
  gx2 <- mul gx2 x2 ;;
  gx2 <- add gx2 B ;;
  sq2 <- is_square gx2 ;; let e2 := sq2 && negb e1 in
  x3 <- sqr t2 ;;
  x3 <- mul x3 t3 ;;
  x3 <- sqr x3 ;;
  x3 <- mul x3 (Maps.sv_c4 m) ;;
  x3 <- add x3 (Maps.sv_z m) ;;
  let x := cmov x3 x1 e1 in
  let x := cmov x x2 e2 in
  gx <- sqr x ;;
  gx <- add gx A ;;
  gx <- mul gx x ;;
  gx <- add gx B ;;
  y <-- sqrt gx ;;
  let e3 := sgn0 u =? sgn0 y in
  ny <- neg y ;; let y := cmov ny y e3 in
  Done (WCurve.new_point e x y).

(** montgomery/elligator2.rs:36-64 *)
Definition p_ell2_map (m : Maps.Ell2) (u : FpElt) : fprog MCurve.Point :=
  let e := Maps.el_e m in let F := MCurve.c_f e in
  t1 <- sqr u ;;
  t1 <- mul (Maps.el_z m) t1 ;;
  m1 <- from_int F (-1) ;; let e1 := fpelt_eqb t1 m1 in
  z <- zero F ;; let t1 := cmov t1 z e1 in
  o <- one F ;; x1 <- add t1 o ;;
  x1 <- u32_div 1 x1 ;;
  nca <- neg (Maps.el_ca m) ;; x1 <- mul nca x1 ;;
  gx1 <- add x1 (Maps.el_ca m) ;;
  gx1 <- mul gx1 x1 ;;
  gx1 <- add gx1 (Maps.el_cb m) ;;
  gx1 <- mul gx1 x1 ;;
  nx1 <- neg x1 ;; x2 <- sub nx1 (Maps.el_ca m) ;;
  gx2 <- mul t1 gx1 ;;
  e2 <- is_square gx1 ;;
  let x := cmov x2 x1 e2 in
  let y2 := cmov gx2 gx1 e2 in
  y <-- sqrt y2 ;;
  let e3 := sgn0 y =? 1 in
  ny <- neg y ;; let y := cmov ny y (xorb e2 e3) in
  x <- mul x (MCurve.c_b e) ;;
  y <- mul y (MCurve.c_b e) ;;
  Done (MCurve.new_point e x y).

(** sswuab0.rs:33-38 *)
Definition p_sswuab0_map (m : RationalMaps.SSWUAB0) (u : FpElt) : fprog WCurve.Point :=
  pbind (p_sswu_map (RationalMaps.s0_sswu m) u) (fun P => Done (RationalMaps.iso_push (RationalMaps.s0_iso m) P)).
(** edwards/elligator2.rs:41-46 *)
Definition p_ed_ell2_map (m : RationalMaps.EdEll2) (u : FpElt) : fprog ECurve.Point :=
  pbind (p_ell2_map (RationalMaps.ee_map m) u) (fun P => Done (RationalMaps.rat_pull (RationalMaps.ee_ratmap m) P)).

(** quadraticfield/mod.rs:305-321: sqrt once it has the constants *)
Definition sqrt2_with : Z * Z -> Fp2Elt -> out Fp2Elt := sqrt2_steps pow_bigint2.

(** x.sqrt() itself, in either field *)
Definition p_sqrt (x : FpElt) : fprog FpElt := Ask x (fun y => Done (Ret y)).
Definition p_sqrt2 (x : Fp2Elt) : prog (Q := Fp2Elt) (R := Fp2Elt) Fp2Elt := Ask x (fun y => Done (Ret y)).

(** the calls, with arguments *)
Inductive call :=
| CSqrt (x : FpElt)
| CWDecode (e : WCurve.Curve) (buf : list Z)
| CMDecode (e : MCurve.Curve) (buf : list Z)
| CEDecode (e : ECurve.Curve) (buf : list Z)
| CSswu (m : Maps.SSWU) (u : FpElt)
| CSvdwNew (e : WCurve.Curve) (z : FpElt)
| CSvdw (m : Maps.SVDW) (u : FpElt)
| CEll2 (m : Maps.Ell2) (u : FpElt)
| CSswuab0 (m : RationalMaps.SSWUAB0) (u : FpElt)
| CEdEll2 (m : RationalMaps.EdEll2) (u : FpElt).
(** their results, which have different types *)
Inductive result :=
| RElt (x : FpElt) | RWPoint (P : WCurve.Point) | RMPoint (P : MCurve.Point) | REPoint (P : ECurve.Point)
| RWRead (r : io_result WCurve.Point) | RMRead (r : io_result MCurve.Point) | RERead (r : io_result ECurve.Point)
| RSvdw (m : Maps.SVDW).
Definition as_result {A : Type} (f : A -> result) (p : fprog A) : fprog result := pbind p (fun a => Done (Ret (f a))).
Definition p_call (c : call) : fprog result :=
  match c with
  | CSqrt x => as_result RElt (p_sqrt x)
  | CWDecode e buf => as_result RWRead (p_w_decode e buf)
  | CMDecode e buf => as_result RMRead (p_m_decode e buf)
  | CEDecode e buf => as_result RERead (p_e_decode e buf)
  | CSswu m u => as_result RWPoint (p_sswu_map m u)
  | CSvdwNew e z => as_result RSvdw (p_svdw_new e z)
  | CSvdw m u => as_result RWPoint (p_svdw_map m u)
  | CEll2 m u => as_result RMPoint (p_ell2_map m u)
  | CSswuab0 m u => as_result RWPoint (p_sswuab0_map m u)
  | CEdEll2 m u => as_result REPoint (p_ed_ell2_map m u)
  end.
