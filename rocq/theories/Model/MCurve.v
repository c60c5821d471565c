(** src/montgomery/curve.rs and src/montgomery/point.rs *)
From Coq Require Import ZArith String Bool List.
From Verif.Model Require Import Out BigInt PrimeField Scalar.
From Verif.Model Require WCurve.
Import ListNotations.
Open Scope Z_scope.
Open Scope out_scope.

(** curve.rs:24-34 *)
Record Curve := mkCurve {
  c_f : Fp; c_a : FpElt; c_b : FpElt; c_s : FpElt; c_r : Z; c_gx : FpElt; c_gy : FpElt; c_h : Z }.

(** curve.rs:24, derived PartialEq *)
Definition curve_eqb (e1 e2 : Curve) : bool :=
  fp_eqb (c_f e1) (c_f e2) && fpelt_eqb (c_a e1) (c_a e2) && fpelt_eqb (c_b e1) (c_b e2)
  && fpelt_eqb (c_s e1) (c_s e2)
  && (c_r e1 =? c_r e2) && fpelt_eqb (c_gx e1) (c_gx e2) && fpelt_eqb (c_gy e1) (c_gy e2)
  && (c_h e1 =? c_h e2).

(** point.rs:16-26 *)
Record ProyCoordinates := mkProy { px : FpElt; py : FpElt; pz : FpElt }.
Record Point := mkPoint { pe : Curve; pc : ProyCoordinates }.

Definition ERR_ECC_NEW : string := "not valid point".
Definition ERR_MUL_OP : string := "Scalar don't match with point".
Definition ERR_ADD_OP : string := "points of different curves".

(** curve.rs:68-74 *)
Definition is_on_curve (e : Curve) (p : ProyCoordinates) : out bool :=
  yy <- sqr (py p) ;; byy <- mul (c_b e) yy ;; l <- mul byy (pz p) ;;
  xx <- sqr (px p) ;;
  ax <- mul (c_a e) (px p) ;; axz <- mul ax (pz p) ;;
  s <- add xx axz ;; zz <- sqr (pz p) ;; s <- add s zz ;;
  r <- mul (px p) s ;;
  e' <- sub l r ;;
  Ret (is_zero e').

(** curve.rs:37-41 *)
Definition new_proy_point (e : Curve) (c : ProyCoordinates) : out Point :=
  ok <- is_on_curve e c ;; do_if_eq ok (Ret (mkPoint e c)) ERR_ECC_NEW.

(** curve.rs:48-56 *)
Definition new_point (e : Curve) (x y : FpElt) : out Point :=
  o <- one (c_f e) ;;
  let c := mkProy x y o in
  ok <- is_on_curve e c ;; do_if_eq ok (Ret (mkPoint e c)) ERR_ECC_NEW.

(** curve.rs:57-59 *)
Definition new_scalar (e : Curve) (k : Z) : out Scalar := scalar_new k (c_r e).

(** curve.rs:60-67 *)
Definition identity (e : Curve) : out Point :=
  x <- zero (c_f e) ;; y <- one (c_f e) ;; z <- zero (c_f e) ;;
  new_proy_point e (mkProy x y z).

(** curve.rs:84-90 *)
Definition get_generator (e : Curve) : out Point :=
  z <- one (c_f e) ;; new_proy_point e (mkProy (c_gx e) (c_gy e) z).

(** point.rs:30-32 *)
Definition pt_is_zero (P : Point) : bool :=
  is_zero (px (pc P)) && negb (is_zero (py (pc P))) && is_zero (pz (pc P)).

(** point.rs:67-72 *)
Definition normalize (P : Point) : out Point :=
  let c := pc P in
  inv_z <- u32_div 1 (pz c) ;;
  x <- mul (px c) inv_z ;;
  y <- mul (py c) inv_z ;;
  Ret (mkPoint (pe P) (mkProy x y (set_one (pz c)))).

(** point.rs:73-79 *)
Definition core_neg (P : Point) : out Point :=
  y <- neg (py (pc P)) ;;
  new_proy_point (pe P) (mkProy (px (pc P)) y (pz (pc P))).

(** point.rs:80-104 *)
Definition core_add (P Q : Point) : out Point :=
  let x1 := px (pc P) in let y1 := py (pc P) in let z1 := pz (pc P) in
  let x2 := px (pc Q) in let y2 := py (pc Q) in let z2 := pz (pc Q) in
  let a_ec := c_a (pe P) in let s_ec := c_s (pe P) in
  t0 <- mul x1 x2 ;; t1 <- mul y1 y2 ;; t2 <- mul z1 z2 ;;
  t3 <- mul x1 y2 ;; t4 <- mul x2 y1 ;;
  t5 <- mul y1 z2 ;; t6 <- mul y2 z1 ;;
  t7 <- mul x1 z2 ;; t8 <- mul x2 z1 ;;
  t9 <- add t7 t8 ;;
  w <- mul t0 a_ec ;; ta <- add t9 w ;;
  rr <- add t5 t6 ;;
  tt <- sub ta t1 ;;
  vv <- mul t9 a_ec ;; vv <- add vv t0 ;; vv <- add vv t0 ;; vv <- add vv t0 ;; vv <- add vv t2 ;;
  ss <- sub t3 t4 ;; ss <- mul ss s_ec ;; ss <- add ss t0 ;; ss <- sub ss t2 ;;
  uu <- sub t7 t8 ;; uu <- mul uu s_ec ;; uu <- sub uu t3 ;; uu <- sub uu t4 ;;
  ww <- sub t5 t6 ;; ww <- mul ww s_ec ;; ww <- add ww ta ;; ww <- add ww t1 ;;
  m1 <- mul rr ss ;; m2 <- mul tt uu ;; x3 <- sub m1 m2 ;;
  m1 <- mul tt ww ;; m2 <- mul vv ss ;; y3 <- sub m1 m2 ;;
  m1 <- mul vv uu ;; m2 <- mul rr ww ;; z3 <- sub m1 m2 ;;
  new_proy_point (pe P) (mkProy x3 y3 z3).

(** point.rs:132-134 *)
Definition pt_add (P Q : Point) : out Point :=
  do_if_eq (curve_eqb (pe P) (pe Q)) (core_add P Q) ERR_ADD_OP.
(** point.rs:136 *)
Definition pt_neg (P : Point) : out Point := core_neg P.
(** point.rs:135 *)
Definition pt_sub (P Q : Point) : out Point := nQ <- pt_neg Q ;; pt_add P nQ.

(** point.rs:105-114 *)
Definition core_mul (oc : bool) (P : Point) (k : Scalar) : out Point :=
  q <- identity (pe P) ;;
  it <- iter_lr oc k ;;
  for_each (S (Z.to_nat (it_l it))) oc it q (fun q ki =>
    q <- pt_add q q ;;
    if ki then pt_add q P else Ret q).

(** point.rs:137-140 *)
Definition pt_mul (oc : bool) (P : Point) (k : Scalar) : out Point :=
  do_if_eq (c_r (pe P) =? sr k) (core_mul oc P k) ERR_MUL_OP.

(** point.rs:115-117 *)
Definition is_two_torsion (P : Point) : bool := is_zero (py (pc P)) && is_one (pz (pc P)).

(** point.rs:122-130 *)
Definition pt_eqb (P Q : Point) : out bool :=
  x1z2 <- mul (px (pc P)) (pz (pc Q)) ;;
  z1x2 <- mul (pz (pc P)) (px (pc Q)) ;;
  y1z2 <- mul (py (pc P)) (pz (pc Q)) ;;
  z1y2 <- mul (pz (pc P)) (py (pc Q)) ;;
  Ret (curve_eqb (pe P) (pe Q) && fpelt_eqb x1z2 z1x2 && fpelt_eqb y1z2 z1y2).

(** point.rs:35-63; same tag expression and slices as the Weierstrass code *)
Definition encode (P : Point) (compress : bool) : out (list Z) :=
  P' <- normalize P ;;
  if pt_is_zero P' then Ret [0]
  else
    let x := px (pc P') in let y := py (pc P') in
    x_bytes <- elt_to_bytes_be x ;;
    y_bytes <- elt_to_bytes_be y ;;
    if compress then Ret (WCurve.sign_tag (sgn0 y) :: x_bytes)
    else Ret (4 :: x_bytes ++ y_bytes).

(** curve.rs:95-161 *)
Definition decode (e : Curve) (buf : list Z) : out (io_result Point) :=
  let size := size_bytes (c_f e) in
  let blen := Z.of_nat (length buf) in
  if negb ((blen =? 1) || (blen =? size + 1) || (blen =? 2 * size + 1))
  then Ret (Err WCurve.ERR_SIZE)
  else
    match buf with
    | [] => Panic "index out of bounds"
    | tag :: _ =>
      xs <- WCurve.slice buf 1 (size + 1) ;;
      let x_val := from_bytes_be xs in
      let p := modulus (c_f e) in
      if p <=? x_val then Ret (Err WCurve.ERR_X)
      else if tag =? 0 then
        if negb (blen =? 1) then Ret (Err WCurve.ERR_INF)
        else (P <- identity e ;; Ret (Ok P))
      else if tag =? 4 then
        if negb (blen =? 2 * size + 1) then Ret (Err WCurve.ERR_BYTES)
        else (
          x <- elt (c_f e) x_val ;;
          ys <- WCurve.slice buf (size + 1) blen ;;
          let y_val := from_bytes_be ys in
          if p <=? y_val then Ret (Err WCurve.ERR_Y)
          else (
            y <- elt (c_f e) y_val ;;
            P <- new_point e x y ;; Ret (Ok P)))
      else if (tag =? 2) || (tag =? 3) then
        if negb (blen =? size + 1) then Ret (Err WCurve.ERR_BYTES)
        else (
          o <- one (c_f e) ;;
          x <- elt (c_f e) x_val ;;
          x_a <- add x (c_a e) ;;
          xx_ax <- mul x_a x ;;
          xx_ax_1 <- add xx_ax o ;;
          byy <- mul xx_ax_1 x ;;
          b_inv <- div o (c_b e) ;;
          yy <- mul byy b_inv ;;
          y_sqrt <- sqrt yy ;;
          let deser_tag := WCurve.sign_tag (sgn0 y_sqrt) in
          y <- (if negb (tag =? deser_tag) then neg y_sqrt else Ret y_sqrt) ;;
          P <- new_point e x y ;; Ret (Ok P))
      else Ret (Err WCurve.ERR_TAG)
    end.

(** curve.rs:174-185 *)
Record Params := mkParams {
  pp_name : string; pp_p : string; pp_a : string; pp_b : string; pp_s : string;
  pp_r : string; pp_h : string; pp_gx : string; pp_gy : string }.

(** curve.rs:187-201 *)
Definition curve_from (q : Params) : out Curve :=
  p <- unwrap (biguint_from_str_radix (pp_p q) 10) ;;
  let F := fp_new p in
  a <- from_str F (pp_a q) ;;
  b <- from_str F (pp_b q) ;;
  s <- from_str F (pp_s q) ;;
  r <- unwrap (biguint_from_str_radix (pp_r q) 10) ;;
  h <- unwrap (biguint_from_str_radix (pp_h q) 10) ;;
  gx <- from_str F (pp_gx q) ;;
  gy <- from_str F (pp_gy q) ;;
  Ret (mkCurve F a b s r gx gy h).
