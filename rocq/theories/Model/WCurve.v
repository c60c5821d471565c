(** src/weierstrass/curve.rs and src/weierstrass/point.rs *)
From Coq Require Import ZArith String Bool List.
From Verif.Model Require Import Out BigInt PrimeField Scalar.
Import ListNotations.
Open Scope Z_scope.
Open Scope out_scope.

(** curve.rs:22-31 *)
Record Curve := mkCurve {
  c_f : Fp; c_a : FpElt; c_b : FpElt; c_r : Z; c_gx : FpElt; c_gy : FpElt; c_h : Z }.

(** curve.rs:22, derived PartialEq *)
Definition curve_eqb (e1 e2 : Curve) : bool :=
  fp_eqb (c_f e1) (c_f e2) && fpelt_eqb (c_a e1) (c_a e2) && fpelt_eqb (c_b e1) (c_b e2)
  && (c_r e1 =? c_r e2) && fpelt_eqb (c_gx e1) (c_gx e2) && fpelt_eqb (c_gy e1) (c_gy e2)
  && (c_h e1 =? c_h e2).

(** point.rs:20-31 *)
Record ProyCoordinates := mkProy { px : FpElt; py : FpElt; pz : FpElt }.
Record Point := mkPoint { pe : Curve; pc : ProyCoordinates }.

Definition ERR_ECC_NEW : string := "not valid point".
Definition ERR_MUL_OP : string := "Scalar don't match with point".
Definition ERR_ADD_OP : string := "points of different curves".

(** curve.rs:63-72 *)
Definition is_on_curve (e : Curve) (p : ProyCoordinates) : out bool :=
  xx <- sqr (px p) ;; x3 <- mul (px p) xx ;;
  bz <- mul (c_b e) (pz p) ;;
  ax <- mul (c_a e) (px p) ;;
  s <- add ax bz ;; zz <- mul (pz p) s ;;
  yy <- sqr (py p) ;; d <- sub zz yy ;; zy <- mul (pz p) d ;;
  eq <- add x3 zy ;;
  Ret (is_zero eq).

(** curve.rs:33-37 *)
Definition new_proy_point (e : Curve) (c : ProyCoordinates) : out Point :=
  ok <- is_on_curve e c ;; do_if_eq ok (Ret (mkPoint e c)) ERR_ECC_NEW.

(** curve.rs:44-52 *)
Definition new_point (e : Curve) (x y : FpElt) : out Point :=
  o <- one (c_f e) ;;
  let c := mkProy x y o in
  ok <- is_on_curve e c ;; do_if_eq ok (Ret (mkPoint e c)) ERR_ECC_NEW.

(** curve.rs:53-55 *)
Definition new_scalar (e : Curve) (k : Z) : out Scalar := scalar_new k (c_r e).

(** curve.rs:56-62 *)
Definition identity (e : Curve) : out Point :=
  x <- zero (c_f e) ;; y <- one (c_f e) ;; z <- zero (c_f e) ;;
  new_proy_point e (mkProy x y z).

(** curve.rs:82-88 *)
Definition get_generator (e : Curve) : out Point :=
  z <- one (c_f e) ;; new_proy_point e (mkProy (c_gx e) (c_gy e) z).

(** point.rs:35-37 *)
Definition pt_is_zero (P : Point) : bool :=
  is_zero (px (pc P)) && negb (is_zero (py (pc P))) && is_zero (pz (pc P)).

(** point.rs:72-77 *)
Definition normalize (P : Point) : out Point :=
  let c := pc P in
  inv_z <- u32_div 1 (pz c) ;;
  x <- mul (px c) inv_z ;;
  y <- mul (py c) inv_z ;;
  Ret (mkPoint (pe P) (mkProy x y (set_one (pz c)))).

(** point.rs:78-84 *)
Definition core_neg (P : Point) : out Point :=
  y <- neg (py (pc P)) ;;
  new_proy_point (pe P) (mkProy (px (pc P)) y (pz (pc P))).

(** point.rs:88-141, one binding per source step *)
Definition core_add (P Q : Point) : out Point :=
  let a := c_a (pe P) in
  let b := c_b (pe P) in
  bb <- add b b ;; b3 <- add bb b ;;
  let x1 := px (pc P) in let x2 := px (pc Q) in
  let y1 := py (pc P) in let y2 := py (pc Q) in
  let z1 := pz (pc P) in let z2 := pz (pc Q) in
  t0 <- mul x1 x2 ;;
  t1 <- mul y1 y2 ;;
  t2 <- mul z1 z2 ;;
  t3 <- add x1 y1 ;;
  t4 <- add x2 y2 ;;
  t3 <- mul t3 t4 ;;
  t4 <- add t0 t1 ;;
  t3 <- sub t3 t4 ;;
  t4 <- add x1 z1 ;;
  t5 <- add x2 z2 ;;
  t4 <- mul t4 t5 ;;
  t5 <- add t0 t2 ;;
  t4 <- sub t4 t5 ;;
  t5 <- add y1 z1 ;;
  x3 <- add y2 z2 ;;
  t5 <- mul t5 x3 ;;
  x3 <- add t1 t2 ;;
  t5 <- sub t5 x3 ;;
  z3 <- mul a t4 ;;
  x3 <- mul b3 t2 ;;
  z3 <- add x3 z3 ;;
  x3 <- sub t1 z3 ;;
  z3 <- add t1 z3 ;;
  y3 <- mul x3 z3 ;;
  t1 <- add t0 t0 ;;
  t1 <- add t1 t0 ;;
  t2 <- mul a t2 ;;
  t4 <- mul b3 t4 ;;
  t1 <- add t1 t2 ;;
  t2 <- sub t0 t2 ;;
  t2 <- mul a t2 ;;
  t4 <- add t4 t2 ;;
  t0 <- mul t1 t4 ;;
  y3 <- add y3 t0 ;;
  t0 <- mul t5 t4 ;;
  x3 <- mul t3 x3 ;;
  x3 <- sub x3 t0 ;;
  t0 <- mul t3 t1 ;;
  z3 <- mul t5 z3 ;;
  z3 <- add z3 t0 ;;
  new_proy_point (pe P) (mkProy x3 y3 z3).

(** point.rs:145-189 *)
Definition core_doubling (P : Point) : out Point :=
  let a := c_a (pe P) in
  let b := c_b (pe P) in
  bb <- add b b ;; b3 <- add bb b ;;
  let x := px (pc P) in let y := py (pc P) in let z := pz (pc P) in
  t0 <- mul x x ;;
  t1 <- mul y y ;;
  t2 <- mul z z ;;
  t3 <- mul x y ;;
  t3 <- add t3 t3 ;;
  z3 <- mul x z ;;
  z3 <- add z3 z3 ;;
  x3 <- mul a z3 ;;
  y3 <- mul b3 t2 ;;
  y3 <- add x3 y3 ;;
  x3 <- sub t1 y3 ;;
  y3 <- add t1 y3 ;;
  y3 <- mul x3 y3 ;;
  x3 <- mul t3 x3 ;;
  z3 <- mul b3 z3 ;;
  t2 <- mul a t2 ;;
  t3 <- sub t0 t2 ;;
  t3 <- mul a t3 ;;
  t3 <- add t3 z3 ;;
  z3 <- add t0 t0 ;;
  t0 <- add z3 t0 ;;
  t0 <- add t0 t2 ;;
  t0 <- mul t0 t3 ;;
  y3 <- add y3 t0 ;;
  t2 <- mul y z ;;
  t2 <- add t2 t2 ;;
  t0 <- mul t2 t3 ;;
  x3 <- sub x3 t0 ;;
  z3 <- mul t2 t1 ;;
  z3 <- add z3 z3 ;;
  z3 <- add z3 z3 ;;
  new_proy_point (pe P) (mkProy x3 y3 z3).

(** point.rs:217-219 *)
Definition pt_add (P Q : Point) : out Point :=
  do_if_eq (curve_eqb (pe P) (pe Q)) (core_add P Q) ERR_ADD_OP.
(** point.rs:221 *)
Definition pt_neg (P : Point) : out Point := core_neg P.
(** point.rs:220 *)
Definition pt_sub (P Q : Point) : out Point := nQ <- pt_neg Q ;; pt_add P nQ.

(** point.rs:193-202 *)
Definition core_mul (oc : bool) (P : Point) (k : Scalar) : out Point :=
  q <- identity (pe P) ;;
  it <- iter_lr oc k ;;
  for_each (S (Z.to_nat (it_l it))) oc it q (fun q ki =>
    q <- core_doubling q ;;
    if ki then pt_add q P else Ret q).

(** point.rs:222-225, scalar.rs:90-110 *)
Definition pt_mul (oc : bool) (P : Point) (k : Scalar) : out Point :=
  do_if_eq (c_r (pe P) =? sr k) (core_mul oc P k) ERR_MUL_OP.

(** point.rs:207-215: the four products are computed before the comparisons *)
Definition pt_eqb (P Q : Point) : out bool :=
  x1z2 <- mul (px (pc P)) (pz (pc Q)) ;;
  z1x2 <- mul (pz (pc P)) (px (pc Q)) ;;
  y1z2 <- mul (py (pc P)) (pz (pc Q)) ;;
  z1y2 <- mul (pz (pc P)) (py (pc Q)) ;;
  Ret (curve_eqb (pe P) (pe Q) && fpelt_eqb x1z2 z1x2 && fpelt_eqb y1z2 z1y2).

(** the tag byte [(((s >> 1) & 0x1) + 2) as u8] of an i32 sign s: point.rs:56-58, curve.rs:146-147 *)
Definition sign_tag (s : Z) : Z := (Z.land (Z.shiftr s 1) 1 + 2) mod 256.

(** point.rs:40-68 *)
Definition encode (P : Point) (compress : bool) : out (list Z) :=
  P' <- normalize P ;;
  if pt_is_zero P' then Ret [0]
  else
    let x := px (pc P') in let y := py (pc P') in
    x_bytes <- elt_to_bytes_be x ;;
    y_bytes <- elt_to_bytes_be y ;;
    if compress then Ret (sign_tag (sgn0 y) :: x_bytes)
    else Ret (4 :: x_bytes ++ y_bytes).

(** a slice [&buf[lo..hi]]; out of range panics *)
Definition slice (buf : list Z) (lo hi : Z) : out (list Z) :=
  if (lo <=? hi) && (hi <=? Z.of_nat (length buf))
  then Ret (firstn (Z.to_nat (hi - lo)) (skipn (Z.to_nat lo) buf))
  else Panic "range end index out of range for slice".

Definition ERR_SIZE : string := "Wrong input buffer size.".
Definition ERR_X : string := "Invalid x coordinate".
Definition ERR_Y : string := "Invalid y coordinate".
Definition ERR_INF : string := "Point at infinity should just be a single zero byte".
Definition ERR_BYTES : string := "Invalid bytes for deserialization".
Definition ERR_TAG : string := "Invalid tag specified".

(** curve.rs:93-156 *)
Definition decode (e : Curve) (buf : list Z) : out (io_result Point) :=
  let size := size_bytes (c_f e) in
  let blen := Z.of_nat (length buf) in
  if negb ((blen =? 1) || (blen =? size + 1) || (blen =? 2 * size + 1))
  then Ret (Err ERR_SIZE)
  else
    match buf with
    | [] => Panic "index out of bounds"
    | tag :: _ =>
      xs <- slice buf 1 (size + 1) ;;
      let x_val := from_bytes_be xs in
      let p := modulus (c_f e) in
      if p <=? x_val then Ret (Err ERR_X)
      else if tag =? 0 then
        if negb (blen =? 1) then Ret (Err ERR_INF)
        else (P <- identity e ;; Ret (Ok P))
      else if tag =? 4 then
        if negb (blen =? 2 * size + 1) then Ret (Err ERR_BYTES)
        else (
          x <- elt (c_f e) x_val ;;
          ys <- slice buf (size + 1) blen ;;
          let y_val := from_bytes_be ys in
          if p <=? y_val then Ret (Err ERR_Y)
          else (
            y <- elt (c_f e) y_val ;;
            P <- new_point e x y ;; Ret (Ok P)))
      else if (tag =? 2) || (tag =? 3) then
        if negb (blen =? size + 1) then Ret (Err ERR_BYTES)
        else (
          x <- elt (c_f e) x_val ;;
          xx <- mul x x ;;
          xx_a <- add xx (c_a e) ;;
          xxx_ax <- mul xx_a x ;;
          xxx_ax_b <- add xxx_ax (c_b e) ;;
          y_sqrt <- sqrt xxx_ax_b ;;
          let deser_tag := sign_tag (sgn0 y_sqrt) in
          y <- (if negb (tag =? deser_tag) then neg y_sqrt else Ret y_sqrt) ;;
          P <- new_point e x y ;; Ret (Ok P))
      else Ret (Err ERR_TAG)
    end.

(** curve.rs:169-179 *)
Record Params := mkParams {
  pp_name : string; pp_p : string; pp_a : string; pp_b : string;
  pp_r : string; pp_h : string; pp_gx : string; pp_gy : string }.

(** curve.rs:181-194 *)
Definition curve_from (q : Params) : out Curve :=
  p <- unwrap (biguint_from_str_radix (pp_p q) 10) ;;
  let F := fp_new p in
  a <- from_str F (pp_a q) ;;
  b <- from_str F (pp_b q) ;;
  r <- unwrap (biguint_from_str_radix (pp_r q) 10) ;;
  h <- unwrap (biguint_from_str_radix (pp_h q) 10) ;;
  gx <- from_str F (pp_gx q) ;;
  gy <- from_str F (pp_gy q) ;;
  Ret (mkCurve F a b r gx gy h).
