(** src/edwards/curve.rs and src/edwards/point.rs *)
From Coq Require Import ZArith String Bool List.
From Verif.Model Require Import Out BigInt PrimeField Scalar.
Import ListNotations.
Open Scope Z_scope.
Open Scope out_scope.

(** curve.rs:22-31 *)
Record Curve := mkCurve {
  c_f : Fp; c_a : FpElt; c_d : FpElt; c_r : Z; c_gx : FpElt; c_gy : FpElt; c_h : Z }.

(** curve.rs:22, derived PartialEq *)
Definition curve_eqb (e1 e2 : Curve) : bool :=
  fp_eqb (c_f e1) (c_f e2) && fpelt_eqb (c_a e1) (c_a e2) && fpelt_eqb (c_d e1) (c_d e2)
  && (c_r e1 =? c_r e2) && fpelt_eqb (c_gx e1) (c_gx e2) && fpelt_eqb (c_gy e1) (c_gy e2)
  && (c_h e1 =? c_h e2).

(** point.rs:16-27 *)
Record ProyCoordinates := mkProy { px : FpElt; py : FpElt; ptt : FpElt; pz : FpElt }.
Record Point := mkPoint { pe : Curve; pc : ProyCoordinates }.

Definition ERR_ECC_NEW : string := "not valid point".
Definition ERR_MUL_OP : string := "Scalar don't match with point".
Definition ERR_ADD_OP : string := "points of different curves".

(** curve.rs:72-85 *)
Definition is_on_curve (e : Curve) (p : ProyCoordinates) : out bool :=
  x2 <- sqr (px p) ;; y2 <- sqr (py p) ;; t2 <- sqr (ptt p) ;; z2 <- sqr (pz p) ;;
  ax <- mul x2 (c_a e) ;; l1 <- add ax y2 ;;
  dt <- mul t2 (c_d e) ;; r1 <- add dt z2 ;;
  l2 <- mul (px p) (py p) ;;
  r2 <- mul (ptt p) (pz p) ;;
  e1 <- sub l1 r1 ;;
  e2 <- sub l2 r2 ;;
  Ret (is_zero e1 && is_zero e2).

(** curve.rs:34-38 *)
Definition new_proy_point (e : Curve) (c : ProyCoordinates) : out Point :=
  ok <- is_on_curve e c ;; do_if_eq ok (Ret (mkPoint e c)) ERR_ECC_NEW.

(** curve.rs:45-58 *)
Definition new_point (e : Curve) (x y : FpElt) : out Point :=
  t <- mul x y ;;
  o <- one (c_f e) ;;
  let c := mkProy x y t o in
  ok <- is_on_curve e c ;; do_if_eq ok (Ret (mkPoint e c)) ERR_ECC_NEW.

(** curve.rs:60-62 *)
Definition new_scalar (e : Curve) (k : Z) : out Scalar := scalar_new k (c_r e).

(** curve.rs:63-71 *)
Definition identity (e : Curve) : out Point :=
  x <- zero (c_f e) ;; y <- one (c_f e) ;; t <- zero (c_f e) ;; z <- one (c_f e) ;;
  new_proy_point e (mkProy x y t z).

(** curve.rs:95-102 *)
Definition get_generator (e : Curve) : out Point :=
  t <- mul (c_gx e) (c_gy e) ;;
  z <- one (c_f e) ;; new_proy_point e (mkProy (c_gx e) (c_gy e) t z).

(** point.rs:31-33 *)
Definition pt_is_zero (P : Point) : bool :=
  is_zero (px (pc P)) && negb (is_zero (py (pc P))) && is_zero (ptt (pc P))
  && negb (is_zero (pz (pc P))).

(** point.rs:56-62; t is recomputed from the new x and y *)
Definition normalize (P : Point) : out Point :=
  let c := pc P in
  inv_z <- u32_div 1 (pz c) ;;
  x <- mul (px c) inv_z ;;
  y <- mul (py c) inv_z ;;
  t <- mul x y ;;
  Ret (mkPoint (pe P) (mkProy x y t (set_one (pz c)))).

(** point.rs:63-70 *)
Definition core_neg (P : Point) : out Point :=
  x <- neg (px (pc P)) ;;
  t <- neg (ptt (pc P)) ;;
  new_proy_point (pe P) (mkProy x (py (pc P)) t (pz (pc P))).

(** point.rs:71-93 *)
Definition core_add (P Q : Point) : out Point :=
  let x1 := px (pc P) in let y1 := py (pc P) in let t1 := ptt (pc P) in let z1 := pz (pc P) in
  let x2 := px (pc Q) in let y2 := py (pc Q) in let t2 := ptt (pc Q) in let z2 := pz (pc Q) in
  let a_ec := c_a (pe P) in let d_ec := c_d (pe P) in
  aa <- mul x1 x2 ;;
  bb <- mul y1 y2 ;;
  cc <- mul d_ec t1 ;; cc <- mul cc t2 ;;
  dd <- mul z1 z2 ;;
  s1 <- add x1 y1 ;; s2 <- add x2 y2 ;; ee <- mul s1 s2 ;; ee <- sub ee aa ;; ee <- sub ee bb ;;
  ff <- sub dd cc ;;
  gg <- add dd cc ;;
  aaa <- mul aa a_ec ;; hh <- sub bb aaa ;;
  x3 <- mul ee ff ;;
  y3 <- mul gg hh ;;
  t3 <- mul ee hh ;;
  z3 <- mul ff gg ;;
  new_proy_point (pe P) (mkProy x3 y3 t3 z3).

(** point.rs:120-122 *)
Definition pt_add (P Q : Point) : out Point :=
  do_if_eq (curve_eqb (pe P) (pe Q)) (core_add P Q) ERR_ADD_OP.
(** point.rs:124 *)
Definition pt_neg (P : Point) : out Point := core_neg P.
(** point.rs:123 *)
Definition pt_sub (P Q : Point) : out Point := nQ <- pt_neg Q ;; pt_add P nQ.

(** point.rs:94-103 *)
Definition core_mul (oc : bool) (P : Point) (k : Scalar) : out Point :=
  q <- identity (pe P) ;;
  it <- iter_lr oc k ;;
  for_each (S (Z.to_nat (it_l it))) oc it q (fun q ki =>
    q <- pt_add q q ;;
    if ki then pt_add q P else Ret q).

(** point.rs:125-128 *)
Definition pt_mul (oc : bool) (P : Point) (k : Scalar) : out Point :=
  do_if_eq (c_r (pe P) =? sr k) (core_mul oc P k) ERR_MUL_OP.

(** point.rs:108-118 *)
Definition pt_eqb (P Q : Point) : out bool :=
  x1z2 <- mul (px (pc P)) (pz (pc Q)) ;;
  z1x2 <- mul (pz (pc P)) (px (pc Q)) ;;
  y1z2 <- mul (py (pc P)) (pz (pc Q)) ;;
  z1y2 <- mul (pz (pc P)) (py (pc Q)) ;;
  t1z2 <- mul (ptt (pc P)) (pz (pc Q)) ;;
  z1t2 <- mul (pz (pc P)) (ptt (pc Q)) ;;
  Ret (curve_eqb (pe P) (pe Q) && fpelt_eqb x1z2 z1x2 && fpelt_eqb y1z2 z1y2
       && fpelt_eqb t1z2 z1t2).

(** [(s >> 1) & 0x01] of an i32 sign: point.rs:44, curve.rs:140 *)
Definition sign_bit (s : Z) : Z := Z.land (Z.shiftr s 1) 1.

(** [(modulus.bits() as usize + 1 + 7) / 8]: curve.rs:110, point.rs:47 *)
Definition enc_size (F : Fp) : Z := (bits (modulus F) + 1 + 7) / 8.

(** Vec::resize(len, 0) *)
Definition resize (l : list Z) (len : nat) : list Z := firstn len l ++ repeat 0 (len - length l).

(** apply a function to the last byte; [enc.len() - 1] underflows on the empty vector *)
Definition update_last (g : Z -> Z) (l : list Z) : out (list Z) :=
  match rev l with
  | [] => Panic "attempt to subtract with overflow"
  | b :: l' => Ret (rev (g b :: l'))
  end.

(** point.rs:37-52; the compress argument is ignored *)
Definition encode (P : Point) (compress : bool) : out (list Z) :=
  P' <- normalize P ;;
  let x := px (pc P') in let y := py (pc P') in
  let x_0 := (Z.shiftl (sign_bit (sgn0 x)) 7) mod 256 in
  enc <- elt_to_bytes_le y ;;
  let size := enc_size (c_f (pe P)) in
  update_last (fun b => Z.lor b x_0) (resize enc (Z.to_nat size)).

Definition ERR_SIZE : string := "Wrong input buffer size.".
Definition ERR_Y : string := "Invalid y value chosen".
Definition ERR_SQRT : string := "Failed decoding on square root".

(** curve.rs:108-146 *)
Definition decode (e : Curve) (buf : list Z) : out (io_result Point) :=
  let p := modulus (c_f e) in
  let size := enc_size (c_f e) in
  if negb (Z.of_nat (length buf) =? size) then Ret (Err ERR_SIZE)
  else
    match rev buf with
    | [] => Panic "attempt to subtract with overflow"
    | last :: _ =>
      let x_0 := Z.land (Z.shiftr last 7) 1 in
      y_bytes <- update_last (fun b => Z.land b 127) buf ;;
      let y_zz := from_bytes_le y_bytes in
      if p <=? y_zz then Ret (Err ERR_Y)
      else (
        y <- elt (c_f e) y_zz ;;
        yy <- mul y y ;;
        o <- one (c_f e) ;; minus_one <- neg o ;;
        u <- add yy minus_one ;;
        dyy <- mul (c_d e) yy ;; v <- sub dyy (c_a e) ;;
        u_inv_v <- div u v ;;
        x_sqrt <- sqrt u_inv_v ;;
        z <- zero (c_f e) ;;
        if fpelt_eqb x_sqrt z && (x_0 =? 1) then Ret (Err ERR_SQRT)
        else (
          let tag := sign_bit (sgn0 x_sqrt) in
          x <- (if negb (tag =? x_0) then neg x_sqrt else Ret x_sqrt) ;;
          P <- new_point e x y ;; Ret (Ok P)))
    end.

(** curve.rs:159-169 *)
Record Params := mkParams {
  pp_name : string; pp_p : string; pp_a : string; pp_d : string;
  pp_r : string; pp_h : string; pp_gx : string; pp_gy : string }.

(** curve.rs:171-184 *)
Definition curve_from (q : Params) : out Curve :=
  p <- unwrap (biguint_from_str_radix (pp_p q) 10) ;;
  let F := fp_new p in
  a <- from_str F (pp_a q) ;;
  d <- from_str F (pp_d q) ;;
  r <- unwrap (biguint_from_str_radix (pp_r q) 10) ;;
  h <- unwrap (biguint_from_str_radix (pp_h q) 10) ;;
  gx <- from_str F (pp_gx q) ;;
  gy <- from_str F (pp_gy q) ;;
  Ret (mkCurve F a d r gx gy h).
