(** Maps of the model between fields and curves, read as the mathematical maps of Spec/Maps.v, Spec/RatMaps.v and Spec/Isogeny.v. *)
From Coq Require Import ZArith Znumtheory List.
From Verif.Spec Require Import Arith Curve RatMaps Maps Isogeny Elements.
From Verif.Spec Require WPoints MPoints EPoints.
From Verif.Model Require Import Out BigInt PrimeField RationalMaps.
From Verif.Model Require WCurve MCurve ECurve.
Import WPoints(weier).
Import MPoints(mont).
Import EPoints(edw).
Import ListNotations.
Open Scope Z_scope.

(** the field is one whose square roots the code computes and the coefficients are canonical; nothing
    is assumed about the curve itself *)
Definition wfield (e : WCurve.Curve) : Prop :=
  let p := modulus (WCurve.c_f e) in
  prime p /\ 2 < p /\ sqrt_modulus p /\ valid p (WCurve.c_a e) /\ valid p (WCurve.c_b e).
Definition mfield (e : MCurve.Curve) : Prop :=
  let p := modulus (MCurve.c_f e) in
  prime p /\ 2 < p /\ sqrt_modulus p /\ valid p (MCurve.c_a e) /\ valid p (MCurve.c_b e).

(** the two curves and the constant of the map fit together *)
Definition birat (m : Ed2Mt25519) : Prop :=
  let p := modulus (ECurve.c_f (ed_e0 m)) in
  edw (ed_e0 m) /\ mont (ed_e1 m) /\ modulus (MCurve.c_f (ed_e1 m)) = p /\ valid p (ed_invsqr_d m)
  /\ birat_params p (val (ECurve.c_a (ed_e0 m))) (val (ECurve.c_d (ed_e0 m))) (val (MCurve.c_a (ed_e1 m))) (val (ed_invsqr_d m)).
(** the map between their points *)
Definition bmap (m : Ed2Mt25519) : Z * Z -> apoint -> Prop :=
  birational (modulus (ECurve.c_f (ed_e0 m))) (val (ed_invsqr_d m)).

(** the two curves of the map fit together *)
Definition iso4 (m : Ed4isoMt448) : Prop :=
  let p := modulus (ECurve.c_f (e4_e0 m)) in
  edw (e4_e0 m) /\ mont (e4_e1 m) /\ modulus (MCurve.c_f (e4_e1 m)) = p
  /\ isogeny4_params p (val (ECurve.c_a (e4_e0 m))) (val (ECurve.c_d (e4_e0 m))) (val (MCurve.c_a (e4_e1 m))).
(** the maps between their points *)
Definition imap (m : Ed4isoMt448) : Z * Z -> apoint -> Prop := isogeny4 (modulus (ECurve.c_f (e4_e0 m))).
Definition dmap (m : Ed4isoMt448) : apoint -> Z * Z -> Prop := isogeny4_dual (modulus (ECurve.c_f (e4_e0 m))).

(** the Elligator 2 image of u on the Montgomery curve e with parameter z *)
Definition ell2_image (e : MCurve.Curve) (z u : Z) (x y : Z) : Prop :=
  ell2_point (modulus (MCurve.c_f e)) (val (MCurve.c_a e)) (val (MCurve.c_b e)) z u x y.

(** the coefficients of the model are those of the specification *)
Definition coefs (p : Z) (l : list FpElt) (l' : list Z) : Prop := Forall2 (fun x c => valid p x /\ val x = c) l l'.
(** the map of the model is the isogeny i between its two curves *)
Definition isog (m : Iso) (i : isogeny) : Prop :=
  let p := modulus (WCurve.c_f (iso_e0 m)) in
  weier (iso_e0 m) /\ weier (iso_e1 m) /\ modulus (WCurve.c_f (iso_e1 m)) = p /\ val (WCurve.c_a (iso_e1 m)) = 0
  /\ coefs p (iso_x_num m) (i_xn i) /\ coefs p (iso_x_den m) (i_xd i) /\ coefs p (iso_y_num m) (i_yn i) /\ coefs p (iso_y_den m) (i_yd i)
  /\ isogeny_params p i (val (WCurve.c_a (iso_e0 m))) (val (WCurve.c_b (iso_e0 m))) (val (WCurve.c_b (iso_e1 m))).
(** the tuple has canonical coordinates in the field of the domain *)
Definition tuple (m : Iso) (P : WCurve.Point) : Prop :=
  let p := modulus (WCurve.c_f (iso_e0 m)) in valid p (WCurve.px (WCurve.pc P)) /\ valid p (WCurve.py (WCurve.pc P)).
(** the image of a point under i, on coordinates *)
Definition image (m : Iso) (i : isogeny) : Z -> Z -> Z -> Z -> Prop := isogeny_image (modulus (WCurve.c_f (iso_e0 m))) i.

(** the isogeny i as a map of points of the domain of m *)
Definition maps (m : Iso) (i : isogeny) : apoint -> apoint -> Prop := isogeny_map (modulus (WCurve.c_f (iso_e0 m))) i.
