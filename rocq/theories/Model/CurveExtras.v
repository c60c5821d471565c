(** Remaining methods of the trait EllipticCurve (src/ellipticcurve.rs:36-52): order, cofactor and field of a curve.
    BigUint::to_bigint never fails, so the unwrap in get_cofactor has no panic case. *)
From Coq Require Import ZArith.
From Verif.Model Require Import BigInt PrimeField.
From Verif.Model Require WCurve MCurve ECurve.
Open Scope Z_scope.

(** weierstrass/curve.rs:73-81 *)
Definition w_get_order (e : WCurve.Curve) : Z := WCurve.c_r e.
Definition w_get_field (e : WCurve.Curve) : Fp := WCurve.c_f e.
Definition w_get_cofactor (e : WCurve.Curve) : Z := WCurve.c_h e.
(** montgomery/curve.rs:75-83 *)
Definition m_get_order (e : MCurve.Curve) : Z := MCurve.c_r e.
Definition m_get_cofactor (e : MCurve.Curve) : Z := MCurve.c_h e.
Definition m_get_field (e : MCurve.Curve) : Fp := MCurve.c_f e.
(** edwards/curve.rs:86-94 *)
Definition e_get_order (e : ECurve.Curve) : Z := ECurve.c_r e.
Definition e_get_cofactor (e : ECurve.Curve) : Z := ECurve.c_h e.
Definition e_get_field (e : ECurve.Curve) : Fp := ECurve.c_f e.
