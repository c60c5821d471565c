(** The base points of the curves that the isogenies connect. *)
From Coq Require Import ZArith.
From Verif.Spec Require Import Curve.
From Verif.Spec Require Instances.
Open Scope Z_scope.

(** of the curve 3-isogenous to secp256k1, and of secp256k1 *)
Definition gen3 := Affine (Instances.w_gx Instances.std_SECP256K1_3ISO) (Instances.w_gy Instances.std_SECP256K1_3ISO).
Definition gen3' := Affine (Instances.w_gx Instances.std_SECP256K1) (Instances.w_gy Instances.std_SECP256K1).
(** of the curve 11-isogenous to BLS12-381 G1, and of BLS12-381 G1 *)
Definition gen11 := Affine (Instances.w_gx Instances.std_BLS12381G1_11ISO) (Instances.w_gy Instances.std_BLS12381G1_11ISO).
Definition gen11' := Affine (Instances.w_gx Instances.std_BLS12381G1) (Instances.w_gy Instances.std_BLS12381G1).
