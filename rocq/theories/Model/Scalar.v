(** src/weierstrass/scalar.rs, src/montgomery/scalar.rs and src/edwards/scalar.rs: three
    copies of the same code (they differ in the imported Point type and in the equality:
    derived for Weierstrass, written out for Edwards, none for Montgomery scalars). Line numbers are those of src/weierstrass/scalar.rs. *)
From Coq Require Import ZArith String Bool List.
From Verif.Model Require Import Out BigInt PrimeField.
Import ListNotations.
Open Scope Z_scope.
Open Scope out_scope.

(** lines 17-21 *)
Record Scalar := mkScalar { sk : Z; sr : Z }.

(** line 17 (derived); edwards/scalar.rs:66-70; montgomery/scalar.rs has no == *)
Definition scalar_eqb (a b : Scalar) : bool := (sk a =? sk b) && (sr a =? sr b).

(** lines 24-28 *)
Definition scalar_new (k r : Z) : out Scalar :=
  k' <- mod_floor k r ;; Ret (mkScalar k' r).

(** lines 53-58 *)
Definition scalar_red (a : Scalar) (k : Z) : out Scalar :=
  k' <- mod_floor k (sr a) ;; Ret (mkScalar k' (sr a)).

Definition SC_ERR_BIN_OP : string := "elements of different groups".
Definition SC_ERR_INV_OP : string := "numerator must be 1u32".

(** lines 66-74 *)
Definition sc_add (a b : Scalar) : out Scalar :=
  do_if_eq (sr a =? sr b) (scalar_red a (sk a + sk b)) SC_ERR_BIN_OP.
Definition sc_sub (a b : Scalar) : out Scalar :=
  do_if_eq (sr a =? sr b) (scalar_red a (sk a - sk b)) SC_ERR_BIN_OP.
Definition sc_mul (a b : Scalar) : out Scalar :=
  do_if_eq (sr a =? sr b) (scalar_red a (sk a * sk b)) SC_ERR_BIN_OP.
(** lines 59-63; unlike the field, the exponent is not reduced *)
Definition sc_inv_mod (a : Scalar) : out Scalar :=
  k <- modpow (sk a) (sr a - 2) (sr a) ;; scalar_red a k.
(** lines 75-79 *)
Definition sc_div (a b : Scalar) : out Scalar := i <- sc_inv_mod b ;; sc_mul a i.
(** line 80 *)
Definition sc_neg (a : Scalar) : out Scalar := scalar_red a (- sk a).
(** lines 82-88 *)
Definition sc_u32_div (k : Z) (a : Scalar) : out Scalar :=
  do_if_eq (k =? 1) (sc_inv_mod a) SC_ERR_INV_OP.

(** lines 34-44 *)
Definition sc_to_bytes_be (a : Scalar) : out (list Z) :=
  if sk a <? 0 then Panic "called `unwrap()` on an error value"
  else pad_left ((bits (sr a) + 7) / 8) (to_bytes_be (sk a)).
(** lines 45-49 *)
Definition sc_to_bytes_le (a : Scalar) : out (list Z) :=
  b <- sc_to_bytes_be a ;; Ret (rev b).

(** usize arithmetic on a 64-bit target *)
Definition usize_modulus : Z := 2 ^ 64.

(** [oc]: the build has overflow checks (debug profile) *)
Definition usize_sub (oc : bool) (a b : Z) : out Z :=
  if oc && (a <? b) then Panic "attempt to subtract with overflow"
  else Ret ((a - b) mod usize_modulus).
Definition usize_add (oc : bool) (a b : Z) : out Z :=
  if oc && (usize_modulus <=? a + b) then Panic "attempt to add with overflow"
  else Ret ((a + b) mod usize_modulus).

(** lines 112-117 *)
Record Iterino := mkIterino { it_l : Z; it_i : Z; it_v : list Z; it_lr : bool }.

(** lines 121-135: one call of next(), giving the item and the iterator afterwards *)
Definition next (oc : bool) (it : Iterino) : out (option bool * Iterino) :=
  if it_i it <? it_l it then
    match nth_error (it_v it) (Z.to_nat (it_i it / 32)) with
    | None => Panic "index out of bounds"
    | Some w =>
        let b := negb (Z.land (Z.shiftr w (it_i it mod 32)) 1 =? 0) in
        i' <- (if it_lr it then Ret ((it_i it - 1) mod usize_modulus)
               else usize_add oc (it_i it) 1) ;;
        Ret (Some b, mkIterino (it_l it) i' (it_v it) (it_lr it))
    end
  else Ret (None, it).

(** lines 139-145 *)
Definition iter_lr (oc : bool) (a : Scalar) : out Iterino :=
  let l := bits (sk a) in
  i <- usize_sub oc l 1 ;;
  Ret (mkIterino l i (to_u32_digits (sk a)) true).
(** lines 146-152 *)
Definition iter_rl (a : Scalar) : out Iterino :=
  Ret (mkIterino (bits (sk a)) 0 (to_u32_digits (sk a)) false).

(** A [for item in it { st = body(st, item) }] loop. The fuel only makes the recursion
    structural; every use passes more fuel than the loop has rounds and the proofs show the
    out-of-fuel outcome does not occur. *)
Fixpoint for_each {St : Type} (fuel : nat) (oc : bool) (it : Iterino) (st : St)
  (body : St -> bool -> out St) : out St :=
  match fuel with
  | O => Panic "model: out of fuel"
  | S k =>
      r <- next oc it ;;
      match fst r with
      | None => Ret st
      | Some b => st' <- body st b ;; for_each k oc (snd r) st' body
      end
  end.

(** all items an iterator yields, in order *)
Definition drain (oc : bool) (it : Iterino) : out (list bool) :=
  for_each (S (Z.to_nat (it_l it))) oc it [] (fun acc b => Ret (acc ++ [b])).
