(** Protocols a caller builds from the operations of a curve: what they compute, and what is claimed of them.
    The operations are parameters, so that one definition serves all three kinds of curves. *)
From Coq Require Import ZArith.
From Verif.Spec Require Import Arith Curve Order Elements.
From Verif.Model Require Import Out Scalar.
Open Scope Z_scope.
Open Scope out_scope.

(** a reduced scalar; not 0 when the build checks overflow, where multiplying by 0 panics *)
Definition usable (oc : bool) (r : Z) (k : Scalar) : Prop := valid_scalar r k /\ (oc = true -> sk k <> 0).

Section Programs.
  Context {MP : Type} (mul : MP -> Scalar -> out MP) (add sub : MP -> MP -> out MP) (eqb : MP -> MP -> out bool).
  (** Schnorr: the response k + c a to the challenge c, and the check s G == R + c A *)
  Definition schnorr_respond (a k c : Scalar) : out Scalar := t <- sc_mul c a ;; sc_add k t.
  Definition schnorr_check (G A R : MP) (c s : Scalar) : out bool :=
    L <- mul G s ;; V <- mul A c ;; E <- add R V ;; eqb L E.
  (** the key that two answered challenges reveal: (s1 - s2) / (c1 - c2) *)
  Definition schnorr_extract (c1 s1 c2 s2 : Scalar) : out Scalar :=
    d <- sc_sub s1 s2 ;; e <- sc_sub c1 c2 ;; sc_div d e.
  (** ECDSA: s = (z + rho d) / k, and the point (z / s) G + (rho / s) Q that must be k G *)
  Definition ecdsa_sign (z rho d k : Scalar) : out Scalar := t <- sc_mul rho d ;; u <- sc_add z t ;; sc_div u k.
  Definition ecdsa_point (G Q : MP) (z rho s : Scalar) : out MP :=
    u <- sc_div z s ;; v <- sc_div rho s ;; U <- mul G u ;; V <- mul Q v ;; add U V.
  (** ElGamal: (k G, M + k Q), opened with the key a as C - a D *)
  Definition elgamal_encrypt (G Q M : MP) (k : Scalar) : out (MP * MP) :=
    D <- mul G k ;; S <- mul Q k ;; C <- add M S ;; Ret (D, C).
  Definition elgamal_decrypt (a : Scalar) (DC : MP * MP) : out MP := S <- mul (fst DC) a ;; sub (snd DC) S.
  (** blinded evaluation: the client sends b P, the server multiplies by k, the client by 1 / b *)
  Definition oprf (P : MP) (b k : Scalar) : out MP := B <- mul P b ;; E <- mul B k ;; i <- sc_u32_div 1 b ;; mul E i.
End Programs.

Section Claims.
  Context {MP S : Type} (point : MP -> S -> Prop) (sum : S -> S -> S -> Prop) (zero : S) (r : Z)
    (mul : bool -> MP -> Scalar -> out MP) (add sub : MP -> MP -> out MP) (eqb : MP -> MP -> out bool).
  (** of all the answers to a challenge, exactly the response passes the check *)
  Definition schnorr_exact (G : MP) : Prop :=
    forall oc a k c, usable oc r a -> usable oc r k -> usable oc r c ->
    exists A R s, mul oc G a = Ret A /\ mul oc G k = Ret R /\ schnorr_respond a k c = Ret s /\ valid_scalar r s
    /\ forall t, usable oc r t -> exists b, schnorr_check (mul oc) add eqb G A R c t = Ret b /\ (b = true <-> t = s).
  (** two answers to different challenges, for one commitment R, reveal the key: P is the multiple x G, if P is a multiple of G at all *)
  Definition schnorr_extracts (G : MP) (g : S) : Prop :=
    forall oc P A R B c1 s1 c2 s2, point P A -> generated sum zero g r A -> point R B ->
    usable oc r c1 -> usable oc r s1 -> usable oc r c2 -> usable oc r s2 -> c1 <> c2 ->
    schnorr_check (mul oc) add eqb G P R c1 s1 = Ret true -> schnorr_check (mul oc) add eqb G P R c2 s2 = Ret true ->
    exists x, schnorr_extract c1 s1 c2 s2 = Ret x /\ valid_scalar r x /\ multiple sum zero g (Z.to_nat (sk x)) A
    /\ (usable oc r x -> exists Q, mul oc G x = Ret Q /\ eqb Q P = Ret true).
  (** without that proviso they need not: P is not x G, though both answers pass *)
  Definition schnorr_fooled (G : MP) (P : MP) : Prop :=
    exists R c1 s1 c2 s2 x Q, usable true r c1 /\ usable true r s1 /\ usable true r c2 /\ usable true r s2 /\ c1 <> c2
    /\ (forall oc, schnorr_check (mul oc) add eqb G P R c1 s1 = Ret true /\ schnorr_check (mul oc) add eqb G P R c2 s2 = Ret true)
    /\ schnorr_extract c1 s1 c2 s2 = Ret x /\ mul false G x = Ret Q /\ eqb Q P = Ret false.
  (** the verifier's point is k G exactly when s is the signature; z is the hashed message, rho stands for the abscissa of k G *)
  Definition ecdsa_exact (G : MP) : Prop :=
    forall oc z rho d k, usable oc r z -> usable oc r rho -> usable oc r d -> valid_scalar r k -> sk k <> 0 ->
    exists Q R s, mul oc G d = Ret Q /\ mul oc G k = Ret R /\ ecdsa_sign z rho d k = Ret s /\ valid_scalar r s
    /\ forall t, valid_scalar r t -> sk t <> 0 ->
       exists W b, ecdsa_point (mul oc) add G Q z rho t = Ret W /\ eqb W R = Ret b /\ (b = true <-> t = s).
  (** what was encrypted is decrypted, for any base point P and any message M of the curve *)
  Definition elgamal_opens : Prop :=
    forall oc P A M B a k, point P A -> point M B -> usable oc r a -> usable oc r k ->
    exists Q DC D, mul oc P a = Ret Q /\ elgamal_encrypt (mul oc) add P Q M k = Ret DC
    /\ elgamal_decrypt (mul oc) sub a DC = Ret D /\ eqb D M = Ret true.
  (** blinding does not change the answer on the multiples of the base point *)
  Definition oprf_exact (g : S) : Prop :=
    forall oc P A b k, point P A -> generated sum zero g r A -> valid_scalar r b -> sk b <> 0 -> usable oc r k ->
    exists E F, oprf (mul oc) P b k = Ret E /\ mul oc P k = Ret F /\ eqb E F = Ret true.
  (** the blinded point says nothing about the point: every other point is reached, by exactly one blinding scalar *)
  Definition oprf_hides (g : S) : Prop :=
    forall oc P A Q B, point P A -> generated sum zero g r A -> A <> zero -> point Q B -> generated sum zero g r B -> B <> zero ->
    exists b, valid_scalar r b /\ sk b <> 0 /\ forall c, valid_scalar r c -> sk c <> 0 ->
      exists X t, mul oc P c = Ret X /\ eqb X Q = Ret t /\ (t = true <-> c = b).
  (** outside it may *)
  Definition oprf_fooled (P : MP) : Prop :=
    exists b k, usable true r b /\ usable true r k /\ forall oc, exists E F, oprf (mul oc) P b k = Ret E /\ mul oc P k = Ret F /\ eqb E F = Ret false.
End Claims.
