(** C77: how many multiples of the base point hashing reaches. *)
From Coq Require Import ZArith Znumtheory Lia String Bool List.
From Verif.Spec Require Import Arith Curve Order Elements Counting.
From Verif.Spec Require WPoints MPoints EPoints.
From Verif.Spec Require Instances.
From Verif.Model Require Import Out BigInt PrimeField Scalar CurveExtras.
From Verif.Model Require WCurve MCurve ECurve.
From Verif.Model Require Instances.
From Verif.Model Require Import Maps RationalMaps.
From Verif.Proofs Require Import FieldProps CountP.
From Verif.Proofs Require WeierProps MontProps EdwProps InstProps OrderProps ClearProps FibreInstProps Fibre448Props ImageProps IsogProps.
From Verif.Spec Require Export Shipped Membership Clearing.
Import Spec.Instances Model.Instances.
Import ListNotations.
Open Scope Z_scope.

(** f things at most go to one: ceil(m / f) are reached from m *)
Lemma reach {S R : Type} (dec : forall A B : R, {A = B} + {A <> B}) (reached : S -> Prop) (to : R -> S -> Prop) (m : nat) (f : Z) : 0 < f -> at_least m reached ->
  (forall A, reached A -> exists C, to C A /\ counted (to C) f) -> (forall A C C', to C A -> to C' A -> C = C') ->
  at_least (Z.to_nat ((Z.of_nat m + f - 1) / f)) (fun C => exists A, reached A /\ to C A).
Proof.
  intros f0 (l & N & H & L) T F.
  assert (X : exists c, (forall A, In A l -> exists C, In C c /\ to C A) /\ forall C, In C c -> counted (to C) f /\ exists A, reached A /\ to C A).
  { clear N L. induction l as [|A l IH]; [exists []; split; [intros A []|intros C []]|]. destruct IH as (c & H1 & H2); [intros B HB; apply H; right; exact HB|].
    destruct (T A (H A (or_introl eq_refl))) as (C & HC & CC). exists (C :: c). split.
    - intros B [<-|HB]; [exists C; split; [left; reflexivity|exact HC]|]. destruct (H1 B HB) as (D & HD & TD). exists D. split; [right; exact HD|exact TD].
    - intros D [<-|HD]; [split; [exact CC|]; exists A; split; [apply H; left; reflexivity|exact HC]|exact (H2 D HD)]. }
  destruct X as (c & H1 & H2). exists (nodup dec c). split; [apply NoDup_nodup|]. split; [intros C HC; apply nodup_In in HC; exact (proj2 (H2 C HC))|].
  assert (K : counted (fun A => exists C, In C (nodup dec c) /\ to C A) (f * Z.of_nat (List.length (nodup dec c)))).
  { rewrite <- sum_const. apply count_pairs; [apply NoDup_nodup|intros C HC; apply nodup_In in HC; exact (proj1 (H2 C HC))|]. intros C C' A _ _. apply F. }
  destruct K as (k & Nk & Hk & Ek). assert (L2 : (List.length l <= List.length k)%nat).
  { apply NoDup_incl_length; [exact N|]. intros A HA. apply Hk. destruct (H1 A HA) as (C & HC & TC). exists C. split; [apply nodup_In; exact HC|exact TC]. }
  set (q := List.length (nodup dec c)) in *. assert (Z.of_nat m <= f * Z.of_nat q) by lia.
  assert ((Z.of_nat m + f - 1) / f < Z.of_nat q + 1) by (apply Z.div_lt_upper_bound; nia). lia.
Qed.
Lemma hash_reach {MP S : Type} (dec : forall A B : S, {A = B} + {A <> B}) (point : MP -> S -> Prop) (mul : bool -> MP -> Scalar -> out MP) (k : Scalar) (gen : S -> Prop)
  (p : Z) (map : FpElt -> out MP) (m : nat) (f : Z) : (forall P A B, point P A -> point P B -> A = B) -> 0 < f ->
  (forall C, gen C -> counted (sent_to point mul k C) f) -> (forall P A, point P A -> exists C, gen C /\ sent_to point mul k C A) ->
  at_least m (fun A => exists u, sent p map point A u) ->
  at_least (Z.to_nat ((Z.of_nat m + f - 1) / f)) (fun C => gen C /\ exists u, hashes_to p map mul point k C u).
Proof.
  intros U f0 HC HS HM.
  assert (FN : forall A C C', sent_to point mul k C A -> sent_to point mul k C' A -> C = C').
  { intros A C C' ((P & HP) & H) (_ & H'). destruct (H false P HP) as (Q & EQ & HQ). destruct (H' false P HP) as (Q' & EQ' & HQ'). rewrite EQ in EQ'. injection EQ' as <-. exact (U _ _ _ HQ HQ'). }
  destruct (reach dec _ (sent_to point mul k) m f f0 HM) as (l & N & H & L); [|exact FN|].
  - intros A (u & _ & P & _ & HP). destruct (HS P A HP) as (C & GC & SC). exists C. split; [exact SC|exact (HC C GC)].
  - exists l. split; [exact N|]. split; [|exact L]. intros C IC. destruct (H C IC) as (A & (u & Vu & P & EP & HP) & SA). destruct (HS P A HP) as (C' & GC & SC).
    rewrite <- (FN A C C' SA SC) in GC. split; [exact GC|]. exists u. split; [exact Vu|]. exists P. split; [exact EP|]. intro oc. exact (proj2 SA oc P HP).
Qed.
Lemma count_eq {T : Type} m f f' q (P : T -> Prop) : f = f' -> 0 <= m -> (m + f' - 1) / f' = q -> at_least (Z.to_nat ((Z.of_nat (Z.to_nat m) + f - 1) / f)) P -> at_least (Z.to_nat q) P.
Proof. intros -> H <- A. rewrite Z2Nat.id in A by exact H. exact A. Qed.

(** *** Elligator 2 and the cofactor: about half of the multiples of the base point *)
Lemma c77_hash_curve25519 : exists e k, CURVE25519 = Ret e /\ MCurve.new_scalar e (m_get_cofactor e) = Ret k /\
  forall z, let p := modulus (MCurve.c_f e) in valid p z -> ~ square_mod p (val z) ->
  exists m, ell2_new e z = Ret m /\ at_least (Z.to_nat (2 ^ 251 - 1)) (fun C =>
    generated (MPoints.msum e) Infinity (Affine (m_gx std_CURVE25519) (m_gy std_CURVE25519)) (m_r std_CURVE25519) C
    /\ exists u, hashes_to p (ell2_map m) MCurve.pt_mul (MPoints.mpoint e) k C u).
Proof.
  destruct (ClearProps.c77_mont_shipped _ _ (or_introl eq_refl)) as (e & k & E & Ek & HC & HS). exists e, k. split; [exact E|]. split; [exact Ek|]. intros z p Vz Nz.
  destruct ImageProps.c63_curve25519_exact as (e' & E' & HM). assert (e' = e) by congruence. subst e'. destruct (HM z Vz Nz) as (m & Em & (AL & _)). exists m. split; [exact Em|].
  destruct InstProps.c48_CURVE25519 as (e' & E2 & _ & _ & _ & _ & _ & _ & _ & _ & MG & _). assert (e' = e) by congruence. subst e'. destruct MG as (W & _).
  apply (count_eq (2 ^ 254 - 9) (m_h std_CURVE25519) 8); [vm_compute; reflexivity|vm_compute; discriminate|vm_compute; reflexivity|].
  apply (hash_reach apoint_dec _ _ k _ p _ _ (m_h std_CURVE25519) (proj1 (MontProps.c32_mont_representation e W))); [vm_compute; reflexivity|exact HC| |exact AL]. intros P A HP. apply HS, HP.
Qed.
Lemma c77_hash_curve448 : exists e k, CURVE448 = Ret e /\ MCurve.new_scalar e (m_get_cofactor e) = Ret k /\
  forall z, let p := modulus (MCurve.c_f e) in valid p z -> ~ square_mod p (val z) ->
  exists m, ell2_new e z = Ret m /\ at_least (Z.to_nat (2 ^ 445 - 2 ^ 221)) (fun C =>
    generated (MPoints.msum e) Infinity (Affine (m_gx std_CURVE448) (m_gy std_CURVE448)) (m_r std_CURVE448) C
    /\ exists u, hashes_to p (ell2_map m) MCurve.pt_mul (MPoints.mpoint e) k C u).
Proof.
  destruct (ClearProps.c77_mont_shipped _ _ (or_intror (or_introl eq_refl))) as (e & k & E & Ek & HC & HS). exists e, k. split; [exact E|]. split; [exact Ek|]. intros z p Vz Nz.
  destruct ImageProps.c63_curve448_exact as (e' & E' & HM). assert (e' = e) by congruence. subst e'. destruct (HM z Vz Nz) as (m & Em & (AL & _)). exists m. split; [exact Em|].
  destruct InstProps.c48_CURVE448 as (e' & E2 & _ & _ & _ & _ & _ & _ & _ & _ & MG & _). assert (e' = e) by congruence. subst e'. destruct MG as (W & _).
  apply (count_eq (2 ^ 447 - 2 ^ 223 - 1) (m_h std_CURVE448) 4); [vm_compute; reflexivity|vm_compute; discriminate|vm_compute; reflexivity|].
  apply (hash_reach apoint_dec _ _ k _ p _ _ (m_h std_CURVE448) (proj1 (MontProps.c32_mont_representation e W))); [vm_compute; reflexivity|exact HC| |exact AL]. intros P A HP. apply HS, HP.
Qed.
Lemma c77_hash_edwards25519 : exists m k, edwards25519_to_curve25519 = Ret m /\ EDWARDS25519 = Ret (ed_e0 m) /\ ECurve.new_scalar (ed_e0 m) (e_get_cofactor (ed_e0 m)) = Ret k /\
  forall z, let p := modulus (ECurve.c_f (ed_e0 m)) in valid p z -> ~ square_mod p (val z) ->
  exists M, ed_ell2_new (ed_e0 m) z (Some (R25519 m)) = Ret M /\ at_least (Z.to_nat (2 ^ 251 - 1)) (fun C =>
    generated (EPoints.esum (ed_e0 m)) (0, 1) (e_gx std_EDWARDS25519, e_gy std_EDWARDS25519) (e_r std_EDWARDS25519) C
    /\ exists u, hashes_to p (ed_ell2_map M) ECurve.pt_mul (EPoints.epoint (ed_e0 m)) k C u).
Proof.
  destruct ImageProps.c63_edwards25519_exact as (m & X & X0 & HM). destruct (ClearProps.c77_edw_shipped _ _ (or_introl eq_refl)) as (e & k & E & Ek & HC & HS).
  assert (e = ed_e0 m) by congruence. subst e. exists m, k. split; [exact X|]. split; [exact X0|]. split; [exact Ek|]. intros z p Vz Nz.
  destruct (HM z Vz Nz) as (M & EM & (AL & _)). exists M. split; [exact EM|].
  destruct InstProps.c48_EDWARDS25519 as (e' & E2 & _ & _ & _ & _ & _ & _ & _ & EG & _). assert (e' = ed_e0 m) by congruence. subst e'. destruct EG as (W & _).
  apply (count_eq (2 ^ 254 - 9) (e_h std_EDWARDS25519) 8); [vm_compute; reflexivity|vm_compute; discriminate|vm_compute; reflexivity|].
  apply (hash_reach ClearProps.pair_dec _ _ k _ p _ _ (e_h std_EDWARDS25519) (proj1 (EdwProps.c32_edw_representation _ W))); [vm_compute; reflexivity|exact HC| |exact AL]. intros P A HP. apply HS, HP.
Qed.
Lemma c77_hash_edwards448 : exists m k, edwards448_to_curve448 = Ret m /\ EDWARDS448 = Ret (e4_e0 m) /\ ECurve.new_scalar (e4_e0 m) (e_get_cofactor (e4_e0 m)) = Ret k /\
  forall z, let p := modulus (ECurve.c_f (e4_e0 m)) in valid p z -> ~ square_mod p (val z) ->
  exists M, ed_ell2_new (e4_e0 m) z (Some (R448 m)) = Ret M /\ at_least (Z.to_nat (2 ^ 443 - 2 ^ 219)) (fun C =>
    generated (EPoints.esum (e4_e0 m)) (0, 1) (e_gx std_EDWARDS448, e_gy std_EDWARDS448) (e_r std_EDWARDS448) C
    /\ exists u, hashes_to p (ed_ell2_map M) ECurve.pt_mul (EPoints.epoint (e4_e0 m)) k C u).
Proof.
  destruct Fibre448Props.c63_edwards448 as (m & X & X0 & HM). destruct (ClearProps.c77_edw_shipped _ _ (or_intror (or_introl eq_refl))) as (e & k & E & Ek & HC & HS).
  assert (e = e4_e0 m) by congruence. subst e. exists m, k. split; [exact X|]. split; [exact X0|]. split; [exact Ek|]. intros z p Vz Nz.
  destruct (HM z Vz Nz) as (M & EM & _ & AL). exists M. split; [exact EM|].
  destruct InstProps.c48_EDWARDS448 as (e' & E2 & p0 & _ & _ & _ & _ & _ & _ & EG & _). assert (e' = e4_e0 m) by congruence. subst e'. destruct EG as (W & _).
  apply (count_eq ((p + 3) / 8) (e_h std_EDWARDS448) 4); [vm_compute; reflexivity|unfold p; rewrite p0; vm_compute; discriminate|unfold p; rewrite p0; vm_compute; reflexivity|].
  apply (hash_reach ClearProps.pair_dec _ _ k _ p _ _ (e_h std_EDWARDS448) (proj1 (EdwProps.c32_edw_representation _ W))); [vm_compute; reflexivity|exact HC| |exact AL]. intros P A HP. apply HS, HP.
Qed.
(** *** simplified SWU through the 11-isogeny: at least one multiple of the base point in 44 *)
Lemma c77_hash_bls12381g1 : forall m z s, get_isogeny_bls12381g1 = Ret m -> valid (modulus (WCurve.c_f (iso_e0 m))) z -> sswuab0_new (iso_e1 m) z m = Ret s ->
  BLS12381G1 = Ret (iso_e1 m) /\ exists k, WCurve.new_scalar (iso_e1 m) (w_get_cofactor (iso_e1 m)) = Ret k
  /\ at_least (Z.to_nat (0x2a27dfc12667d07758722002ec3ada307b8ac746e8b995d11745d1740000001)) (fun C =>
    generated (WPoints.wsum (iso_e1 m)) Infinity (Affine (w_gx std_BLS12381G1) (w_gy std_BLS12381G1)) (w_r std_BLS12381G1) C
    /\ exists u, hashes_to (modulus (WCurve.c_f (iso_e0 m))) (sswuab0_map s) WCurve.pt_mul (WPoints.wpoint (iso_e1 m)) k C u).
Proof.
  intros m z s Em Vz Es. destruct (FibreInstProps.c63_bls12381g1 m z s Em Vz Es) as (E1 & _ & _ & AL). split; [exact E1|].
  destruct ClearProps.c77_bls as (e & k & E & Ek & HC & HS). assert (e = iso_e1 m) by congruence. subst e. exists k. split; [exact Ek|].
  destruct InstProps.c48_BLS12381G1 as (e & E2 & p1 & _ & _ & _ & _ & _ & _ & WG & _). assert (e = iso_e1 m) by congruence. subst e. destruct WG as (W & _).
  assert (p0 : modulus (WCurve.c_f (iso_e0 m)) = w_p std_BLS12381G1).
  { destruct IsogProps.c46_shipped as (m' & Em' & E0 & _ & _). assert (m' = m) by congruence. subst m'. destruct InstProps.c48_BLS12381G1_11ISO as (e & E3 & p3 & _). assert (e = iso_e0 m) by congruence. subst e. rewrite p3. vm_compute. reflexivity. }
  set (p := modulus (WCurve.c_f (iso_e0 m))) in *.
  apply (count_eq ((p / 4 - 10) / 11) 0x396C8C005555E1568C00AAAB0000AAAB 0x396C8C005555E1568C00AAAB0000AAAB); [reflexivity|rewrite p0; vm_compute; discriminate|rewrite p0; vm_compute; reflexivity|].
  apply (hash_reach apoint_dec _ _ k _ p _ _ 0x396C8C005555E1568C00AAAB0000AAAB (proj1 (WeierProps.c32_representation _ W))); [reflexivity|exact HC| |exact AL].
  intros P A HP. apply HS, HP.
Qed.
(** on y^2 = x^3 + 6 x^2 + x modulo 19 (20 points, cofactor 4) Elligator 2 reaches 9 points, so at least 3 of the 5 multiples
    of the base point are reached: here the field elements that hash to 0 G, .., 4 G *)
Example c77_hash_ex : MPoints.mgroup MontProps.E19
  /\ bind (ell2_new MontProps.E19 (MontProps.n19 2)) (fun m => bind (MCurve.get_generator MontProps.E19) (fun G =>
     Ret (map (fun j => filter (fun u => match bind (ell2_map m (MontProps.n19 u)) (fun P => bind (MCurve.pt_mul false P (mkScalar 4 5)) (fun Q =>
       bind (MCurve.pt_mul false G (mkScalar j 5)) (fun C => MCurve.pt_eqb Q C))) with Ret true => true | _ => false end) (map Z.of_nat (seq 0 19))) [0; 1; 2; 3; 4])))
  = Ret [[0; 3; 16]; [5; 6; 7; 12; 13; 14]; [1; 18]; [9; 10]; [2; 4; 8; 11; 15; 17]].
Proof. split; [exact MontProps.mgroup19|]. vm_compute. reflexivity. Qed.
