(** C63: exactly how many points Elligator 2 reaches. *)
From Coq Require Import ZArith Znumtheory Lia String Bool List Field.
From Verif.Math Require Import Fld Zp Residue MapAlg Fibre.
From Verif.Spec Require Import Arith Curve Elements Morphisms Counting.
From Verif.Spec Require Instances Shipped.
From Verif.Spec Require EPoints MPoints.
From Verif.Model Require Import Out PrimeField RationalMaps Maps.
From Verif.Model Require Instances.
From Verif.Model Require MCurve ECurve.
From Verif.Proofs Require Import SmallP FieldP FieldProps CurveP MapsP.
From Verif.Proofs Require MontProps EdwProps MapsProps InstProps HashProps RatProps FibreProps FibreInstProps.
Import ListNotations.
Import Spec.Instances Model.Instances.
Open Scope Z_scope.

(** *** counting by representatives lo, .., hi *)
Definition zrange (lo hi : Z) : list Z := map (fun i => lo + Z.of_nat i) (seq 0 (Z.to_nat (hi - lo + 1))).
Lemma zrange_in lo hi z : In z (zrange lo hi) <-> lo <= z <= hi.
Proof.
  unfold zrange. rewrite in_map_iff. split.
  - intros (i & <- & H). apply in_seq in H. lia.
  - intro H. exists (Z.to_nat (z - lo)). split; [lia|]. apply in_seq. lia.
Qed.
Lemma zrange_length lo hi : List.length (zrange lo hi) = Z.to_nat (hi - lo + 1).
Proof. unfold zrange. rewrite map_length, seq_length. reflexivity. Qed.
Lemma zrange_nodup lo hi : NoDup (zrange lo hi).
Proof.
  unfold zrange. generalize (seq_NoDup (Z.to_nat (hi - lo + 1)) 0). generalize (seq 0 (Z.to_nat (hi - lo + 1))). intros l N.
  induction N as [|i l NI N IH]; [constructor|]. cbn [map]. constructor; [|exact IH]. intro H. apply in_map_iff in H. destruct H as (j & E & H). assert (j = i) by lia. subst j. contradiction.
Qed.
Section Count.
  Context {A : Type} (p lo hi : Z) (S : A -> FpElt -> Prop).
  Let el z := mkFpElt z (mkFp p).
  Hypothesis Sfun : forall x y u, S x u -> S y u -> x = y.
  Hypothesis Stot : forall z, lo <= z <= hi -> exists x, S x (el z).
  Hypothesis Scov : forall x u, S x u -> exists z, lo <= z <= hi /\ S x (el z).
  Hypothesis Sinj : forall x z z', lo <= z <= hi -> lo <= z' <= hi -> S x (el z) -> S x (el z') -> z = z'.
  Lemma choose_points l : (forall z, In z l -> lo <= z <= hi) -> NoDup l -> exists k, List.length k = List.length l /\ NoDup k /\ forall x, In x k -> exists z, In z l /\ S x (el z).
  Proof.
    intros R N. induction N as [|z l NI N IH]; [exists []; split; [reflexivity|split; [constructor|intros x []]]|].
    destruct IH as (k & L & Nk & Hk); [intros y Hy; apply R; right; exact Hy|]. destruct (Stot z (R z (or_introl eq_refl))) as (x & Hx).
    exists (x :: k). cbn. rewrite L. split; [reflexivity|]. split.
    - constructor; [|exact Nk]. intro H. destruct (Hk x H) as (z' & I & H'). assert (z' = z) by (apply (Sinj x); try assumption; apply R; [right; exact I|left; reflexivity]). subst z'. contradiction.
    - intros y [<-|Hy]; [exists z; split; [left; reflexivity|exact Hx]|]. destruct (Hk y Hy) as (z' & I & H'). exists z'. split; [right; exact I|exact H'].
  Qed.
  Lemma choose_reps l : (forall x, In x l -> exists u, S x u) -> NoDup l -> exists k, List.length k = List.length l /\ NoDup k /\ forall z, In z k -> lo <= z <= hi /\ exists x, In x l /\ S x (el z).
  Proof.
    intros R N. induction N as [|x l NI N IH]; [exists []; split; [reflexivity|split; [constructor|intros z []]]|].
    destruct IH as (k & L & Nk & Hk); [intros y Hy; apply R; right; exact Hy|]. destruct (R x (or_introl eq_refl)) as (u & Hu). destruct (Scov x u Hu) as (z & Hz & Hx).
    exists (z :: k). cbn. rewrite L. split; [reflexivity|]. split.
    - constructor; [|exact Nk]. intro H. destruct (Hk z H) as (_ & y & I & H'). assert (y = x) by exact (Sfun _ _ _ H' Hx). subst y. contradiction.
    - intros y [<-|Hy]; [split; [exact Hz|exists x; split; [left; reflexivity|exact Hx]]|]. destruct (Hk y Hy) as (Hy' & x' & I & H'). split; [exact Hy'|]. exists x'. split; [right; exact I|exact H'].
  Qed.
  Lemma count_by_reps : exactly (Z.to_nat (hi - lo + 1)) (fun x => exists u, S x u).
  Proof.
    split.
    - destruct (choose_points (zrange lo hi) (fun z => proj1 (zrange_in lo hi z)) (zrange_nodup lo hi)) as (k & L & N & H). exists k. split; [exact N|]. split.
      + intros x I. destruct (H x I) as (z & _ & Hz). exists (el z). exact Hz.
      + rewrite L, zrange_length. apply Nat.le_refl.
    - intros l N H. destruct (choose_reps l H N) as (k & L & Nk & Hk). rewrite <- L, <- (zrange_length lo hi). apply NoDup_incl_length; [exact Nk|].
      intros z I. apply zrange_in. apply Hk, I.
  Qed.
End Count.

Lemma sq_div p z z' : prime p -> 0 <= z -> 0 <= z' -> z + z' < p -> (p | z * z - z' * z') -> z = z'.
Proof.
  intros Hp H H' L D. replace (z * z - z' * z') with ((z - z') * (z + z')) in D by ring. apply prime_mult in D; [|exact Hp]. destruct D as [D|D].
  - destruct (Z.eq_dec (z - z') 0); [lia|]. apply Z.divide_opp_r in D as D'. destruct (Z_lt_le_dec 0 (z - z')); [apply Z.divide_pos_le in D; lia|apply Z.divide_pos_le in D'; lia].
  - destruct (Z.eq_dec (z + z') 0); [lia|]. apply Z.divide_pos_le in D; lia.
Qed.
Lemma half_rep p u : 2 < p -> prime p -> 0 <= u < p -> exists z, 0 <= z <= (p - 1) / 2 /\ (u <> 0 -> 1 <= z) /\ (p | u * u - z * z).
Proof.
  intros p2 Hp Hu. assert (O : p mod 2 = 1).
  { destruct (Z.eq_dec (p mod 2) 0) as [E|E]; [|pose proof (Z.mod_pos_bound p 2); lia]. apply Z.mod_divide in E; [|lia]. apply prime_divisors in E; [lia|exact Hp]. }
  pose proof (Z.div_mod (p - 1) 2 ltac:(lia)) as D. assert (M : (p - 1) mod 2 = 0) by (pose proof (Z.div_mod p 2 ltac:(lia)); symmetry; apply (Z.mod_unique_pos _ _ (p / 2)); lia).
  destruct (Z_le_gt_dec u ((p - 1) / 2)).
  - exists u. split; [lia|]. split; [lia|]. exists 0. ring.
  - exists (p - u). split; [lia|]. split; [lia|]. exists (2 * u - p). ring.
Qed.

(** *** Elligator 2 on any Montgomery curve *)
Section Ell.
  Variables (p : Z) (Hp : prime p) (p2 : 2 < p) (zz : Z) (Nz : ~ square_mod p zz) (A : Type) (S : A -> FpElt -> Prop).
  Let el z := mkFpElt z (mkFp p).
  Hypothesis Sval : forall x u, S x u -> valid p u.
  Hypothesis Sfun : forall x y u, S x u -> S y u -> x = y.
  Hypothesis Sall : forall u v, valid p u -> valid p v ->
    ((exists x, S x u /\ S x v) <-> (p | val u * val u - val v * val v) \/ (degenerate p zz (val u) /\ degenerate p zz (val v))).
  Lemma el_valid z : 0 <= z < p -> valid p (el z).
  Proof. intro H. split; [reflexivity|exact H]. Qed.
  Lemma Srel x u v : S x u -> valid p v -> (S x v <-> (p | val u * val u - val v * val v) \/ (degenerate p zz (val u) /\ degenerate p zz (val v))).
  Proof.
    intros Hu Vv. rewrite <- (Sall u v (Sval _ _ Hu) Vv). split; [intro H; exists x; split; assumption|]. intros (y & Hy & Hv). rewrite (Sfun _ _ _ Hu Hy). exact Hv.
  Qed.
  Lemma Stotal u : valid p u -> exists x, S x u.
  Proof. intro V. destruct (proj2 (Sall u u V V)) as (x & H & _); [left; exists 0; ring|]. exists x. exact H. Qed.
  Lemma zz_nz : ~ (p | zz).
  Proof. intro H. apply Nz. exists 0. replace (0 * 0 - zz) with (- zz) by ring. apply Z.divide_opp_r. exact H. Qed.
  Lemma deg_nz u : degenerate p zz u -> ~ (p | u) -> (p | zz * (u * u) + 1).
  Proof. intros D N. apply prime_mult in D; [|exact Hp]. destruct D as [D|D]; [|exact D]. apply prime_mult in D; [|exact Hp]. destruct D as [D|D]; [destruct (zz_nz D)|]. apply prime_mult in D; [|exact Hp]. destruct D; contradiction. Qed.
  Lemma deg_sq u v : ~ (p | u) -> ~ (p | v) -> degenerate p zz u -> degenerate p zz v -> (p | u * u - v * v).
  Proof.
    intros Nu Nv Du Dv. apply deg_nz in Du, Dv; try assumption. destruct (prime_mult p Hp zz (u * u - v * v)) as [H|H]; [|destruct (zz_nz H)|exact H].
    replace (zz * (u * u - v * v)) with ((zz * (u * u) + 1) - (zz * (v * v) + 1)) by ring. apply Z.divide_sub_r; assumption.
  Qed.
  Lemma small_nd z : 1 <= z -> z < p -> ~ (p | z).
  Proof. intros H H' D. apply Z.divide_pos_le in D; lia. Qed.
  Lemma half_bound : 0 <= (p - 1) / 2 /\ 2 * ((p - 1) / 2) < p.
  Proof. pose proof (Z.div_mod (p - 1) 2 ltac:(lia)). pose proof (Z.mod_pos_bound (p - 1) 2 ltac:(lia)). lia. Qed.
  Lemma zero_deg : degenerate p zz 0.
  Proof. exists 0. ring. Qed.
  (** no degenerate element but 0 *)
  Lemma ell_count_1 : (forall u, 0 <= u < p -> degenerate p zz u -> (p | u)) -> exactly (Z.to_nat ((p - 1) / 2 - 0 + 1)) (fun x => exists u, S x u).
  Proof.
    intro D0. pose proof half_bound as HB. apply (count_by_reps p 0 ((p - 1) / 2) S Sfun).
    - intros z Hz. apply Stotal, el_valid. lia.
    - intros x u H. destruct (Sval _ _ H) as (_ & V). destruct (half_rep p (val u) p2 Hp V) as (z & Hz & _ & D). exists z. split; [exact Hz|].
      apply (Srel x u _ H); [apply el_valid; lia|]. left. exact D.
    - intros x z z' Hz Hz' H H'. apply (Srel x _ _ H) in H'; [|apply el_valid; lia]. cbn [val] in H'. destruct H' as [D|[D D']]; [apply (sq_div p); lia || assumption|].
      apply D0 in D, D'; try lia. assert (z = 0) by (destruct (Z.eq_dec z 0); [assumption|apply Z.divide_pos_le in D; lia]).
      assert (z' = 0) by (destruct (Z.eq_dec z' 0); [assumption|apply Z.divide_pos_le in D'; lia]). lia.
  Qed.
  (** another degenerate element *)
  Lemma ell_count_3 w : degenerate p zz w -> ~ (p | w) -> exactly (Z.to_nat ((p - 1) / 2 - 1 + 1)) (fun x => exists u, S x u).
  Proof.
    intros Dw Nw. pose proof half_bound as HB. apply (count_by_reps p 1 ((p - 1) / 2) S Sfun).
    - intros z Hz. apply Stotal, el_valid. lia.
    - intros x u H. destruct (Sval _ _ H) as (_ & V). destruct (Z.eq_dec (val u) 0) as [E|E].
      + assert (Wr : 0 <= w mod p < p) by (apply Z.mod_pos_bound; lia). assert (W0 : w mod p <> 0) by (intro Q; apply Nw; apply Z.mod_divide; lia).
        destruct (half_rep p (w mod p) p2 Hp Wr) as (z & Hz & H1 & D). exists z. split; [specialize (H1 W0); lia|].
        apply (Srel x u _ H); [apply el_valid; lia|]. right. cbn [val]. rewrite E. split; [exact zero_deg|].
        assert (Q : (p | w * w - z * z)).
        { replace (w * w - z * z) with ((w mod p * (w mod p) - z * z) + (w - w mod p) * (w + w mod p)) by ring. apply Z.divide_add_r; [exact D|]. apply Z.divide_mul_l.
          exists (w / p). rewrite (Z.div_mod w p) at 1 by lia. ring. }
        apply (deg_nz w Dw) in Nw. apply Z.divide_mul_r. replace (zz * (z * z) + 1) with ((zz * (w * w) + 1) - zz * (w * w - z * z)) by ring. apply Z.divide_sub_r; [exact Nw|]. apply Z.divide_mul_r, Q.
      + destruct (half_rep p (val u) p2 Hp V) as (z & Hz & H1 & D). exists z. split; [specialize (H1 E); lia|].
        apply (Srel x u _ H); [apply el_valid; lia|]. left. exact D.
    - intros x z z' Hz Hz' H H'. apply (Srel x _ _ H) in H'; [|apply el_valid; lia]. cbn [val] in H'. destruct H' as [D|[D D']]; [apply (sq_div p); lia || assumption|].
      apply (sq_div p); try lia; try assumption. apply deg_sq; try assumption; apply small_nd; lia.
  Qed.
End Ell.

(** which degenerate elements there are *)
Lemma deg_only_zero p zz : prime p -> 2 < p -> p mod 8 = 5 -> 0 <= zz < p -> ~ square_mod p zz -> forall u, 0 <= u < p -> degenerate p zz u -> (p | u).
Proof.
  intros Hp p2 M8 Hz Nz u Hu D. destruct (WeierProps.coord_K p Hp zz Hz) as [k ->], (WeierProps.coord_K p Hp u Hu) as [w ->].
  assert (Nk : ~ sq (ZpF p Hp) k) by (intro Q; apply Nz; apply (sq_Z p Hp); rewrite of_Z_zv; exact Q).
  apply (FibreProps.el_degenerate p Hp p2) in D. apply (dvd0 p Hp p2). rewrite of_Z_zv. exact (only_zero (ZpF p Hp) k w Nk (neg1_sq p Hp ltac:(lia) M8) D).
Qed.
Section Root.
  Variable K : Fld.
  Add Field KF : (Fth K).
Lemma other_root (k s : K) : k <> F0 -> Fmul s s = Fmul k (Fopp F1) -> el_exc K k (Fmul s (Finv k)) /\ Fmul s (Finv k) <> F0.
Proof.
  intros Nk E. unfold el_exc.
  assert (E1 : Fadd (Fmul k (Fmul (Fmul s (Finv k)) (Fmul s (Finv k)))) F1 = F0).
  { replace (Fmul k (Fmul (Fmul s (Finv k)) (Fmul s (Finv k)))) with (Fmul (Fmul s s) (Finv k)) by (field; exact Nk). rewrite E. field. exact Nk. }
  split; [rewrite E1; ring|]. intro Q. rewrite Q in E1. apply (Fld.F_1_neq_0 K). rewrite <- E1. ring.
Qed.
End Root.
Lemma deg_other p zz : prime p -> 2 < p -> p mod 4 = 3 -> 0 <= zz < p -> ~ square_mod p zz -> exists w, degenerate p zz w /\ ~ (p | w).
Proof.
  intros Hp p2 M4 Hz Nz. destruct (WeierProps.coord_K p Hp zz Hz) as [k ->].
  assert (Nk : ~ sq (ZpF p Hp) k) by (intro Q; apply Nz; apply (sq_Z p Hp); rewrite of_Z_zv; exact Q).
  destruct (nonsq_mul_nonsq p Hp ltac:(lia) k _ Nk (neg1_nonsq p Hp ltac:(lia) M4)) as (s & E).
  destruct (other_root (ZpF p Hp) k s) as [D N]; [intros ->; apply Nk; exists F0; apply (Zp_eq p); reflexivity|exact E|].
  exists (zv (Fmul s (Finv k) : ZpF p Hp)). split; [apply (FibreProps.el_degenerate p Hp p2), D|]. intro Q. apply N. apply (dvd0 p Hp p2) in Q. rewrite of_Z_zv in Q. exact Q.
Qed.

Lemma ell_all e z m : MPoints.mgroup e -> let p := modulus (MCurve.c_f e) in valid p z -> ~ square_mod p (val z) -> ell2_new e z = Ret m ->
  forall u v, valid p u -> valid p v ->
  ((exists A, sent p (ell2_map m) (MPoints.mpoint e) A u /\ sent p (ell2_map m) (MPoints.mpoint e) A v)
   <-> (p | val u * val u - val v * val v) \/ (degenerate p (val z) (val u) /\ degenerate p (val z) (val v))).
Proof.
  intros W p Vz Nz Em u v Vu Vv. pose proof (HashProps.mfield_of e W) as F.
  assert (B : (modulus (MCurve.c_f e) | val (MCurve.c_b e) * val (MCurve.c_b e) - 1)) by (destruct W as ((_ & _ & _ & _ & _ & b0 & _) & _); rewrite b0; exists 0; reflexivity).
  destruct (MapsProps.c42_total e z u m F Vz Vu B Em Nz) as (P & x & y & EP & HP & I).
  assert (S : sent p (ell2_map m) (MPoints.mpoint e) (Affine x y) u) by (split; [exact Vu|exists P; split; assumption]).
  split.
  - intros (A & SA & SB). destruct A as [|x' y'].
    + destruct SA as (_ & P' & EP' & _ & _ & _ & _ & (_ & _ & Z0) & _). rewrite EP in EP'. injection EP' as <-.
      destruct HP as (_ & _ & _ & _ & (Z1 & _) & _). contradiction.
    + exact (proj1 (FibreProps.c63_ell2_same e z m u v x' y' F Vz B Nz Em SA Vv) SB).
  - intro H. exists (Affine x y). split; [exact S|]. exact (proj2 (FibreProps.c63_ell2_same e z m u v x y F Vz B Nz Em S Vv) H).
Qed.
(** on any Montgomery curve of the library's kind, with z not a square: (p + 1)/2 points when p = 1 mod 4, (p - 1)/2 when p = 3 mod 4 *)
Lemma c63_ell2_exact : forall e z m, MPoints.mgroup e -> valid (modulus (MCurve.c_f e)) z -> ~ square_mod (modulus (MCurve.c_f e)) (val z) -> ell2_new e z = Ret m ->
  (modulus (MCurve.c_f e) mod 4 = 1 ->
   exactly (Z.to_nat ((modulus (MCurve.c_f e) + 1) / 2)) (fun A => exists u, sent (modulus (MCurve.c_f e)) (ell2_map m) (MPoints.mpoint e) A u))
  /\ (modulus (MCurve.c_f e) mod 4 = 3 ->
   exactly (Z.to_nat ((modulus (MCurve.c_f e) - 1) / 2)) (fun A => exists u, sent (modulus (MCurve.c_f e)) (ell2_map m) (MPoints.mpoint e) A u)).
Proof.
  intros e z m W Vz Nz E. pose proof (ell_all e z m W Vz Nz E) as HA. pose proof (proj1 (MontProps.c32_mont_representation e (proj1 W))) as HF.
  destruct W as ((Hp & p2 & _) & SM & _). revert Vz Nz HA SM Hp p2. generalize (modulus (MCurve.c_f e)). intros p Vz Nz HA SM Hp p2.
  assert (Sval : forall x u, sent p (ell2_map m) (MPoints.mpoint e) x u -> valid p u) by (intros x u H; exact (proj1 H)).
  assert (Sfun : forall x y u, sent p (ell2_map m) (MPoints.mpoint e) x u -> sent p (ell2_map m) (MPoints.mpoint e) y u -> x = y).
  { intros x y u (_ & P & EP & HP) (_ & Q & EQ & HQ). rewrite EP in EQ. injection EQ as <-. exact (HF _ _ _ HP HQ). }
  split; intro M4.
  - assert (M8 : p mod 8 = 5) by (destruct SM as [M|M]; [lia|exact M]).
    replace ((p + 1) / 2) with ((p - 1) / 2 - 0 + 1) by (replace (p + 1) with (p - 1 + 1 * 2) by lia; rewrite Z.div_add by lia; lia).
    exact (ell_count_1 p Hp p2 (val z) _ _ Sval Sfun HA (deg_only_zero p (val z) Hp p2 M8 (proj2 Vz) Nz)).
  - replace ((p - 1) / 2) with ((p - 1) / 2 - 1 + 1) by lia. destruct (deg_other p (val z) Hp p2 M4 (proj2 Vz) Nz) as (w & Dw & Nw).
    exact (ell_count_3 p Hp p2 (val z) Nz _ _ Sval Sfun HA w Dw Nw).
Qed.
(** on the shipped curves, for every z that is not a square *)
Lemma c63_curve25519_exact : exists e, CURVE25519 = Ret e /\
  forall z, let p := modulus (MCurve.c_f e) in valid p z -> ~ square_mod p (val z) ->
  exists m, ell2_new e z = Ret m /\ exactly (Z.to_nat (2 ^ 254 - 9)) (fun A => exists u, sent p (ell2_map m) (MPoints.mpoint e) A u).
Proof.
  destruct InstProps.c48_CURVE25519 as (e & HX & p0 & a0 & b0 & _ & _ & _ & _ & _ & W & _). exists e. split; [exact HX|]. intros z p Vz Nz.
  pose proof (HashProps.mfield_of e W) as F.
  destruct (proj1 (MapsProps.c42_new e z F Vz)) as (m & Em); [rewrite a0; vm_compute; discriminate|rewrite b0; discriminate|].
  exists m. split; [exact Em|]. replace (2 ^ 254 - 9) with ((p + 1) / 2) by (unfold p; rewrite p0; vm_compute; reflexivity).
  apply (proj1 (c63_ell2_exact e z m W Vz Nz Em)). rewrite p0. vm_compute. reflexivity.
Qed.
Lemma c63_curve448_exact : exists e, CURVE448 = Ret e /\
  forall z, let p := modulus (MCurve.c_f e) in valid p z -> ~ square_mod p (val z) ->
  exists m, ell2_new e z = Ret m /\ exactly (Z.to_nat (2 ^ 447 - 2 ^ 223 - 1)) (fun A => exists u, sent p (ell2_map m) (MPoints.mpoint e) A u).
Proof.
  destruct InstProps.c48_CURVE448 as (e & HX & p0 & a0 & b0 & _ & _ & _ & _ & _ & W & _). exists e. split; [exact HX|]. intros z p Vz Nz.
  pose proof (HashProps.mfield_of e W) as F.
  destruct (proj1 (MapsProps.c42_new e z F Vz)) as (m & Em); [rewrite a0; vm_compute; discriminate|rewrite b0; discriminate|].
  exists m. split; [exact Em|]. replace (2 ^ 447 - 2 ^ 223 - 1) with ((p - 1) / 2) by (unfold p; rewrite p0; vm_compute; reflexivity).
  apply (proj2 (c63_ell2_exact e z m W Vz Nz Em)). rewrite p0. vm_compute. reflexivity.
Qed.
Lemma c63_edwards25519_exact : exists m, edwards25519_to_curve25519 = Ret m /\ EDWARDS25519 = Ret (ed_e0 m) /\
  forall z, let p := modulus (ECurve.c_f (ed_e0 m)) in valid p z -> ~ square_mod p (val z) ->
  exists M, ed_ell2_new (ed_e0 m) z (Some (R25519 m)) = Ret M
  /\ exactly (Z.to_nat (2 ^ 254 - 9)) (fun A => exists u, sent p (ed_ell2_map M) (EPoints.epoint (ed_e0 m)) A u).
Proof.
  destruct FibreInstProps.c63_edwards25519 as (m & X & X0 & H). exists m. split; [exact X|]. split; [exact X0|]. intros z p Vz Nz.
  destruct (H z Vz Nz) as (M & EM & HM). exists M. split; [exact EM|].
  destruct InstProps.c48_EDWARDS25519 as (e & HX & p0 & _ & _ & _ & _ & _ & _ & W & _). rewrite X0 in HX. injection HX as <-.
  pose proof (proj1 (EdwProps.c32_edw_representation _ (proj1 W))) as HF. destruct W as ((Hp & p2 & _) & _). fold p in HM.
  assert (N : 2 ^ 254 - 9 = (p - 1) / 2 - 0 + 1) by (unfold p; rewrite p0; vm_compute; reflexivity). rewrite N. clear N.
  assert (M8 : p mod 8 = 5) by (unfold p; rewrite p0; vm_compute; reflexivity).
  fold p in Hp, p2. clearbody p.
  apply (ell_count_1 p Hp p2 (val z)).
  - intros x u S. exact (proj1 S).
  - intros x y u (_ & P & EP & HP) (_ & Q & EQ & HQ). rewrite EP in EQ. injection EQ as <-. exact (HF _ _ _ HP HQ).
  - intros u v Vu Vv. rewrite (HM u v Vu Vv). destruct (WeierProps.coord_K p Hp (val u) (proj2 Vu)) as [a Ea], (WeierProps.coord_K p Hp (val v) (proj2 Vv)) as [b Eb].
    assert (Fu : u = fe a) by (destruct Vu as (E1 & _), u as [x f]; cbn [val fld] in *; subst; reflexivity).
    assert (Fv : v = fe b) by (destruct Vv as (E1 & _), v as [x f]; cbn [val fld] in *; subst; reflexivity).
    rewrite Fu, Fv. cbn [val fe]. rewrite neg_fe by lia. split.
    + intros [Q|Q]; left; injection Q as Q; apply (FibreProps.sqr_K p Hp p2).
      * apply Zp_eq in Q. rewrite Q. reflexivity.
      * assert (Q' : zopp a = b) by (apply Zp_eq; exact Q). rewrite <- Q'. symmetry. exact (opp_sq (ZpF p Hp) a).
    + intros [Q|[D D']].
      * apply (FibreProps.sqr_K p Hp p2) in Q. destruct (sqr_pm _ _ _ Q) as [Q'|Q']; [left; rewrite Q'; reflexivity|right]. rewrite Q'. f_equal. f_equal. exact (Fopp_opp (ZpF p Hp) b).
      * assert (D0 : forall w : ZpF p Hp, degenerate p (val z) (zv w) -> w = F0).
        { intros w Dw. apply (deg_only_zero p (val z) Hp p2 M8 (proj2 Vz) Nz) in Dw; [|apply zv_range; lia]. apply (dvd0 p Hp p2) in Dw. rewrite of_Z_zv in Dw. exact Dw. }
        left. rewrite (D0 a D), (D0 b D'). reflexivity.
  - exact (deg_only_zero p (val z) Hp p2 M8 (proj2 Vz) Nz).
Qed.

(** y^2 = x^3 + 6 x^2 + x over F_19, z = 2: 3 is degenerate and goes where 0 goes; the elements 1, .., 9 have nine different images *)
Example c63_exact_ex : MPoints.mgroup MontProps.E19 /\ degenerate 19 2 3
  /\ bind (ell2_new MontProps.E19 (MontProps.n19 2)) (fun m => Ret (map (fun u => ell2_map m (MontProps.n19 u)) [0; 1; 2; 3; 4; 5; 6; 7; 8; 9; 10]))
  = Ret (map (fun xy => Ret (MontProps.pt19 (fst xy) (snd xy) 1)) [(0, 0); (15, 16); (12, 1); (0, 0); (8, 12); (12, 18); (11, 4); (8, 7); (11, 15); (15, 3); (15, 3)]).
Proof. split; [exact MontProps.mgroup19|]. split; [exists 18; reflexivity|]. vm_compute. reflexivity. Qed.
