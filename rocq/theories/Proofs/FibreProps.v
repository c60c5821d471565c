(** C63: how many field elements each map sends to one point, and which ones. *)
From Coq Require Import ZArith Znumtheory Lia String Bool List.
From Verif.Math Require Import Fld Zp Residue MapAlg Fibre.
From Verif.Spec Require Import Arith Curve Maps Elements Morphisms Counting.
From Verif.Spec Require WPoints MPoints.
From Verif.Model Require Import Out BigInt PrimeField Maps.
From Verif.Model Require WCurve MCurve.
From Verif.Proofs Require Import FieldP FieldProps CurveP MapsP MapsProps SmallP.
From Verif.Proofs Require WeierP WeierProps.
Import WeierProps(coord_K).
Import ListNotations.
Open Scope Z_scope.

(** a relation with small fibres has a large image *)
Lemma image_rel {T U : Type} (U_dec : forall x y : U, {x = y} + {x <> y}) (R : T -> U -> Prop) (n : nat) (l : list T) : NoDup l ->
  (forall x, In x l -> exists y, R x y) -> (forall y, at_most n (fun x => In x l /\ R x y)) ->
  exists im, NoDup im /\ (forall y, In y im -> exists x, In x l /\ R x y) /\ (length l <= n * length im)%nat.
Proof.
  intros N H F.
  assert (C : exists ps : list (T * U), map fst ps = l /\ forall q, In q ps -> R (fst q) (snd q)).
  { clear N F. induction l as [|x l IH]; [exists []; split; [reflexivity|intros q []]|].
    destruct IH as (ps & E & Hps); [intros y Hy; apply H; right; exact Hy|].
    destruct (H x (or_introl eq_refl)) as [y Hy]. exists ((x, y) :: ps). cbn. rewrite E. split; [reflexivity|].
    intros q [<-|Hq]; [exact Hy|apply Hps, Hq]. }
  destruct C as (ps & E & Hps).
  assert (I : forall a b, In a ps -> In b ps -> fst a = fst b -> a = b).
  { rewrite <- E in N. clear - N. induction ps as [|c ps IH]; [intros a b []|]. cbn in N. inversion N as [|? ? Nc N']; subst.
    intros a b [<-|Ha] [<-|Hb] E; [reflexivity| | |apply IH; assumption].
    - destruct Nc. rewrite E. apply in_map, Hb.
    - destruct Nc. rewrite <- E. apply in_map, Ha. }
  assert (Np : NoDup ps) by (rewrite <- E in N; exact (NoDup_map_inv _ _ N)).
  destruct (image_size U_dec snd n ps Np) as (im & Nim & Him & L).
  - intro y. apply (at_most_inj fst n _ (fun x => In x l /\ R x y)); [| |apply F].
    + intros a b [Ha _] [Hb _]. apply I; assumption.
    + intros a [Ha <-]. split; [rewrite <- E; apply in_map, Ha|apply Hps, Ha].
  - exists im. split; [exact Nim|]. split; [|rewrite <- E, map_length; exact L].
    intros y Hy. destruct (Him y Hy) as (q & Hq & <-). exists (fst q). split; [rewrite <- E; apply in_map, Hq|apply Hps, Hq].
Qed.
Definition apoint_dec (A B : apoint) : {A = B} + {A <> B}.
Proof. decide equality; apply Z.eq_dec. Defined.

Section Elts.
  Variables (p : Z) (Hp : prime p) (Hp2 : 2 < p).
  Local Notation K := (ZpF p Hp).
  Definition par (x : K) : bool := Z.even (zv x).
  Lemma par_opp (x : K) : x <> F0 -> par (Fopp x) = negb (par x).
  Proof. intro N. exact (WeierP.parity_opp p Hp Hp2 x N). Qed.
  Lemma zv0 (x : K) : zv x = 0 <-> x = F0.
  Proof. split; [intro H; apply Zp_eq; exact H|intros ->; reflexivity]. Qed.
  Lemma follows_K (u y : K) : sign_follows (zv u) (zv y) <-> follows K par u y.
  Proof. unfold sign_follows, follows, par. rewrite zv0. reflexivity. Qed.
  Definition elt (u : FpElt) : K := of_Z p (val u).
  Lemma elt_fe (k : K) : elt (fe k) = k. Proof. apply of_Z_zv. Qed.
  Lemma fe_elt u : valid p u -> fe (elt u) = u.
  Proof. intro V. destruct (valid_ex p u V) as [k ->]. rewrite elt_fe. reflexivity. Qed.
  Lemma degenerate_K (z u : K) : degenerate p (zv z) (zv u) <-> Fmul (Fmul z (Fmul u u)) (Fadd (Fmul z (Fmul u u)) F1) = (F0 : K).
  Proof. unfold degenerate. rewrite (dvd0 p Hp Hp2), of_Z_mul, of_Z_add, !of_Z_mul, !of_Z_zv. reflexivity. Qed.
  (** counting field elements through their residues *)
  Lemma by_residue n (P : FpElt -> Prop) (Q : K -> Prop) : (forall u, P u -> valid p u) -> (forall k : K, P (fe k) -> Q k) ->
    at_most n Q -> at_most n P.
  Proof.
    intros V I H. apply (at_most_inj elt n P Q); [| |exact H].
    - intros u v Hu Hv E. rewrite <- (fe_elt u (V u Hu)), <- (fe_elt v (V v Hv)), E. reflexivity.
    - intros u Hu. apply I. rewrite (fe_elt u (V u Hu)). exact Hu.
  Qed.
  Definition all_elts : list K := map (fun i => of_Z p (Z.of_nat i)) (seq 0 (Z.to_nat p)).
  Lemma all_nodup : NoDup all_elts.
  Proof.
    unfold all_elts. assert (G : forall n s, (s + n <= Z.to_nat p)%nat -> NoDup (map (fun i => of_Z p (Z.of_nat i)) (seq s n))).
    { induction n as [|n IH]; intros s H; [constructor|]. cbn [seq map]. constructor; [|apply IH; lia].
      intro I. apply in_map_iff in I. destruct I as (j & E & Hj). apply in_seq in Hj.
      apply (f_equal (fun x => zv x)) in E. cbn in E. rewrite !Z.mod_small in E by lia. lia. }
    apply G. lia.
  Qed.
  Lemma all_length : List.length all_elts = Z.to_nat p.
  Proof. unfold all_elts. rewrite map_length, seq_length. reflexivity. Qed.
  (** the elements outside a small set are many *)
  Lemma without n (Q : K -> Prop) (Q_dec : forall k, {Q k} + {~ Q k}) : at_most n Q ->
    exists l : list K, NoDup l /\ (forall k, In k l -> ~ Q k) /\ (Z.to_nat p <= List.length l + n)%nat.
  Proof.
    intro H. destruct (split_list (fun k => ~ Q k) Q all_elts all_nodup) as (l1 & l2 & N1 & N2 & A1 & A2 & L & _).
    { intros k _. destruct (Q_dec k); auto. }
    exists l1. split; [exact N1|]. split; [exact A1|]. rewrite all_length in L. pose proof (H l2 N2 A2). lia.
  Qed.
End Elts.

Section Weier.
  Variables (p : Z) (Hp : prime p) (Hp2 : 2 < p) (Hm : sqrt_modulus p).
  Local Notation K := (ZpF p Hp).
  Variables (a b z : K).
  Lemma hits_sw (u : K) x y : sw_ok p Hp a b z -> sswu_point p (zv a) (zv b) (zv z) (zv u) x y ->
    exists X Y : K, x = zv X /\ y = zv Y /\ sw_hits K (par p Hp) a b z X Y u.
  Proof.
    intros O H. apply (sswu_point_K p Hp Hp2 a b z u x y O) in H. destruct H as (Y & -> & -> & E & S).
    exists (sw_x p Hp Hp2 a b z u), Y. split; [reflexivity|]. split; [reflexivity|]. split; [exact E|]. split; [apply follows_K, S|].
    unfold sw_x. destruct (sqd p Hp Hp2 (g K a b (sw_x1 K a b z u))); split; intro; contradiction || reflexivity.
  Qed.
  Lemma hits_sv (c3 u : K) x y : Fmul c3 c3 = Fmul (Fopp (g K a b z)) (sv_h K a z) -> Z.even (zv c3) = true -> sv_ok p Hp a b z ->
    svdw_point p (zv a) (zv b) (zv z) (zv u) x y ->
    exists X Y : K, x = zv X /\ y = zv Y /\ sv_hits K (par p Hp) a b z c3 X Y u.
  Proof.
    intros C3 V3 O H. apply (svdw_point_K p Hp Hp2 a b z c3 C3 V3 u x y O) in H. destruct H as (Y & -> & -> & E & S).
    exists (sv_x p Hp Hp2 a b z c3 u), Y. split; [reflexivity|]. split; [reflexivity|]. split; [exact E|]. split; [apply follows_K, S|].
    unfold sv_x. destruct (sqd p Hp Hp2 (g K a b (sv_x1 K a b z c3 u))); [repeat split; intros; contradiction || reflexivity|].
    destruct (sqd p Hp Hp2 (g K a b (sv_x2 K a b z c3 u))); repeat split; intros; contradiction || reflexivity.
  Qed.
  Lemma exc_sq : sw_ok p Hp a b z -> forall x, Fmul (Fmul x z) a = b -> sq K (g K a b x).
  Proof.
    intros (Ha & Hb & Hz & Hz1 & He) x E. replace x with (Fmul b (Finv (Fmul z a)) : K); [exact He|].
    symmetry. apply (proj1 (times_nz K z a x b (Z_nz K z Hz) Ha)). rewrite <- E. exact (Ring_theory.Rmul_assoc (Field_theory.F_R (Fth K)) x z a).
  Qed.
End Weier.

Section Sent.
  Variables (p : Z) (Hp : prime p) (Hp2 : 2 < p) (Hm : sqrt_modulus p).
  Local Notation K := (ZpF p Hp).
  Variables (a b z : K) (e : WCurve.Curve).
  Hypotheses (ef : WCurve.c_f e = mkFp p) (ea : WCurve.c_a e = fe a) (eb : WCurve.c_b e = fe b).
  Lemma sent_sw m : sswu_new e (fe z) = Ret m -> sw_ok p Hp a b z /\ forall (u : K),
    (exists x y, sent p (sswu_map m) (WPoints.wpoint e) (Affine x y) (fe u))
    /\ forall x y, sent p (sswu_map m) (WPoints.wpoint e) (Affine x y) (fe u) -> sw_hits K (par p Hp) a b z (of_Z p x) (of_Z p y) u.
  Proof.
    intro E. destruct (sswu_new_K p Hp Hp2 a b e ef ea eb z) as [H1 H2].
    destruct (sw_ok_dec p Hp Hp2 a b z) as [O|O]; [|rewrite (H2 O) in E; discriminate]. split; [exact O|].
    rewrite (H1 O) in E. injection E as <-. intro u. destruct (sswu_result p Hp Hp2 Hm a b e ef ea eb z u O) as (P & EP & HP). split.
    - destruct (sswu_map_K p Hp Hp2 Hm a b e ef ea eb z u O) as (Y & EY & SY & _).
      exists (zv (sw_x p Hp Hp2 a b z u)), (zv Y). split; [apply valid_fe; lia|]. exists P. split; [exact EP|].
      apply HP, (sswu_point_K p Hp Hp2 a b z u _ _ O). exists Y. auto.
    - intros x y (_ & Q & EQ & HQ). rewrite EP in EQ. injection EQ as <-. apply HP, (hits_sw p Hp Hp2 a b z u x y O) in HQ.
      destruct HQ as (X & Y & -> & -> & H). rewrite !of_Z_zv. exact H.
  Qed.
  Lemma sent_sv m : svdw_new e (fe z) = Ret m -> sv_ok p Hp a b z /\ exists c3 : K, Fmul c3 c3 = Fmul (Fopp (g K a b z)) (sv_h K a z) /\ forall (u : K),
    (exists x y, sent p (svdw_map m) (WPoints.wpoint e) (Affine x y) (fe u))
    /\ forall x y, sent p (svdw_map m) (WPoints.wpoint e) (Affine x y) (fe u) -> sv_hits K (par p Hp) a b z c3 (of_Z p x) (of_Z p y) u.
  Proof.
    intro E. destruct (svdw_new_K p Hp Hp2 Hm a b e ef ea eb z) as [H1 H2].
    destruct (sv_ok_dec p Hp Hp2 a b z) as [O|O]; [|rewrite (H2 O) in E; discriminate]. split; [exact O|].
    destruct (H1 O) as (c3 & E3 & S3 & V3). exists c3. split; [exact S3|]. rewrite E3 in E. injection E as <-. intro u.
    destruct (svdw_result p Hp Hp2 Hm a b e ef ea eb z c3 S3 V3 u O) as (P & EP & HP). split.
    - destruct (svdw_map_K p Hp Hp2 Hm a b e ef ea eb z c3 S3 u O) as (Y & EY & SY & _).
      exists (zv (sv_x p Hp Hp2 a b z c3 u)), (zv Y). split; [apply valid_fe; lia|]. exists P. split; [exact EP|].
      apply HP, (svdw_point_K p Hp Hp2 a b z c3 S3 V3 u _ _ O). exists Y. auto.
    - intros x y (_ & Q & EQ & HQ). rewrite EP in EQ. injection EQ as <-. apply HP, (hits_sv p Hp Hp2 a b z c3 u x y S3 V3 O) in HQ.
      destruct HQ as (X & Y & -> & -> & H). rewrite !of_Z_zv. exact H.
  Qed.
  Lemma exc_degenerate (u : K) : sw_exc K z u <-> degenerate p (zv z) (zv u).
  Proof. rewrite (degenerate_K p Hp Hp2). unfold sw_exc, q0. rewrite (q0_form K (sw_t K z u)). reflexivity. Qed.
  Lemma line_K x : (p | x * (zv z * zv a) - zv b) <-> Fmul (Fmul (of_Z p x : K) z) a = b.
  Proof.
    rewrite <- of_Z_div by lia. rewrite !of_Z_mul, !of_Z_zv. 
    rewrite <- (Ring_theory.Rmul_assoc (Field_theory.F_R (Fth K)) (of_Z p x : K) z a). reflexivity.
  Qed.
  Lemma half_K x : (p | 2 * x + zv z) <-> Fmul (Fadd F1 F1) (of_Z p x : K) = (Fopp z : K).
  Proof.
    rewrite (dvd0 p Hp Hp2), of_Z_add, of_Z_mul, of_Z_zv, of_Z_2. symmetry. apply (half K z (of_Z p x)).
  Qed.
End Sent.

(** *** simplified SWU *)
Lemma c63_sswu : forall e z m x y, wfield e -> valid (modulus (WCurve.c_f e)) z -> sswu_new e z = Ret m ->
  at_most 4 (fun u => sent (modulus (WCurve.c_f e)) (sswu_map m) (WPoints.wpoint e) (Affine x y) u
                      /\ ~ degenerate (modulus (WCurve.c_f e)) (val z) (val u)).
Proof.
  intros e z m x y W. open_w W. intro Vz. destruct (valid_ex _ _ Vz) as [k ->]. cbn [val fe]. intro E.
  destruct (sent_sw p Hp Hp2 Hm a b k e ef ea eb m E) as [O S]. pose proof (exc_sq p Hp a b k O) as X. destruct O as (Ha & Hb & Hz & _).
  apply (by_residue p Hp 4 _ (fun u => sw_hits (ZpF p Hp) (par p Hp) a b k (of_Z p x) (of_Z p y) u /\ ~ sw_exc (ZpF p Hp) k u)).
  - intros u [[V _] _]. exact V.
  - intros u [H N]. split; [apply S, H|]. intro D. apply N, (exc_degenerate p Hp Hp2), D.
  - apply sswu_fibre; auto; [apply (sqd p Hp Hp2)|intros v N; apply par_opp; assumption].
Qed.
(** the elements left out there: at most three, and they all go to the two points with x = b/(z a) *)
Lemma c63_sswu_degenerate : forall e z m, wfield e -> valid (modulus (WCurve.c_f e)) z -> sswu_new e z = Ret m ->
  at_most 3 (fun u => valid (modulus (WCurve.c_f e)) u /\ degenerate (modulus (WCurve.c_f e)) (val z) (val u))
  /\ forall u x y, degenerate (modulus (WCurve.c_f e)) (val z) (val u) ->
       sent (modulus (WCurve.c_f e)) (sswu_map m) (WPoints.wpoint e) (Affine x y) u ->
       (modulus (WCurve.c_f e) | x * (val z * val (WCurve.c_a e)) - val (WCurve.c_b e)).
Proof.
  intros e z m W. open_w W. intro Vz. destruct (valid_ex _ _ Vz) as [k ->]. rewrite ea, eb. cbn [val fe]. intro E.
  destruct (sent_sw p Hp Hp2 Hm a b k e ef ea eb m E) as [O S]. pose proof (exc_sq p Hp a b k O) as X. destruct O as (Ha & Hb & Hz & _). split.
  - apply (by_residue p Hp 3 _ (fun u => sw_exc (ZpF p Hp) k u)).
    + intros u [V _]. exact V.
    + intros u [_ D]. apply (exc_degenerate p Hp Hp2), D.
    + apply sswu_exceptions. exact Hz.
  - intros u x y D H. pose proof (proj1 H) as V. destruct (valid_ex _ _ V) as [v ->]. apply (line_K p Hp Hp2).
    apply (sw_exc_x (ZpF p Hp) (par p Hp) a b k Ha Hz X (of_Z p x) (of_Z p y) v); [apply S, H|apply (exc_degenerate p Hp Hp2), D].
Qed.
(** so no point has more than seven preimages, and a point with another abscissa no more than four *)
Lemma c63_sswu_all : forall e z m x y, wfield e -> valid (modulus (WCurve.c_f e)) z -> sswu_new e z = Ret m ->
  at_most 7 (sent (modulus (WCurve.c_f e)) (sswu_map m) (WPoints.wpoint e) (Affine x y))
  /\ (~ (modulus (WCurve.c_f e) | x * (val z * val (WCurve.c_a e)) - val (WCurve.c_b e)) ->
      at_most 4 (sent (modulus (WCurve.c_f e)) (sswu_map m) (WPoints.wpoint e) (Affine x y))).
Proof.
  intros e z m x y W Vz E. pose proof (c63_sswu e z m x y W Vz E) as H4. destruct (c63_sswu_degenerate e z m W Vz E) as [H3 HX].
  set (p := modulus (WCurve.c_f e)) in *. split.
  - apply (at_most_weak (4 + 3) 7 _ _ (le_n 7)) with (2 := at_most_or 4 3 _ _ H4 H3).
    intros u H. destruct (Zdivide_dec p (val z * (val u * val u) * (val z * (val u * val u) + 1))) as [D|N].
    + right. split; [apply H|exact D].
    + left. split; [exact H|exact N].
  - intro N. apply (at_most_weak 4 4 _ _ (le_n 4) (fun u H => conj H (fun D => N (HX u x y D H))) H4).
Qed.
Lemma c63_sswu_image : forall e z m, wfield e -> valid (modulus (WCurve.c_f e)) z -> sswu_new e z = Ret m ->
  at_least (Z.to_nat (modulus (WCurve.c_f e) / 4))
    (fun A => exists u, sent (modulus (WCurve.c_f e)) (sswu_map m) (WPoints.wpoint e) A u).
Proof.
  intros e z m W. open_w W. intro Vz. destruct (valid_ex _ _ Vz) as [k ->]. cbn [val fe]. intro E.
  destruct (sent_sw p Hp Hp2 Hm a b k e ef ea eb m E) as [O S]. pose proof (exc_sq p Hp a b k O) as X. destruct O as (Ha & Hb & Hz & _).
  destruct (without p Hp Hp2 3 (sw_exc (ZpF p Hp) k)) as (l & N & HN & L).
  { intro v. apply Feqd. }
  { apply sswu_exceptions. exact Hz. }
  destruct (image_rel apoint_dec (fun v A => exists x y, A = Affine x y /\ sent p (sswu_map m) (WPoints.wpoint e) (Affine x y) (fe v)) 4 l N) as (im & Nim & Him & Lim).
  - intros v _. destruct (proj1 (S v)) as (x & y & H). exists (Affine x y), x, y. auto.
  - intros [|x y].
    + apply (at_most_weak 0 4 _ _ (Nat.le_0_l 4) (fun v H => H)). apply at_most_none. intros v (_ & x & y & D & _). discriminate D.
    + apply (at_most_weak 4 4 _ (fun u => sw_hits (ZpF p Hp) (par p Hp) a b k (of_Z p x) (of_Z p y) u /\ ~ sw_exc (ZpF p Hp) k u) (le_n 4)).
      * intros v (I & x' & y' & D & H). injection D as <- <-. split; [apply (S v), H|apply HN, I].
      * apply sswu_fibre; auto; [apply (sqd p Hp Hp2)|intros v Nv; apply par_opp; assumption].
  - exists im. split; [exact Nim|]. split.
    + intros A HA. destruct (Him A HA) as (v & _ & x & y & -> & H). exists (fe v). exact H.
    + pose proof (Nat.le_trans _ _ _ L (proj1 (Nat.add_le_mono_r _ _ 3) Lim)). pose proof (Z.div_mod p 4 ltac:(lia)). pose proof (Z.mod_pos_bound p 4 ltac:(lia)). lia.
Qed.

(** *** Shallue-van de Woestijne *)
Lemma c63_svdw : forall e z m x y, wfield e -> valid (modulus (WCurve.c_f e)) z -> svdw_new e z = Ret m ->
  at_most 4 (fun u => sent (modulus (WCurve.c_f e)) (svdw_map m) (WPoints.wpoint e) (Affine x y) u /\ val u <> 0)
  /\ at_most 5 (sent (modulus (WCurve.c_f e)) (svdw_map m) (WPoints.wpoint e) (Affine x y))
  /\ (~ (modulus (WCurve.c_f e) | 2 * x + val z) ->
      at_most 4 (sent (modulus (WCurve.c_f e)) (svdw_map m) (WPoints.wpoint e) (Affine x y))).
Proof.
  intros e z m x y W. open_w W. intro Vz. destruct (valid_ex _ _ Vz) as [k ->]. cbn [val fe]. intro E.
  destruct (sent_sv p Hp Hp2 Hm a b k e ef ea eb m E) as [(Hg & Hh & _) (c3 & S3 & S)].
  assert (H4 : at_most 4 (fun u => sv_hits (ZpF p Hp) (par p Hp) a b k c3 (of_Z p x) (of_Z p y) u
     /\ (Fmul (Fadd F1 F1) (of_Z p x : ZpF p Hp) = Fopp (k : ZpF p Hp) -> u <> F0))).
  { apply svdw_fibre; auto; [apply (sqd p Hp Hp2)|intros v N; apply par_opp; assumption|apply (two_K p Hp Hp2)]. }
  assert (R4 : at_most 4 (fun u => sent p (svdw_map m) (WPoints.wpoint e) (Affine x y) u /\ ((p | 2 * x + zv k) -> val u <> 0))).
  { apply (by_residue p Hp 4 _ _) with (3 := H4).
    - intros u [[V _] _]. exact V.
    - intros u [H N]. split; [apply S, H|]. intros D O. apply (half_K p Hp Hp2) in D. apply (N D). rewrite O. reflexivity. }
  split; [|split].
  - apply (at_most_weak 4 4 _ _ (le_n 4) (fun u H => conj (proj1 H) (fun _ => proj2 H)) R4).
  - apply (at_most_weak (4 + 1) 5 _ (fun u => (sent p (svdw_map m) (WPoints.wpoint e) (Affine x y) u /\ ((p | 2 * x + zv k) -> val u <> 0))
      \/ u = mkFpElt 0 (mkFp p))); [lia| |apply at_most_or; [exact R4|apply at_most_one]].
    intros u H. destruct (Z.eq_dec (val u) 0) as [O|O]; [right|left; auto]. destruct (proj1 H) as [F _]. destruct u as [v f]. cbn in *. subst. reflexivity.
  - intro N. apply (at_most_weak 4 4 _ _ (le_n 4) (fun u H => conj H (fun D => False_ind _ (N D))) R4).
Qed.
Lemma c63_svdw_image : forall e z m, wfield e -> valid (modulus (WCurve.c_f e)) z -> svdw_new e z = Ret m ->
  at_least (Z.to_nat ((modulus (WCurve.c_f e) + 2) / 4))
    (fun A => exists u, sent (modulus (WCurve.c_f e)) (svdw_map m) (WPoints.wpoint e) A u).
Proof.
  intros e z m W. open_w W. intro Vz. destruct (valid_ex _ _ Vz) as [k ->]. cbn [val fe]. intro E.
  destruct (sent_sv p Hp Hp2 Hm a b k e ef ea eb m E) as [(Hg & Hh & _) (c3 & S3 & S)].
  destruct (without p Hp Hp2 1 (fun v : ZpF p Hp => v = F0)) as (l & N & HN & L).
  { intro v. apply Feqd. }
  { apply at_most_one. }
  destruct (image_rel apoint_dec (fun v A => exists x y, A = Affine x y /\ sent p (svdw_map m) (WPoints.wpoint e) (Affine x y) (fe v)) 4 l N) as (im & Nim & Him & Lim).
  - intros v _. destruct (proj1 (S v)) as (x & y & H). exists (Affine x y), x, y. auto.
  - intros [|x y].
    + apply (at_most_weak 0 4 _ _ (Nat.le_0_l 4) (fun v H => H)). apply at_most_none. intros v (_ & x & y & D & _). discriminate D.
    + apply (at_most_weak 4 4 _ (fun u => sv_hits (ZpF p Hp) (par p Hp) a b k c3 (of_Z p x) (of_Z p y) u
         /\ (Fmul (Fadd F1 F1) (of_Z p x : ZpF p Hp) = Fopp (k : ZpF p Hp) -> u <> F0)) (le_n 4)).
      * intros v (I & x' & y' & D & H). injection D as <- <-. split; [apply (S v), H|intros _; apply HN, I].
      * apply svdw_fibre; auto; [apply (sqd p Hp Hp2)|intros v Nv; apply par_opp; assumption|apply (two_K p Hp Hp2)].
  - exists im. split; [exact Nim|]. split.
    + intros A HA. destruct (Him A HA) as (v & _ & x & y & -> & H). exists (fe v). exact H.
    + pose proof (Nat.le_trans _ _ _ L (proj1 (Nat.add_le_mono_r _ _ 1) Lim)). pose proof (Z.div_mod (p + 2) 4 ltac:(lia)). pose proof (Z.mod_pos_bound (p + 2) 4 ltac:(lia)).
      assert (exists q, p = 2 * q + 1) as [q Eq].
      { destruct Hm as [M|M]; [exists (2 * (p / 4) + 1); pose proof (Z.div_mod p 4 ltac:(lia))|exists (4 * (p / 8) + 2); pose proof (Z.div_mod p 8 ltac:(lia))]; lia. }
      lia.
Qed.

(** *** Elligator 2 *)
Section Mont.
  Variables (p : Z) (Hp : prime p) (Hp2 : 2 < p) (Hm : sqrt_modulus p).
  Local Notation K := (ZpF p Hp).
  Variables (a b z : K) (e : MCurve.Curve).
  Hypotheses (ef : MCurve.c_f e = mkFp p) (ea : MCurve.c_a e = fe a) (eb : MCurve.c_b e = fe b) (b2 : Fmul b b = (F1 : K)) (Nz : ~ sq K z).
  Local Notation J := (Fmul a b : K).
  Local Notation L := (Fmul (Finv b) (Finv b) : K).
  Lemma J_nz : a <> F0 -> J <> F0.
  Proof.
    intros Na. apply (Fmul_nonzero K); [exact Na|]. intro B0. rewrite B0 in b2. apply (F_1_neq_0 K). rewrite <- b2. apply (mul_zero K).
  Qed.
  Lemma sent_el m : ell2_new e (fe z) = Ret m -> J <> F0 /\ forall (u : K),
    (exists x y, sent p (ell2_map m) (MPoints.mpoint e) (Affine x y) (fe u))
    /\ forall X W : K, sent p (ell2_map m) (MPoints.mpoint e) (Affine (zv (Fmul b X : K)) (zv (Fmul b W : K))) (fe u) <-> el_hits K (par p Hp) J L z X W u.
  Proof.
    intro E. destruct (ell2_new_K p Hp Hp2 a b e ea eb z) as [H1 H2].
    assert (D : {a <> F0 /\ b <> F0} + {~ (a <> F0 /\ b <> F0)}).
    { destruct (Feqd a F0); [right; tauto|]. destruct (Feqd b F0); [right; tauto|left; tauto]. }
    destruct D as [D|D]; [|rewrite (H2 D) in E; discriminate]. split; [apply J_nz, D|].
    rewrite (H1 D) in E. injection E as <-. intro u. destruct (ell2_exists p Hp Hp2 Hm a b e ef eb z b2 u Nz) as (x0 & y0 & H0).
    destruct (proj1 (ell2_result p Hp Hp2 Hm a b e ef ea eb z b2 u) x0 y0 H0) as (P & EP & HP).
    assert (SP : forall x y, sent p (ell2_map (el_K p Hp a b e z)) (MPoints.mpoint e) (Affine x y) (fe u) <-> ell2_point p (zv a) (zv b) (zv z) (zv u) x y).
    { intros x y. rewrite <- HP. split.
      - intros (_ & Q & EQ & HQ). rewrite EP in EQ. injection EQ as <-. exact HQ.
      - intro HQ. split; [apply valid_fe; lia|]. exists P. auto. }
    split; [exists x0, y0; apply SP, H0|]. intros X W. rewrite SP, (ell2_point_K p Hp Hp2 a b z b2). 
    assert (BI : forall X Y : K, Fmul b X = Fmul b Y -> X = Y).
    { intros s t. apply (Fcancel_l K b). apply D. }
    assert (ES : forall w : K, el_sign p Hp a b z u w <-> ((sq K (el_g K J L (el_x1 K J z u)) -> w = F0 \/ par p Hp w = false)
       /\ (~ sq K (el_g K J L (el_x1 K J z u)) -> par p Hp w = true))).
    { intro w. unfold el_sign, par. rewrite (zv0 p Hp w). reflexivity. }
    split.
    - intros (w & EX & EW & EQ & S). apply Zp_eq, BI in EX. apply Zp_eq, BI in EW. subst X w. apply ES in S. split; [exact EQ|].
      unfold el_x. destruct (sqd p Hp Hp2 (el_g K J L (el_x1 K J z u))) as [Q|Q]; split; intro Q'; try contradiction; (split; [reflexivity|]).
      + apply S, Q.
      + apply S, Q.
    - intros (EQ & S1 & S2). exists W.
      assert (EX : X = el_x p Hp Hp2 a b z u).
      { unfold el_x. destruct (sqd p Hp Hp2 (el_g K J L (el_x1 K J z u))) as [Q|Q]; [apply S1, Q|apply S2, Q]. }
      rewrite <- EX. split; [reflexivity|]. split; [reflexivity|]. split; [exact EQ|]. apply ES. split; intro Q; [apply S1, Q|apply S2, Q].
  Qed.
End Mont.
Section MontK.
  Variables (p : Z) (Hp : prime p) (Hp2 : 2 < p).
  Local Notation K := (ZpF p Hp).
  Lemma el_degenerate (z u : K) : el_exc K z u <-> degenerate p (zv z) (zv u).
  Proof. rewrite (degenerate_K p Hp Hp2). reflexivity. Qed.
  Lemma sqr_K (u v : K) : (p | zv u * zv u - zv v * zv v) <-> Fmul u u = Fmul v v.
  Proof. rewrite <- of_Z_div by lia. rewrite !of_Z_mul, !of_Z_zv. reflexivity. Qed.
  Lemma unit_K (b : K) : (p | zv b * zv b - 1) <-> Fmul b b = (F1 : K).
  Proof. rewrite <- of_Z_div by lia. rewrite of_Z_mul, of_Z_zv. reflexivity. Qed.
  Lemma scaled (b X : K) : Fmul b b = (F1 : K) -> zv X = zv (Fmul b (Fmul b X) : K).
  Proof. intro b2. f_equal. symmetry. exact (unit_scale K b X b2). Qed.
End MontK.
(** u and v go to the same point exactly when v = u, v = -u, or both are degenerate *)
Lemma c63_ell2_same : forall e z m u v x y, mfield e -> valid (modulus (MCurve.c_f e)) z ->
  (modulus (MCurve.c_f e) | val (MCurve.c_b e) * val (MCurve.c_b e) - 1) -> ~ square_mod (modulus (MCurve.c_f e)) (val z) -> ell2_new e z = Ret m ->
  sent (modulus (MCurve.c_f e)) (ell2_map m) (MPoints.mpoint e) (Affine x y) u -> valid (modulus (MCurve.c_f e)) v ->
  (sent (modulus (MCurve.c_f e)) (ell2_map m) (MPoints.mpoint e) (Affine x y) v <->
   (modulus (MCurve.c_f e) | val u * val u - val v * val v)
   \/ (degenerate (modulus (MCurve.c_f e)) (val z) (val u) /\ degenerate (modulus (MCurve.c_f e)) (val z) (val v))).
Proof.
  intros e z m u v x y W. open_m W. intro Vz. destruct (valid_ex _ _ Vz) as [k ->]. rewrite eb. cbn [val fe]. intros B Nz E Hu Vv.
  apply (unit_K p Hp Hp2) in B. assert (Nk : ~ sq (ZpF p Hp) k) by (intro Q; apply Nz; apply (sq_Z p Hp); rewrite of_Z_zv; exact Q).
  destruct (sent_el p Hp Hp2 Hm a b k e ef ea eb B Nk m E) as [HJ S].
  destruct (valid_ex _ _ (proj1 Hu)) as [u' ->], (valid_ex _ _ Vv) as [v' ->]. cbn [val fe].
  assert (C : coord p x /\ coord p y).
  { destruct Hu as (_ & P & _ & HP). destruct HP as (_ & _ & _ & _ & _ & O). rewrite ef in O. destruct O as (Cx & Cy & _). split; assumption. }
  destruct C as [Cx Cy]. destruct (coord_K p Hp x Cx) as [X ->], (coord_K p Hp y Cy) as [Y ->].
  rewrite (scaled p Hp b X B), (scaled p Hp b Y B) in *. rewrite (proj2 (S u')) in Hu. rewrite (proj2 (S v')).
  rewrite (sqr_K p Hp Hp2), <- !(el_degenerate p Hp Hp2).
  apply (ell2_same (ZpF p Hp) (sqd p Hp Hp2) (par p Hp) _ _ k HJ Nk _ _ u' v' Hu).
Qed.
(** when -1 is a square the only degenerate element is 0: Elligator 2 is then two-to-one *)
Lemma c63_ell2_two_to_one : forall e z m u v x y, mfield e -> valid (modulus (MCurve.c_f e)) z ->
  (modulus (MCurve.c_f e) | val (MCurve.c_b e) * val (MCurve.c_b e) - 1) -> ~ square_mod (modulus (MCurve.c_f e)) (val z) -> ell2_new e z = Ret m ->
  modulus (MCurve.c_f e) mod 4 = 1 ->
  sent (modulus (MCurve.c_f e)) (ell2_map m) (MPoints.mpoint e) (Affine x y) u -> valid (modulus (MCurve.c_f e)) v ->
  (sent (modulus (MCurve.c_f e)) (ell2_map m) (MPoints.mpoint e) (Affine x y) v <-> v = u \/ neg u = Ret v).
Proof.
  intros e z m u v x y W Vz B Nz E M Hu Vv. rewrite (c63_ell2_same e z m u v x y W Vz B Nz E Hu Vv).
  revert W Vz B Nz E M Hu Vv. intro W. open_m W. intro Vz. destruct (valid_ex _ _ Vz) as [k ->]. cbn [val fe]. intros B Nz E M Hu Vv.
  destruct (valid_ex _ _ (proj1 Hu)) as [u' ->], (valid_ex _ _ Vv) as [v' ->]. cbn [val fe]. rewrite neg_fe by lia.
  assert (Nk : ~ sq (ZpF p Hp) k) by (intro Q; apply Nz; apply (sq_Z p Hp); rewrite of_Z_zv; exact Q).
  assert (M8 : p mod 8 = 5).
  { destruct Hm as [M3|M5]; [lia|exact M5]. }
  assert (D0 : forall w : ZpF p Hp, el_exc (ZpF p Hp) k w -> w = F0).
  { intros w. apply (only_zero (ZpF p Hp) k w Nk). exact (neg1_sq p Hp ltac:(lia) M8). }
  rewrite (sqr_K p Hp Hp2), <- !(el_degenerate p Hp Hp2). split.
  - intros [Q|[D D']].
    + destruct (sqr_pm _ _ _ Q) as [Q'|Q']; [left; rewrite Q'; reflexivity|right]. rewrite Q'. f_equal. f_equal. exact (Fopp_opp (ZpF p Hp) v').
    + left. rewrite (D0 u' D), (D0 v' D'). reflexivity.
  - intros [Q|Q]; left; injection Q as Q.
    + apply Zp_eq in Q. rewrite Q. reflexivity.
    + assert (Q' : zopp u' = v') by (apply Zp_eq; exact Q). rewrite <- Q'. symmetry. exact (opp_sq (ZpF p Hp) u').
Qed.
(** which points are reached *)
Lemma c63_ell2_image : forall e z m x y, mfield e -> valid (modulus (MCurve.c_f e)) z ->
  (modulus (MCurve.c_f e) | val (MCurve.c_b e) * val (MCurve.c_b e) - 1) -> ~ square_mod (modulus (MCurve.c_f e)) (val z) -> ell2_new e z = Ret m ->
  on_cubic (modulus (MCurve.c_f e)) (val (MCurve.c_b e)) (val (MCurve.c_a e)) 1 0 (Affine x y) ->
  ((exists u, sent (modulus (MCurve.c_f e)) (ell2_map m) (MPoints.mpoint e) (Affine x y) u) <->
   square_mod (modulus (MCurve.c_f e)) (- (val z * (x * (x + val (MCurve.c_a e)))))
   /\ (x = 0 -> ~ square_mod (modulus (MCurve.c_f e)) (- (val (MCurve.c_a e) * val (MCurve.c_b e))))
   /\ ((modulus (MCurve.c_f e) | x + val (MCurve.c_a e)) -> forall w, coord (modulus (MCurve.c_f e)) w ->
         (modulus (MCurve.c_f e) | y - val (MCurve.c_b e) * w) -> w = 0 \/ Z.even w = false)).
Proof.
  intros e z m x y W. open_m W. intro Vz. destruct (valid_ex _ _ Vz) as [k ->]. rewrite ea, eb. cbn [val fe]. intros B Nz E O.
  apply (unit_K p Hp Hp2) in B. assert (Nk : ~ sq (ZpF p Hp) k) by (intro Q; apply Nz; apply (sq_Z p Hp); rewrite of_Z_zv; exact Q).
  destruct (sent_el p Hp Hp2 Hm a b k e ef ea eb B Nk m E) as [HJ S].
  destruct O as (Cx & Cy & D). destruct (coord_K p Hp x Cx) as [X ->], (coord_K p Hp y Cy) as [Y ->].
  assert (EC : Fmul (Fmul b Y) (Fmul b Y) = el_g (ZpF p Hp) (Fmul a b) (Fmul (Finv b) (Finv b)) (Fmul b X)).
  { apply (el_curve (ZpF p Hp) a b _ _ B). rewrite !(unit_scale (ZpF p Hp) b _ B).
    replace (zv X * zv X * zv X + zv a * (zv X * zv X) + 1 * zv X + 0) with (mont_cubic (zv a) (zv X)) in D by (unfold mont_cubic; ring).
    apply of_Z_div in D; [|lia]. rewrite (mc_K p Hp), !of_Z_mul, !of_Z_zv in D. exact D. }
  pose proof (ell2_reached (ZpF p Hp) (sqd p Hp Hp2) (par p Hp) (Fmul a b) (Fmul (Finv b) (Finv b)) k HJ Nk eq_refl (Fmul b X) (Fmul b Y) EC) as I.
  assert (I0 : (exists u, sent p (ell2_map m) (MPoints.mpoint e) (Affine (zv X) (zv Y)) u) <->
    exists u, el_hits (ZpF p Hp) (par p Hp) (Fmul a b) (Fmul (Finv b) (Finv b)) k (Fmul b X) (Fmul b Y) u).
  { rewrite (scaled p Hp b X B), (scaled p Hp b Y B). split; intros [u H].
    - destruct (valid_ex _ _ (proj1 H)) as [u' ->]. exists u'. apply S, H.
    - exists (fe u). apply S, H. }
  rewrite I0, I. clear I I0 S.
  destruct (image_forms (ZpF p Hp) a b k X B) as (F1' & F2 & F3 & F4).
  rewrite F1', F2, F3, F4. rewrite !(sq_Z p Hp).
  assert (Q1 : of_Z p (- (zv k * (zv X * (zv X + zv a)))) = Fopp (Fmul (k : ZpF p Hp) (Fmul X (Fadd X a))) :> ZpF p Hp).
  { rewrite of_Z_opp, !of_Z_mul, of_Z_add, !of_Z_zv. reflexivity. }
  assert (Q2 : of_Z p (- (zv a * zv b)) = Fopp (Fmul a b) :> ZpF p Hp).
  { rewrite of_Z_opp, of_Z_mul, !of_Z_zv. reflexivity. }
  rewrite Q1, Q2, (zv0 p Hp X).
  assert (Q3 : (p | zv X + zv a) <-> X = Fopp a :> ZpF p Hp).
  { rewrite (dvd0 p Hp Hp2), of_Z_add, !of_Z_zv. apply (add_zero_iff (ZpF p Hp)). }
  rewrite Q3.
  assert (Q4 : (forall w, coord p w -> (p | zv Y - zv b * w) -> w = 0 \/ Z.even w = false) <-> Fmul b Y = F0 :> ZpF p Hp \/ par p Hp (Fmul b Y) = false).
  { assert (WY : forall w : ZpF p Hp, (p | zv Y - zv b * zv w) <-> w = Fmul b Y).
    { intro w. rewrite <- of_Z_div by lia. rewrite of_Z_mul, !of_Z_zv. split.
      - intros ->. symmetry. exact (unit_scale (ZpF p Hp) b w B).
      - intros ->. symmetry. exact (unit_scale (ZpF p Hp) b Y B). }
    split.
    - intro H. rewrite <- (zv0 p Hp). apply H; [apply zv_range; lia|]. apply WY. reflexivity.
    - intros H w Cw Dw. destruct (coord_K p Hp w Cw) as [w' ->]. apply WY in Dw. subst w'. rewrite (zv0 p Hp). exact H. }
  rewrite Q4. reflexivity.
Qed.
(** no point has more than three preimages, of which at most two are not 0; half of the field is the least number of points reached *)
Lemma c63_ell2 : forall e z m x y, mfield e -> valid (modulus (MCurve.c_f e)) z ->
  (modulus (MCurve.c_f e) | val (MCurve.c_b e) * val (MCurve.c_b e) - 1) -> ~ square_mod (modulus (MCurve.c_f e)) (val z) -> ell2_new e z = Ret m ->
  at_most 2 (fun u => sent (modulus (MCurve.c_f e)) (ell2_map m) (MPoints.mpoint e) (Affine x y) u /\ val u <> 0)
  /\ at_most 3 (sent (modulus (MCurve.c_f e)) (ell2_map m) (MPoints.mpoint e) (Affine x y)).
Proof.
  intros e z m x y W. open_m W. intro Vz. destruct (valid_ex _ _ Vz) as [k ->]. rewrite eb. cbn [val fe]. intros B Nz E.
  apply (unit_K p Hp Hp2) in B. assert (Nk : ~ sq (ZpF p Hp) k) by (intro Q; apply Nz; apply (sq_Z p Hp); rewrite of_Z_zv; exact Q).
  destruct (sent_el p Hp Hp2 Hm a b k e ef ea eb B Nk m E) as [HJ S].
  pose proof (ell2_fibre (ZpF p Hp) (sqd p Hp Hp2) (par p Hp) (Fmul a b) (Fmul (Finv b) (Finv b)) k HJ Nk (Fmul b (of_Z p x)) (Fmul b (of_Z p y))) as R.
  assert (R2 : at_most 2 (fun u => sent p (ell2_map m) (MPoints.mpoint e) (Affine x y) u /\ val u <> 0)).
  { apply (by_residue p Hp 2 _ _) with (3 := R).
    - intros u [[V _] _]. exact V.
    - intros u [Hu N]. split; [|intros ->; apply N; reflexivity].
      assert (C : coord p x /\ coord p y).
      { destruct Hu as (_ & P & _ & HP). destruct HP as (_ & _ & _ & _ & _ & O). rewrite ef in O. destruct O as (Cx & Cy & _). split; assumption. }
      destruct C as [Cx Cy]. destruct (coord_K p Hp x Cx) as [X EX], (coord_K p Hp y Cy) as [Y EY]. rewrite EX, EY, !of_Z_zv. apply S.
      rewrite <- (scaled p Hp b X B), <- (scaled p Hp b Y B), <- EX, <- EY. exact Hu. }
  split; [exact R2|].
  apply (at_most_weak (2 + 1) 3 _ (fun u => (sent p (ell2_map m) (MPoints.mpoint e) (Affine x y) u /\ val u <> 0) \/ u = mkFpElt 0 (mkFp p)));
    [lia| |apply at_most_or; [exact R2|apply at_most_one]].
  intros u H. destruct (Z.eq_dec (val u) 0) as [O|O]; [right|left; auto]. destruct (proj1 H) as [F _]. destruct u as [v f]. cbn in *. subst. reflexivity.
Qed.
Lemma c63_ell2_size : forall e z m, mfield e -> valid (modulus (MCurve.c_f e)) z ->
  (modulus (MCurve.c_f e) | val (MCurve.c_b e) * val (MCurve.c_b e) - 1) -> ~ square_mod (modulus (MCurve.c_f e)) (val z) -> ell2_new e z = Ret m ->
  at_least (Z.to_nat ((modulus (MCurve.c_f e) - 1) / 2))
    (fun A => exists u, sent (modulus (MCurve.c_f e)) (ell2_map m) (MPoints.mpoint e) A u).
Proof.
  intros e z m W Vz B Nz E. assert (F : forall x y, at_most 2 (fun u => sent (modulus (MCurve.c_f e)) (ell2_map m) (MPoints.mpoint e) (Affine x y) u /\ val u <> 0)).
  { intros x y. apply (c63_ell2 e z m x y W Vz B Nz E). }
  revert W Vz B Nz E F. intro W. open_m W. intro Vz. destruct (valid_ex _ _ Vz) as [k ->]. rewrite eb. cbn [val fe]. intros B Nz E F.
  apply (unit_K p Hp Hp2) in B. assert (Nk : ~ sq (ZpF p Hp) k) by (intro Q; apply Nz; apply (sq_Z p Hp); rewrite of_Z_zv; exact Q).
  destruct (sent_el p Hp Hp2 Hm a b k e ef ea eb B Nk m E) as [_ S].
  destruct (without p Hp Hp2 1 (fun v : ZpF p Hp => v = F0)) as (l & N & HN & L).
  { intro v. apply Feqd. }
  { apply at_most_one. }
  destruct (image_rel apoint_dec (fun v A => exists x y, A = Affine x y /\ sent p (ell2_map m) (MPoints.mpoint e) (Affine x y) (fe v)) 2 l N) as (im & Nim & Him & Lim).
  - intros v _. destruct (proj1 (S v)) as (x & y & H). exists (Affine x y), x, y. auto.
  - intros [|x y].
    + apply (at_most_weak 0 2 _ _ (Nat.le_0_l 2) (fun v H => H)). apply at_most_none. intros v (_ & x & y & D & _). discriminate D.
    + apply (at_most_inj (fun v : Zp p => fe v) 2 _ _) with (3 := F x y).
      * intros u v _ _ Q. injection Q as Q. apply Zp_eq, Q.
      * intros v (I & x' & y' & D & H). injection D as <- <-. split; [exact H|]. cbn [val fe]. intro O. apply (HN v I). apply (zv0 p Hp), O.
  - exists im. split; [exact Nim|]. split.
    + intros A HA. destruct (Him A HA) as (v & _ & x & y & -> & H). exists (fe v). exact H.
    + pose proof (Nat.le_trans _ _ _ L (proj1 (Nat.add_le_mono_r _ _ 1) Lim)). pose proof (Z.div_mod (p - 1) 2 ltac:(lia)).
      pose proof (Z.mod_pos_bound (p - 1) 2 ltac:(lia)). lia.
Qed.

(** the bounds are attained *)
Definition W11' : WCurve.Curve := WCurve.mkCurve (mkFp 11) (n11 1) (n11 2) 7 (n11 0) (n11 1) 1.
Lemma wfield11' : wfield W11'.
Proof. split; [exact prime11|]. split; [cbn; lia|]. split; [left; reflexivity|]. split; split; cbn; (reflexivity || lia). Qed.
Definition n13 (x : Z) : FpElt := mkFpElt x (mkFp 13).
Definition V13 (b : Z) : WCurve.Curve := WCurve.mkCurve (mkFp 13) (n13 0) (n13 b) 7 (n13 0) (n13 1) 1.
Lemma vfield13 b : 0 <= b < 13 -> wfield (V13 b).
Proof. intro. split; [apply prime_small; reflexivity|]. split; [cbn; lia|]. split; [right; reflexivity|]. split; split; cbn; (reflexivity || lia). Qed.
(** seven elements, three of them degenerate, sent to (5, 0); four to (8, 9), none degenerate *)
Example c63_sswu_ex : wfield W11' /\ wfield W11
  /\ (exists m, sswu_new W11' (n11 7) = Ret m
      /\ Forall (fun u => sswu_map m (n11 u) = Ret (WCurve.mkPoint W11' (WCurve.mkProy (n11 5) (n11 0) (n11 1)))) [0; 3; 4; 5; 6; 7; 8]
      /\ Forall (fun u => degenerate 11 7 u) [0; 5; 6])
  /\ (exists m, sswu_new W11 (n11 2) = Ret m /\ Forall (fun u => sswu_map m (n11 u) = Ret (w11 8 9)) [1; 3; 5; 9]).
Proof.
  split; [exact wfield11'|]. split; [exact wfield11|]. split; eexists; (split; [vm_compute; reflexivity|]).
  - split; [repeat (constructor; [vm_compute; reflexivity|]); constructor|]. constructor; [exists 0; reflexivity|]. constructor; [exists 2800; reflexivity|]. constructor; [exists 5796; reflexivity|constructor].
  - repeat (constructor; [vm_compute; reflexivity|]); constructor.
Qed.
(** five elements sent to (12, 0), where 2 x = - z; four to (1, 11) *)
Example c63_svdw_ex : wfield (V13 1) /\ wfield (V13 3)
  /\ (exists m, svdw_new (V13 1) (n13 2) = Ret m
      /\ Forall (fun u => svdw_map m (n13 u) = Ret (WCurve.mkPoint (V13 1) (WCurve.mkProy (n13 12) (n13 0) (n13 1)))) [0; 4; 6; 7; 9])
  /\ (exists m, svdw_new (V13 3) (n13 1) = Ret m
      /\ Forall (fun u => svdw_map m (n13 u) = Ret (WCurve.mkPoint (V13 3) (WCurve.mkProy (n13 1) (n13 11) (n13 1)))) [1; 3; 7; 9]).
Proof.
  split; [apply vfield13; lia|]. split; [apply vfield13; lia|]. split; eexists; (split; [vm_compute; reflexivity|repeat (constructor; [vm_compute; reflexivity|]); constructor]).
Qed.
(** three elements, all degenerate, sent to (0, 0); the others go in pairs *)
Example c63_ell2_ex : mfield (M11 1) /\ ~ square_mod 11 2
  /\ exists m, ell2_new (M11 1) (n11 2) = Ret m
  /\ Forall (fun u => ell2_map m (n11 u) = Ret (m11 1 0 0)) [0; 4; 7]
  /\ Forall (fun u => ell2_map m (n11 u) = Ret (m11 1 4 4)) [1; 10]
  /\ Forall (fun u => ell2_map m (n11 u) = Ret (m11 1 8 9)) [2; 9].
Proof.
  split; [apply mfield11; lia|]. split; [exact nonsq11|]. eexists. split; [vm_compute; reflexivity|]. repeat split; repeat (constructor; [vm_compute; reflexivity|]); constructor.
Qed.
