(** C76: how many byte strings decode accepts, for each point and in all. *)
From Coq Require Import ZArith Znumtheory Lia String Bool List.
From Verif.Spec Require Import Arith Curve Order Elements.
From Verif.Spec Require WPoints MPoints EPoints.
From Verif.Spec Require Instances.
From Verif.Model Require Import Out BigInt PrimeField Scalar.
From Verif.Model Require WCurve MCurve ECurve.
From Verif.Model Require Instances.
From Verif.Proofs Require Import SmallP FieldProps BytesP CountP.
From Verif.Proofs Require WeierProps MontProps EdwP EdwProps EncProps WireProps InstProps OrderProps EdEllProps Cert_Order.
From Verif.Spec Require Export Shipped Membership Accepted.
Import Spec.Instances Model.Instances.
Import ListNotations.
Open Scope Z_scope.

(** *** Weierstrass: two for each point *)
Lemma sec1_two n x y c b b' : sec1 n x y c b -> sec1 n x y c b' -> b = b'.
Proof. intros H H'. apply (EncProps.sec1_same n x y x y c b b' H H'). split; [reflexivity|]. destruct c; reflexivity. Qed.
Lemma sec1_forms n x y b b' : sec1 n x y true b -> sec1 n x y false b' -> b <> b'.
Proof. intros H H'. inversion H; subst. inversion H'; subst. intro E. injection E as E _. destruct (Z.even y); discriminate E. Qed.
Lemma w_reads e n x y buf : WPoints.weier e -> sqrt_modulus (modulus (WCurve.c_f e)) -> byte_size (modulus (WCurve.c_f e)) n -> WPoints.won e (Affine x y) ->
  (reads (WCurve.decode e) (WPoints.wpoint e) (Affine x y) buf <-> exists c, sec1 n x y c buf).
Proof.
  intros W SM Hn O. split.
  - intros (B & Q & D & HQ). destruct (proj1 (WeierProps.c29_decode_ok e buf n W SM B Hn) Q D) as (c & x' & y' & S & _ & HQ').
    pose proof (proj1 (WeierProps.c32_representation e W) _ _ _ HQ HQ') as E. injection E as <- <-. exists c. exact S.
  - intros (c & S). pose proof (WireProps.sec1_bytes _ _ _ _ _ S) as B. split; [exact B|]. exact (proj2 (WeierProps.c29_decode_ok e buf n W SM B Hn) c x y S O).
Qed.
Lemma c76_point : forall e x y, WPoints.weier e -> sqrt_modulus (modulus (WCurve.c_f e)) -> WPoints.won e (Affine x y) ->
  counted (reads (WCurve.decode e) (WPoints.wpoint e) (Affine x y)) 2.
Proof.
  intros e x y W SM O. assert (p0 : 0 < modulus (WCurve.c_f e)) by (destruct W; lia). pose proof (size_byte_size _ p0) as Hn.
  destruct (proj2 (WeierProps.c32_representation e W) _ O) as (P & HP).
  destruct (WeierProps.c28_encode e P x y true _ W HP Hn) as (b & _ & S). destruct (WeierProps.c28_encode e P x y false _ W HP Hn) as (b' & _ & S').
  apply (counted_two b b'); [exact (sec1_forms _ _ _ _ _ S S')|]. intro z. rewrite (w_reads e _ x y z W SM Hn O). split.
  - intros ([|] & Sz); [left; exact (sec1_two _ _ _ _ _ _ Sz S)|right; exact (sec1_two _ _ _ _ _ _ Sz S')].
  - intros [-> | ->]; eexists; eassumption.
Qed.
Lemma c76_all : forall e n, WPoints.weier e -> sqrt_modulus (modulus (WCurve.c_f e)) -> counted (WPoints.won e) n ->
  counted (taken (WCurve.decode e)) (2 * (n - 1)).
Proof.
  intros e n W SM C. destruct (counted_less apoint_dec _ n Infinity C I) as (L & N & H & E).
  assert (HL : forall A, In A L -> exists x y, A = Affine x y /\ WPoints.won e (Affine x y)).
  { intros A HA. apply H in HA. destruct HA as (O & NI). destruct A as [|x y]; [destruct NI; reflexivity|]. exists x, y. split; [reflexivity|exact O]. }
  apply (counted_ext (fun b => exists A, In A L /\ reads (WCurve.decode e) (WPoints.wpoint e) A b)).
  - intro b. split.
    + intros (A & _ & B & Q & D & _). split; [exact B|]. exists Q. exact D.
    + intros (B & Q & D). assert (p0 : 0 < modulus (WCurve.c_f e)) by (destruct W; lia).
      destruct (proj1 (WeierProps.c29_decode_ok e b _ W SM B (size_byte_size _ p0)) Q D) as (c & x & y & S & O & HQ).
      exists (Affine x y). split; [apply H; split; [exact O|discriminate]|]. split; [exact B|]. exists Q. split; assumption.
  - rewrite <- E. rewrite <- (sum_const 2 L). apply count_pairs; [exact N| |].
    + intros A HA. destruct (HL A HA) as (x & y & -> & O). exact (c76_point e x y W SM O).
    + intros A A' b _ _ (_ & Q & D & HQ) (_ & Q' & D' & HQ'). rewrite D in D'. injection D' as <-. exact (proj1 (WeierProps.c32_representation e W) _ _ _ HQ HQ').
Qed.

(** *** Montgomery: two for each point, three if the ordinate is 0 *)
Lemma m_reads e n x y buf : MPoints.mont e -> sqrt_modulus (modulus (MCurve.c_f e)) -> byte_size (modulus (MCurve.c_f e)) n -> MPoints.mon e (Affine x y) ->
  (reads (MCurve.decode e) (MPoints.mpoint e) (Affine x y) buf <-> Forall is_byte buf /\ exists c, MPoints.accepted n x y c buf).
Proof.
  intros W SM Hn O. split.
  - intros (B & Q & D & HQ). split; [exact B|]. destruct (proj1 (MontProps.c35_decode_ok e buf n W SM B Hn) Q D) as (c & x' & y' & S & _ & HQ').
    pose proof (proj1 (MontProps.c32_mont_representation e W) _ _ _ HQ HQ') as E. injection E as <- <-. exists c. exact S.
  - intros (B & c & S). split; [exact B|]. exact (proj2 (MontProps.c35_decode_ok e buf n W SM B Hn) c x y S O).
Qed.
Lemma c76_mont_point : forall e x y, MPoints.mont e -> sqrt_modulus (modulus (MCurve.c_f e)) -> MPoints.mon e (Affine x y) ->
  counted (reads (MCurve.decode e) (MPoints.mpoint e) (Affine x y)) (if y =? 0 then 3 else 2).
Proof.
  intros e x y W SM O. assert (p0 : 0 < modulus (MCurve.c_f e)) by (destruct W as (_ & W & _); lia). pose proof (size_byte_size _ p0) as Hn.
  destruct (proj2 (MontProps.c32_mont_representation e W) _ O) as (P & HP).
  destruct (MontProps.c35_encode e P x y true _ W HP Hn) as (b & _ & S). destruct (MontProps.c35_encode e P x y false _ W HP Hn) as (b' & _ & S').
  assert (HR : forall z, (exists c, sec1 ((bits (modulus (MCurve.c_f e)) + 7) / 8) x y c z) <-> z = b \/ z = b').
  { intro z. split.
    - intros ([|] & Sz); [left; exact (sec1_two _ _ _ _ _ _ Sz S)|right; exact (sec1_two _ _ _ _ _ _ Sz S')].
    - intros [-> | ->]; eexists; eassumption. }
  pose proof (sec1_forms _ _ _ _ _ S S') as NE. destruct (Z.eqb_spec y 0) as [-> |Ny].
  - inversion S; subst. match goal with H : be_digits _ _ bx |- _ => rename H into D end. cbn [Z.even] in *.
    exists [3 :: bx; 2 :: bx; b']. split; [|split; [|reflexivity]].
    + constructor; [|constructor; [|constructor; [intros []|constructor]]].
      * intros [E|[E|[]]]; [discriminate E|]. inversion S'; subst. discriminate.
      * intros [E|[]]. apply NE. symmetry. exact E.
    + intro z. rewrite (m_reads e _ x 0 z W SM Hn O). split.
      * intros [<-|[<-|[<-|[]]]].
        -- split; [|exists true; right; split; [reflexivity|]; split; [reflexivity|]; exists bx; split; [exact D|reflexivity]].
           pose proof (WireProps.sec1_bytes _ _ _ _ _ S) as B. inversion B; subst. constructor; [split; [discriminate|reflexivity]|assumption].
        -- split; [exact (WireProps.sec1_bytes _ _ _ _ _ S)|]. exists true. left. exact S.
        -- split; [exact (WireProps.sec1_bytes _ _ _ _ _ S')|]. exists false. left. exact S'.
      * intros (B & c & [Sz|(-> & _ & bx' & D' & ->)]).
        -- destruct (proj1 (HR z) (ex_intro _ c Sz)) as [-> | ->]; [right; left|right; right; left]; reflexivity.
        -- left. f_equal. pose proof (sec1_two _ _ _ _ _ _ S (sec1_compressed _ x 0 bx' D')) as E. injection E as E. exact E.
  - apply (counted_two b b' _ NE). intro z. rewrite (m_reads e _ x y z W SM Hn O), <- HR. split.
    + intros (_ & c & [Sz|(_ & E & _)]); [exists c; exact Sz|contradiction].
    + intros (c & Sz). split; [exact (WireProps.sec1_bytes _ _ _ _ _ Sz)|]. exists c. left. exact Sz.
Qed.
(** as many entries with ordinate 0 as there are abscissas of such points *)
Lemma zeros_sum (L : list apoint) : NoDup L -> (forall A, In A L -> A <> Infinity) -> forall t, counted (fun x => In (Affine x 0) L) t ->
  fold_right Z.add 0 (map (fun A => match A with Affine _ y => if y =? 0 then 3 else 2 | Infinity => 0 end) L) = 2 * Z.of_nat (List.length L) + t.
Proof.
  intro N. induction N as [|A L NI N IH]; intros NE t C.
  - destruct C as (l & _ & H & E). destruct l as [|x l]; [cbn in *; lia|]. destruct (proj1 (H x) (or_introl eq_refl)).
  - assert (NE' : forall A, In A L -> A <> Infinity) by (intros B HB; apply NE; right; exact HB). cbn [map fold_right List.length].
    destruct A as [|x y]; [destruct (NE Infinity (or_introl eq_refl) eq_refl)|]. destruct (Z.eqb_spec y 0) as [-> |Ny].
    + rewrite (IH NE' (t - 1)); [lia|]. apply (counted_ext (fun z => In (Affine z 0) (Affine x 0 :: L) /\ z <> x)).
      * intro z. cbn. split; [intros ([E|I] & Nz); [injection E as E; destruct Nz; symmetry; exact E|exact I]|].
        intro I. split; [right; exact I|]. intros ->. exact (NI I).
      * apply (counted_less Z.eq_dec _ t x C). left. reflexivity.
    + rewrite (IH NE' t); [lia|]. refine (counted_ext _ _ t _ C). intro z. cbn. split; [intros [E|I]; [injection E as _ E; contradiction|exact I]|]. intro I. right. exact I.
Qed.
Lemma c76_mont_all : forall e n t, MPoints.mont e -> sqrt_modulus (modulus (MCurve.c_f e)) -> counted (MPoints.mon e) n ->
  counted (fun x => MPoints.mon e (Affine x 0)) t -> counted (taken (MCurve.decode e)) (2 * (n - 1) + t).
Proof.
  intros e n t W SM C Ct. destruct (counted_less apoint_dec _ n Infinity C I) as (L & N & H & E).
  assert (HL : forall A, In A L -> exists x y, A = Affine x y /\ MPoints.mon e (Affine x y)).
  { intros A HA. apply H in HA. destruct HA as (O & NI). destruct A as [|x y]; [destruct NI; reflexivity|]. exists x, y. split; [reflexivity|exact O]. }
  apply (counted_ext (fun b => exists A, In A L /\ reads (MCurve.decode e) (MPoints.mpoint e) A b)).
  - intro b. split.
    + intros (A & _ & B & Q & D & _). split; [exact B|]. exists Q. exact D.
    + intros (B & Q & D). assert (p0 : 0 < modulus (MCurve.c_f e)) by (destruct W as (_ & W & _); lia).
      destruct (proj1 (MontProps.c35_decode_ok e b _ W SM B (size_byte_size _ p0)) Q D) as (c & x & y & S & O & HQ).
      exists (Affine x y). split; [apply H; split; [exact O|discriminate]|]. split; [exact B|]. exists Q. split; assumption.
  - rewrite <- E, <- (zeros_sum L N).
    + apply count_pairs; [exact N| |].
      * intros A HA. destruct (HL A HA) as (x & y & -> & O). exact (c76_mont_point e x y W SM O).
      * intros A A' b _ _ (_ & Q & D & HQ) (_ & Q' & D' & HQ'). rewrite D in D'. injection D' as <-. exact (proj1 (MontProps.c32_mont_representation e W) _ _ _ HQ HQ').
    + intros A HA. apply H in HA. apply HA.
    + refine (counted_ext _ _ t _ Ct). intro x. rewrite H. split; [intro O; split; [exact O|discriminate]|tauto].
Qed.

(** *** Edwards: one *)
Lemma e_reads e n x y buf : EPoints.edw e -> sqrt_modulus (modulus (ECurve.c_f e)) -> ed_size (modulus (ECurve.c_f e)) n -> EPoints.eon e (x, y) ->
  (reads (ECurve.decode e) (EPoints.epoint e) (x, y) buf <-> ed_text n x y buf).
Proof.
  intros W SM Hn O. split.
  - intros (B & Q & D & HQ). destruct (proj1 (EdwProps.c39_decode_ok e buf n W SM B Hn) Q D) as (x' & y' & S & _ & HQ').
    pose proof (proj1 (EdwProps.c32_edw_representation e W) _ _ _ HQ HQ') as E. pose proof (f_equal fst E) as E1. pose proof (f_equal snd E) as E2. cbn in E1, E2. subst x' y'. exact S.
  - intro S. assert (B : Forall is_byte buf) by apply S. split; [exact B|]. exact (proj2 (EdwProps.c39_decode_ok e buf n W SM B Hn) x y S O).
Qed.
Lemma c76_edw_point : forall e A, EPoints.edw e -> sqrt_modulus (modulus (ECurve.c_f e)) -> EPoints.eon e A ->
  counted (reads (ECurve.decode e) (EPoints.epoint e) A) 1.
Proof.
  intros e (x, y) W SM O. assert (p2 : 2 < modulus (ECurve.c_f e)) by (destruct W as (_ & W & _); exact W).
  pose proof (proj2 (EdwProps.c39_size _ _ p2) eq_refl) as Hn. destruct (proj2 (EdwProps.c32_edw_representation e W) _ O) as (P & HP).
  destruct (EdwProps.c39_encode e P x y true _ W HP Hn) as (b & _ & S). exists [b]. split; [constructor; [intros []|constructor]|]. split; [|reflexivity].
  intro z. rewrite (e_reads e _ x y z W SM Hn O). split.
  - intros [<-|[]]. exact S.
  - intro Sz. left. destruct S as (L & B & V), Sz as (L' & B' & V'). apply EdwP.le_value_inj; try assumption; [lia|congruence].
Qed.
Lemma c76_edw_all : forall e n, EPoints.edw e -> sqrt_modulus (modulus (ECurve.c_f e)) -> counted (EPoints.eon e) n -> counted (taken (ECurve.decode e)) n.
Proof.
  intros e n W SM (L & N & H & E). apply (counted_ext (fun b => exists A, In A L /\ reads (ECurve.decode e) (EPoints.epoint e) A b)).
  - intro b. split.
    + intros (A & _ & B & Q & D & _). split; [exact B|]. exists Q. exact D.
    + intros (B & Q & D). assert (p2 : 2 < modulus (ECurve.c_f e)) by (destruct W as (_ & W & _); exact W).
      destruct (proj1 (EdwProps.c39_decode_ok e b _ W SM B (proj2 (EdwProps.c39_size _ _ p2) eq_refl)) Q D) as (x & y & S & O & HQ).
      exists (x, y). split; [apply H; exact O|]. split; [exact B|]. exists Q. split; assumption.
  - replace n with (fold_right Z.add 0 (map (fun _ => 1) L)) by (rewrite (sum_const 1 L); lia). apply count_pairs; [exact N| |].
    + intros A HA. apply H in HA. exact (c76_edw_point e A W SM HA).
    + intros A A' b _ _ (_ & Q & D & HQ) (_ & Q' & D' & HQ'). rewrite D in D'. injection D' as <-. exact (proj1 (EdwProps.c32_edw_representation e W) _ _ _ HQ HQ').
Qed.

(** *** the curves shipped *)
Lemma c76_shipped : forall X s, In (X, s) prime_curves -> exists e, X = Ret e /\ counted (taken (WCurve.decode e)) (2 * (w_r s - 1)).
Proof.
  intros X s H. destruct (OrderProps.prime_curves_order X s H) as ((e & E & _ & _ & _ & _ & _ & _ & _ & WG & _) & (e' & E' & C & _) & _).
  assert (e' = e) by congruence. subst e'. exists e. split; [exact E|]. destruct WG as (W & SM & _). exact (c76_all e _ W SM C).
Qed.
Lemma c76_bls : forall X s, In (X, s) [(BLS12381G1, std_BLS12381G1); (BLS12381G1_11ISO, std_BLS12381G1_11ISO)] ->
  exists e, X = Ret e /\ counted (taken (WCurve.decode e)) (2 * (w_r s * 0x396C8C005555E1568C00AAAB0000AAAB - 1)).
Proof.
  assert (K : forall X s n, w_shipped X s -> (exists e, X = Ret e /\ counted (WPoints.won e) n) -> exists e, X = Ret e /\ counted (taken (WCurve.decode e)) (2 * (n - 1))).
  { intros X s n (e & E & _ & _ & _ & _ & _ & _ & _ & WG & _) (e' & E' & C). assert (e' = e) by congruence. subst e'. exists e. split; [exact E|].
    destruct WG as (W & SM & _). exact (c76_all e _ W SM C). }
  intros X s [H|[H|[]]].
  - pose proof (f_equal fst H) as E1. pose proof (f_equal snd H) as E2. cbn [fst snd] in E1, E2. rewrite <- E1, <- E2. apply (K _ _ _ InstProps.c48_BLS12381G1). destruct OrderProps.c55_BLS12381G1 as ((e & E & C & _) & _). exists e. split; assumption.
  - pose proof (f_equal fst H) as E1. pose proof (f_equal snd H) as E2. cbn [fst snd] in E1, E2. rewrite <- E1, <- E2. apply (K _ _ _ InstProps.c48_BLS12381G1_11ISO). destruct OrderProps.c55_BLS12381G1_11ISO as (e & E & C & _). exists e. split; assumption.
Qed.
(** the only point with ordinate 0 is (0,0) when a^2 - 4 is no square *)
Lemma one_zero e : MPoints.mont e -> ~ square_mod (modulus (MCurve.c_f e)) (val (MCurve.c_a e) * val (MCurve.c_a e) - 4) -> counted (fun x => MPoints.mon e (Affine x 0)) 1.
Proof.
  intros W NS. destruct W as (Pp & p2 & _). exists [0]. split; [constructor; [intros []|constructor]|]. split; [|reflexivity]. set (p := modulus (MCurve.c_f e)) in *. set (a := val (MCurve.c_a e)) in *.
  unfold MPoints.mon, on_cubic. fold p a. intro x. split.
  - intros [<-|[]]. split; [split; lia|]. split; [split; lia|]. exists 0. ring.
  - intros (Cx & _ & D). left. replace (val (MCurve.c_b e) * (0 * 0) - (x * x * x + a * (x * x) + 1 * x + 0)) with (- (x * (x * x + a * x + 1))) in D by ring.
    apply Z.divide_opp_r in D. rewrite Z.opp_involutive in D. apply prime_mult in D; [|exact Pp]. destruct D as [D|D].
    + destruct Cx as (C1 & C2). destruct (Z.eq_dec x 0) as [->|N]; [reflexivity|]. apply Z.divide_pos_le in D; lia.
    + destruct NS. exists (2 * x + a). replace ((2 * x + a) * (2 * x + a) - (a * a - 4)) with (4 * (x * x + a * x + 1)) by ring. apply Z.divide_mul_r. exact D.
Qed.
Lemma m_count X s n : m_shipped X s -> m_order X s n -> ~ square_mod (m_p s) ((m_a s mod m_p s) * (m_a s mod m_p s) - 4) -> exists e, X = Ret e /\ counted (taken (MCurve.decode e)) (2 * n - 1).
Proof.
  intros (e & E & Ep & Ea & _ & _ & _ & _ & _ & _ & MG & _) (e' & E' & C & _) NS. assert (e' = e) by congruence. subst e'. exists e. split; [exact E|].
  destruct MG as (W & SM & _). replace (2 * n - 1) with (2 * (n - 1) + 1) by lia. apply (c76_mont_all e n 1 W SM C). apply one_zero; [exact W|]. rewrite Ep, Ea. exact NS.
Qed.
Lemma c76_mont_shipped : forall X s, In (X, s) m_curves -> exists e, X = Ret e /\ counted (taken (MCurve.decode e)) (2 * (m_r s * m_h s) - 1).
Proof.
  intros X s [H|[H|[]]]; pose proof (f_equal fst H) as E1; pose proof (f_equal snd H) as E2; cbn [fst snd] in E1, E2; rewrite <- E1, <- E2; clear H E1 E2 X s.
  - apply (m_count _ _ _ InstProps.c48_CURVE25519 (proj1 OrderProps.c55_CURVE25519)). destruct InstProps.c48_CURVE25519 as (_ & _ & _ & _ & _ & _ & _ & _ & Pp & _).
    rewrite OrderProps.std_CURVE25519_lit in *. cbn [m_p m_a] in *. rewrite Z.mod_small by lia. exact (EdEllProps.nonsq_at _ Pp _ 8 Cert_Order.nonsq_a_CURVE25519).
  - apply (m_count _ _ _ InstProps.c48_CURVE448 (proj1 OrderProps.c55_CURVE448)). destruct InstProps.c48_CURVE448 as (_ & _ & _ & _ & _ & _ & _ & _ & Pp & _).
    rewrite OrderProps.std_CURVE448_lit in *. cbn [m_p m_a] in *. rewrite Z.mod_small by lia. exact (EdEllProps.nonsq_at _ Pp _ 8 Cert_Order.nonsq_a_CURVE448).
Qed.
Lemma c76_edw_shipped : forall X s, In (X, s) e_curves -> exists e, X = Ret e /\ counted (taken (ECurve.decode e)) (e_r s * e_h s).
Proof.
  assert (K : forall X s n, e_shipped X s -> e_order X s n -> exists e, X = Ret e /\ counted (taken (ECurve.decode e)) n).
  { intros X s n (e & E & _ & _ & _ & _ & _ & _ & _ & WG & _) (e' & E' & C & _). assert (e' = e) by congruence. subst e'. exists e. split; [exact E|].
    destruct WG as (W & SM & _). exact (c76_edw_all e _ W SM C). }
  intros X s [H|[H|[]]]; pose proof (f_equal fst H) as E1; pose proof (f_equal snd H) as E2; cbn [fst snd] in E1, E2; rewrite <- E1, <- E2; clear H E1 E2 X s.
  - exact (K _ _ _ InstProps.c48_EDWARDS25519 (proj1 OrderProps.c55_EDWARDS25519)).
  - exact (K _ _ _ InstProps.c48_EDWARDS448 (proj1 OrderProps.c55_EDWARDS448)).
Qed.

(** y^2 = x^3 + x + 6 modulo 7 has 11 points: 20 strings are accepted, here counted among those of up to three
    bytes below 8; the point (0,0) of y^2 = x^3 + 6 x^2 + x modulo 19 is read from three strings *)
Example c76_ex : WPoints.wgroup WeierProps.E7 /\ MPoints.mgroup MontProps.E19
  /\ (let b := [0; 1; 2; 3; 4; 5; 6; 7] in
      let l2 := flat_map (fun t => map (fun x => [t; x]) b) b in
      List.length (filter (fun s => match WCurve.decode WeierProps.E7 s with Ret (Ok _) => true | _ => false end)
        (map (fun t => [t]) b ++ l2 ++ flat_map (fun s => map (fun y => s ++ [y]) b) l2)%list) = 20%nat)
  /\ map (MCurve.decode MontProps.E19) [[2; 0]; [3; 0]; [4; 0; 0]] = repeat (Ret (Ok (MontProps.pt19 0 0 1))) 3
  /\ MPoints.mpoint MontProps.E19 (MontProps.pt19 0 0 1) (Affine 0 0).
Proof.
  split; [exact WeierProps.wgroup7|]. split; [exact MontProps.mgroup19|]. split; [vm_compute; reflexivity|]. split; [vm_compute; reflexivity|].
  MontProps.in19.
Qed.
