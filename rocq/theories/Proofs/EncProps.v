(** C57: which points share their bytes. *)
From Coq Require Import ZArith Znumtheory Lia String Bool List.
From Verif.Math Require Import Fld Zp.
From Verif.Spec Require Import Arith Curve Instances.
From Verif.Model Require Import Out BigInt PrimeField Scalar Instances.
From Verif.Proofs Require Import SmallP FieldProps BytesP ScalarProps CurveP InstP InstShip.
From Verif.Model Require WCurve MCurve ECurve.
From Verif.Proofs Require WeierP MontP EdwP WeierProps MontProps EdwProps InstProps ScLawProps.
From Verif.Math Require Import ECGroup.
From Verif.Spec Require Export Shipped.
Import ListNotations.
Open Scope Z_scope.

Lemma app_inj_1 {T : Type} (a a' b b' : list T) : List.length a = List.length a' -> (a ++ b = a' ++ b')%list -> a = a' /\ b = b'.
Proof.
  revert a'. induction a as [|x a IH]; intros [|x' a'] L E; try discriminate L; [auto|]. cbn in E. injection E as -> E.
  injection L as L. destruct (IH _ L E) as (-> & ->). auto.
Qed.
(** the coordinates that encode writes: the identity is written as (0, 0) *)
Definition shown (A : apoint) : Z * Z := match A with Infinity => (0, 0) | Affine x y => (x, y) end.
Lemma sec1_same n x y x' y' c b b' : sec1 n x y c b -> sec1 n x' y' c b' ->
  (b = b' <-> x = x' /\ (if c then Z.even y = Z.even y' else y = y')).
Proof.
  assert (D : forall v v' l m, be_digits n v l -> be_digits n v' m -> (l = m <-> v = v')).
  { intros v v' l m (L1 & B1 & V1) (L2 & B2 & V2). split; [congruence|]. intro E. apply be_value_inj; try assumption; [lia|congruence]. }
  intros H1 H2. inversion H1 as [bx D1 C1 E1|bx by_ D1 D2 C1 E1]; subst; inversion H2 as [bx' D1' E1'|bx' by_' D1' D2' E1']; subst.
  - split.
    + intro E. injection E as T E. split; [apply (D _ _ _ _ D1 D1'), E|]. destruct (Z.even y), (Z.even y'); congruence || discriminate T.
    + intros (E & ->). f_equal. apply (D _ _ _ _ D1 D1'), E.
  - split.
    + intro E. injection E as E. assert (L : length bx = length bx') by (destruct D1 as (? & _), D1' as (? & _); lia).
      destruct (app_inj_1 bx bx' by_ by_' L E) as (Ex & Ey). split; [apply (D _ _ _ _ D1 D1'), Ex|apply (D _ _ _ _ D2 D2'), Ey].
    + intros (E & E'). f_equal. f_equal; [apply (D _ _ _ _ D1 D1'), E|apply (D _ _ _ _ D2 D2'), E'].
Qed.
Lemma sec1_zero n c : 0 <= n -> sec1 n 0 0 c (if c then 2 :: repeat 0 (Z.to_nat n) else 4 :: repeat 0 (2 * Z.to_nat n)).
Proof.
  intro H. assert (D : be_digits n 0 (repeat 0 (Z.to_nat n))).
  { split; [rewrite repeat_length; lia|]. split; [apply Forall_forall; intros z Hz; apply repeat_spec in Hz; subst; unfold is_byte; lia|apply be_value_zeros]. }
  destruct c; [apply (sec1_compressed n 0 0), D|]. cbn [Nat.mul]. rewrite Nat.add_0_r, repeat_app. apply sec1_full; exact D.
Qed.
(** two ordinates over one abscissa with the same parity are equal *)
Lemma same_parity p y y' : prime p -> 2 < p -> coord p y -> coord p y' -> (p | y * y - y' * y') -> Z.even y = Z.even y' -> y = y'.
Proof.
  intros Hp H2 Cy Cy' D E. replace (y * y - y' * y') with ((y - y') * (y + y')) in D by ring.
  assert (O : Z.odd p = true). { destruct (Zeven.Zeven_odd_dec p) as [V|V]; [|apply Zodd_bool_iff, V]. apply Zeven_ex in V. destruct V as [h Hh].
    destruct (prime_divisors p Hp 2) as [?|[?|[?|?]]]; [exists h; lia|lia..]. }
  unfold coord in *. destruct (prime_mult p Hp _ _ D) as [[q Hq]|[q Hq]].
  - assert (-1 < q < 1) by (split; nia). nia.
  - assert (-1 < q < 2) by (split; nia). assert (Q : q = 0 \/ q = 1) by lia. destruct Q as [-> | ->]; [lia|]. exfalso.
    assert (S : y + y' = p) by lia. rewrite <- S, Z.odd_add, <- !Z.negb_even, E in O. destruct (Z.even y'); discriminate O.
Qed.

(** *** Weierstrass curves *)
Lemma w_shown e P A c n : WPoints.weier e -> WPoints.wpoint e P A -> byte_size (modulus (WCurve.c_f e)) n ->
  exists buf, WCurve.encode P c = Ret buf /\ sec1 n (fst (shown A)) (snd (shown A)) c buf.
Proof.
  intros W HP Hn. destruct A as [|x y]; [|exact (WeierProps.c28_encode e P x y c n W HP Hn)].
  destruct (WeierProps.weier_open _ W) as (p & Hp & Hp2 & a & b & ef & ea & eb & NR & WP & WS & WM & WO).
  apply WP in HP. destruct HP as (A' & E & RP). destruct A' as [|]; [|discriminate E].
  exists (if c then 2 :: repeat 0 (Z.to_nat n) else 4 :: repeat 0 (2 * Z.to_nat n)). split; [|apply sec1_zero; destruct Hn; lia].
  rewrite (WeierP.encode_inf p Hp Hp2 a b e P c RP). 
  assert (En : size_bytes (mkFp p) = n). { rewrite ef in Hn. cbn [modulus] in Hn. symmetry. exact (WeierProps.size_is_nb p n Hp Hn). }
  rewrite En. reflexivity.
Qed.
(** P and Q have the same bytes exactly when they are equal, except that in compressed form the identity has the bytes
    of the point (0, y) with y even, if there is one *)
Lemma c57_same_bytes : forall e P Q A B c, WPoints.weier e -> WPoints.wpoint e P A -> WPoints.wpoint e Q B ->
  (exists buf, WCurve.encode P c = Ret buf)
  /\ (WCurve.encode P c = WCurve.encode Q c <->
      WCurve.pt_eqb P Q = Ret true
      \/ (c = true /\ exists y, Z.even y = true /\ ((A = Infinity /\ B = Affine 0 y) \/ (A = Affine 0 y /\ B = Infinity)))).
Proof.
  intros e P Q A B c W HP HQ.
  assert (Hn : byte_size (modulus (WCurve.c_f e)) (size_bytes (WCurve.c_f e))).
  { destruct W as (Hp & _). destruct (WCurve.c_f e) as [p]. apply WeierProps.size_of, Hp. }
  destruct (w_shown e P A c _ W HP Hn) as (b1 & E1 & S1). destruct (w_shown e Q B c _ W HQ Hn) as (b2 & E2 & S2).
  split; [eauto|]. rewrite E1, E2. destruct (WeierProps.c32_equality e P Q A B W HP HQ) as (t & -> & Ht).
  assert (R : Ret b1 = Ret b2 <-> b1 = b2) by (split; congruence). rewrite R, (sec1_same _ _ _ _ _ _ _ _ S1 S2). clear R S1 S2 E1 E2.
  assert (T : Ret t = Ret true <-> A = B) by (rewrite <- Ht; split; congruence). rewrite T. clear T Ht.
  pose proof W as W0. destruct W0 as (Hp & Hp2 & Va & Vb & NR).
  assert (B0 : val (WCurve.c_b e) <> 0). { intro Z0. apply (NR 0). rewrite Z0. exists 0. ring. }
  assert (NZ : forall D, WPoints.won e D -> shown D = (0, 0) -> D = Infinity).
  { intros [|x y] O S; [reflexivity|]. cbn in S. injection S as -> ->. exfalso. destruct O as (_ & _ & [q Hq]).
    apply (NR 0). exists (- q). lia. }
  assert (OA : WPoints.won e A) by apply HP. assert (OB : WPoints.won e B) by apply HQ.
  destruct A as [|x y], B as [|x' y']; cbn [shown fst snd].
  - split; [auto|]. intros _. split; [reflexivity|destruct c; reflexivity].
  - split.
    + intros (<- & H). right. destruct c; [|subst; pose proof (NZ _ OB eq_refl) as N; discriminate N]. split; [reflexivity|]. exists y'. split; [symmetry; exact H|]. left; auto.
    + intros [H|(-> & y & Hy & [(_ & H)|(H & _)])]; try discriminate H. injection H as -> ->. rewrite Hy. auto.
  - split.
    + intros (-> & H). right. destruct c; [|subst; pose proof (NZ _ OA eq_refl) as N; discriminate N]. split; [reflexivity|]. exists y. split; [exact H|]. right; auto.
    + intros [H|(-> & z & Hy & [(H & _)|(H & _)])]; try discriminate H. injection H as -> ->. rewrite Hy. auto.
  - split.
    + intros (<- & H). left. f_equal. destruct c; [|exact H]. destruct OA as (_ & Cy & [q Hq]), OB as (_ & Cy' & [q' Hq']).
      apply (same_parity _ _ _ Hp Hp2 Cy Cy'); [|exact H]. exists (q - q'). lia.
    + intros [H|(_ & z & _ & [(H & _)|(_ & H)])]; try discriminate H. injection H as -> ->. split; [reflexivity|destruct c; reflexivity].
Qed.
(** both ends of a key agreement get the same bytes *)
Lemma c57_shared_bytes : forall e oc oc' P A k l c, WPoints.weier e -> Z.log2 (WCurve.c_r e) < 2 ^ 63 -> WPoints.wpoint e P A ->
  valid_scalar (WCurve.c_r e) k -> valid_scalar (WCurve.c_r e) l -> (oc = true \/ oc' = true -> sk k <> 0 /\ sk l <> 0) ->
  exists buf, bind (bind (WCurve.pt_mul oc P k) (fun X => WCurve.pt_mul oc' X l)) (fun X => WCurve.encode X c) = Ret buf
    /\ bind (bind (WCurve.pt_mul oc' P l) (fun X => WCurve.pt_mul oc X k)) (fun X => WCurve.encode X c) = Ret buf.
Proof.
  intros e oc oc' P A k l c W H64 HP Vk Vl N. 
  destruct (ScLawProps.weier_laws e W H64) as (T & on & add & opp & zero & rep & enc & LW).
  pose proof (ScLawProps.c56_agreement e oc oc' P A k l W H64 HP Vk Vl N) as (L & M & EL & EM & E). rewrite EL, EM. cbn [bind].
  assert (Q : forall oc k oc' l L, valid_scalar (WCurve.c_r e) k -> valid_scalar (WCurve.c_r e) l -> (oc = true -> sk k <> 0) -> (oc' = true -> sk l <> 0) ->
    bind (WCurve.pt_mul oc P k) (fun X => WCurve.pt_mul oc' X l) = Ret L -> exists B, WPoints.wpoint e L B).
  { clear - LW HP. intros oc k oc' l L Vk Vl Nk Nl EL. apply (ScLaw.l_point LW) in HP. destruct HP as (A' & _ & RP).
    destruct (ScLaw.l_mul LW oc P _ k RP Vk Nk) as (X & EX & RX). rewrite EX in EL. cbn [bind] in EL.
    destruct (ScLaw.l_mul LW oc' X _ l RX Vl Nl) as (Y & EY & RY). rewrite EY in EL. injection EL as <-.
    eexists. apply (ScLaw.l_point LW). eauto. }
  destruct (Q oc k oc' l L Vk Vl) as (B & HL); [intro; apply N; auto|intro; apply N; auto|exact EL|].
  destruct (Q oc' l oc k M Vl Vk) as (B' & HM); [intro; apply N; auto|intro; apply N; auto|exact EM|].
  destruct (c57_same_bytes e L M B B' c W HL HM) as ((buf & Eb) & H). exists buf. split; [exact Eb|]. rewrite <- Eb. symmetry. apply H. left. exact E.
Qed.

(** *** Montgomery curves *)
Lemma m_shown e P A c n : MPoints.mont e -> MPoints.mpoint e P A -> byte_size (modulus (MCurve.c_f e)) n ->
  exists buf, MCurve.encode P c = Ret buf /\ sec1 n (fst (shown A)) (snd (shown A)) c buf.
Proof.
  intros W HP Hn. destruct A as [|x y]; [|exact (MontProps.c35_encode e P x y c n W HP Hn)].
  destruct (MontProps.mont_open _ W) as (p & Hp & Hp2 & a & b & s & ef & ea & eb & es & b1 & NS & NR & WP & WS & WM & WO & WU).
  apply WP in HP. destruct HP as (A' & E & RP). destruct A' as [|]; [|discriminate E].
  exists (if c then 2 :: repeat 0 (Z.to_nat n) else 4 :: repeat 0 (2 * Z.to_nat n)). split; [|apply sec1_zero; destruct Hn; lia].
  rewrite (MontP.encode_inf p Hp Hp2 a e P c RP).
  assert (En : size_bytes (mkFp p) = n). { rewrite ef in Hn. cbn [modulus] in Hn. symmetry. exact (WeierProps.size_is_nb p n Hp Hn). }
  rewrite En. reflexivity.
Qed.
(** the bytes do not separate the identity from the point (0, 0) of order 2; they separate everything else *)
Lemma c57_mont_same_bytes : forall e P Q A B c, MPoints.mont e -> MPoints.mpoint e P A -> MPoints.mpoint e Q B ->
  (exists buf, MCurve.encode P c = Ret buf)
  /\ (MCurve.encode P c = MCurve.encode Q c <->
      MCurve.pt_eqb P Q = Ret true \/ (A = Infinity /\ B = Affine 0 0) \/ (A = Affine 0 0 /\ B = Infinity)).
Proof.
  intros e P Q A B c W HP HQ.
  assert (Hn : byte_size (modulus (MCurve.c_f e)) (size_bytes (MCurve.c_f e))).
  { destruct W as (Hp & _). destruct (MCurve.c_f e) as [p]. apply WeierProps.size_of, Hp. }
  destruct (m_shown e P A c _ W HP Hn) as (b1 & E1 & S1). destruct (m_shown e Q B c _ W HQ Hn) as (b2 & E2 & S2).
  split; [eauto|]. rewrite E1, E2. destruct (MontProps.c32_mont_equality e P Q A B W HP HQ) as (t & -> & Ht).
  assert (R : Ret b1 = Ret b2 <-> b1 = b2) by (split; congruence). rewrite R, (sec1_same _ _ _ _ _ _ _ _ S1 S2). clear R S1 S2 E1 E2.
  assert (T : Ret t = Ret true <-> A = B) by (rewrite <- Ht; split; congruence). rewrite T. clear T Ht.
  pose proof W as W0. destruct W0 as (Hp & Hp2 & _ & _ & _ & B1 & _).
  assert (OA : MPoints.mon e A) by apply HP. assert (OB : MPoints.mon e B) by apply HQ.
  assert (Y : forall x y y', MPoints.mon e (Affine x y) -> MPoints.mon e (Affine x y') -> (if c then Z.even y = Z.even y' else y = y') -> y = y').
  { intros x y y' (_ & Cy & [q Hq]) (_ & Cy' & [q' Hq']) H. destruct c; [|exact H]. rewrite B1 in *.
    apply (same_parity _ _ _ Hp Hp2 Cy Cy'); [|exact H]. exists (q - q'). lia. }
  assert (O0 : MPoints.mon e (Affine 0 0)).
  { split; [unfold coord; lia|]. split; [unfold coord; lia|]. exists 0. ring. }
  destruct A as [|x y], B as [|x' y']; cbn [shown fst snd].
  - split; [auto|]. intros _. split; [reflexivity|destruct c; reflexivity].
  - split.
    + intros (<- & H). right. left. split; [reflexivity|]. f_equal. symmetry. apply (Y 0 0 y' O0 OB H).
    + intros [H|[(_ & H)|(H & _)]]; try discriminate H. injection H as -> ->. split; [reflexivity|destruct c; reflexivity].
  - split.
    + intros (-> & H). right. right. split; [|reflexivity]. f_equal. apply (Y 0 y 0 OA O0 H).
    + intros [H|[(H & _)|(H & _)]]; try discriminate H. injection H as -> ->. split; [reflexivity|destruct c; reflexivity].
  - split.
    + intros (<- & H). left. f_equal. apply (Y x y y' OA OB H).
    + intros [H|[(H & _)|(_ & H)]]; try discriminate H. injection H as -> ->. split; [reflexivity|destruct c; reflexivity].
Qed.
Lemma c57_mont_shared_bytes : forall e oc oc' P A k l c, MPoints.mont e -> Z.log2 (MCurve.c_r e) < 2 ^ 63 -> MPoints.mpoint e P A ->
  valid_scalar (MCurve.c_r e) k -> valid_scalar (MCurve.c_r e) l -> (oc = true \/ oc' = true -> sk k <> 0 /\ sk l <> 0) ->
  exists buf, bind (bind (MCurve.pt_mul oc P k) (fun X => MCurve.pt_mul oc' X l)) (fun X => MCurve.encode X c) = Ret buf
    /\ bind (bind (MCurve.pt_mul oc' P l) (fun X => MCurve.pt_mul oc X k)) (fun X => MCurve.encode X c) = Ret buf.
Proof.
  intros e oc oc' P A k l c W H64 HP Vk Vl N. 
  destruct (ScLawProps.mont_laws e W H64) as (T & on & add & opp & zero & rep & enc & LW).
  pose proof (ScLawProps.c56_mont_agreement e oc oc' P A k l W H64 HP Vk Vl N) as (L & M & EL & EM & E). rewrite EL, EM. cbn [bind].
  assert (Q : forall oc k oc' l L, valid_scalar (MCurve.c_r e) k -> valid_scalar (MCurve.c_r e) l -> (oc = true -> sk k <> 0) -> (oc' = true -> sk l <> 0) ->
    bind (MCurve.pt_mul oc P k) (fun X => MCurve.pt_mul oc' X l) = Ret L -> exists B, MPoints.mpoint e L B).
  { clear - LW HP. intros oc k oc' l L Vk Vl Nk Nl EL. apply (ScLaw.l_point LW) in HP. destruct HP as (A' & _ & RP).
    destruct (ScLaw.l_mul LW oc P _ k RP Vk Nk) as (X & EX & RX). rewrite EX in EL. cbn [bind] in EL.
    destruct (ScLaw.l_mul LW oc' X _ l RX Vl Nl) as (Y & EY & RY). rewrite EY in EL. injection EL as <-.
    eexists. apply (ScLaw.l_point LW). eauto. }
  destruct (Q oc k oc' l L Vk Vl) as (B & HL); [intro; apply N; auto|intro; apply N; auto|exact EL|].
  destruct (Q oc' l oc k M Vl Vk) as (B' & HM); [intro; apply N; auto|intro; apply N; auto|exact EM|].
  destruct (c57_mont_same_bytes e L M B B' c W HL HM) as ((buf & Eb) & H). exists buf. split; [exact Eb|]. rewrite <- Eb. symmetry. apply H. left. exact E.
Qed.

(** *** Edwards curves *)
(** the bytes separate all points, in every combination of the (ignored) flags *)
Lemma c57_edw_same_bytes : forall e P Q A B c c', EPoints.edw e -> EPoints.epoint e P A -> EPoints.epoint e Q B ->
  (exists buf, ECurve.encode P c = Ret buf) /\ (ECurve.encode P c = ECurve.encode Q c' <-> ECurve.pt_eqb P Q = Ret true).
Proof.
  intros e P Q [x y] [x' y'] c c' W HP HQ.
  assert (Hn : ed_size (modulus (ECurve.c_f e)) ((Z.log2 (modulus (ECurve.c_f e)) + 1) / 8 + 1)) by (apply EdwProps.c39_size; [apply W|reflexivity]).
  destruct (EdwProps.c39_encode e P x y c _ W HP Hn) as (u & Eu & (Lu & Bu & Vu)).
  destruct (EdwProps.c39_encode e Q x' y' c' _ W HQ Hn) as (v & Ev & (Lv & Bv & Vv)).
  split; [eauto|]. destruct (EdwProps.c32_edw_equality e P Q _ _ W HP HQ) as (t & -> & Ht).
  assert (T : Ret t = Ret true <-> (x, y) = (x', y')) by (rewrite <- Ht; split; congruence). rewrite T. clear T Ht. split.
  - intro E. rewrite Ev in E. exact (EdwProps.c39_encode_injective e P Q _ _ c c' v W HP HQ E Ev).
  - intro E. injection E as <- <-. rewrite Eu, Ev. f_equal. apply EdwP.le_value_inj; [assumption|assumption|lia|congruence].
Qed.
Lemma c57_edw_shared_bytes : forall e oc oc' P A k l c c', EPoints.edw e -> Z.log2 (ECurve.c_r e) < 2 ^ 63 -> EPoints.epoint e P A ->
  valid_scalar (ECurve.c_r e) k -> valid_scalar (ECurve.c_r e) l -> (oc = true \/ oc' = true -> sk k <> 0 /\ sk l <> 0) ->
  exists buf, bind (bind (ECurve.pt_mul oc P k) (fun X => ECurve.pt_mul oc' X l)) (fun X => ECurve.encode X c) = Ret buf
    /\ bind (bind (ECurve.pt_mul oc' P l) (fun X => ECurve.pt_mul oc X k)) (fun X => ECurve.encode X c') = Ret buf.
Proof.
  intros e oc oc' P A k l c c' W H64 HP Vk Vl N.
  destruct (ScLawProps.edw_laws e W H64) as (T & on & add & opp & zero & rep & enc & LW).
  pose proof (ScLawProps.c56_edw_agreement e oc oc' P A k l W H64 HP Vk Vl N) as (L & M & EL & EM & E). rewrite EL, EM. cbn [bind].
  assert (Q : forall oc k oc' l L, valid_scalar (ECurve.c_r e) k -> valid_scalar (ECurve.c_r e) l -> (oc = true -> sk k <> 0) -> (oc' = true -> sk l <> 0) ->
    bind (ECurve.pt_mul oc P k) (fun X => ECurve.pt_mul oc' X l) = Ret L -> exists B, EPoints.epoint e L B).
  { clear - LW HP. intros oc k oc' l L Vk Vl Nk Nl EL. apply (ScLaw.l_point LW) in HP. destruct HP as (A' & _ & RP).
    destruct (ScLaw.l_mul LW oc P _ k RP Vk Nk) as (X & EX & RX). rewrite EX in EL. cbn [bind] in EL.
    destruct (ScLaw.l_mul LW oc' X _ l RX Vl Nl) as (Y & EY & RY). rewrite EY in EL. injection EL as <-.
    eexists. apply (ScLaw.l_point LW). eauto. }
  destruct (Q oc k oc' l L Vk Vl) as (B & HL); [intro; apply N; auto|intro; apply N; auto|exact EL|].
  destruct (Q oc' l oc k M Vl Vk) as (B' & HM); [intro; apply N; auto|intro; apply N; auto|exact EM|].
  destruct (c57_edw_same_bytes e L M B B' c c' W HL HM) as ((buf & Eb) & H). exists buf. split; [exact Eb|]. rewrite <- Eb. symmetry. apply H. exact E.
Qed.

(** *** shipped curves on which the compressed bytes of the identity are those of another point *)
Lemma collides_of X p a b r h gx gy y : w_shipped X (mkW p a b r h gx gy) -> Z.even y && (0 <=? y) && (y <? p) && ((y * y - b) mod p =? 0) = true -> collides X.
Proof.
  intros (e & HX & Ep & Ea & Eb & _ & _ & Hp & _ & HG & _) C. cbn [w_p w_a w_b] in *. rewrite !andb_true_iff in C. destruct C as (((C1 & C2) & C3) & C4).
  apply Z.leb_le in C2. apply Z.ltb_lt in C3. apply Z.eqb_eq in C4. pose proof (prime_ge_2 _ Hp) as H2. pose proof (proj1 HG) as W.
  set (Q := WCurve.mkPoint e (WCurve.mkProy (mkFpElt 0 (mkFp p)) (mkFpElt y (mkFp p)) (mkFpElt 1 (mkFp p)))).
  assert (HQ : WPoints.wpoint e Q (Affine 0 y)).
  { unfold WPoints.wpoint. rewrite Ep. cbn [Q WCurve.pe WCurve.pc WCurve.px WCurve.py WCurve.pz val]. split; [reflexivity|].
    do 3 (split; [split; [reflexivity|cbn [val]; lia]|]). split.
    - split; [lia|]. split; [exists 0; ring|exists 0; ring].
    - split; [unfold coord; lia|]. split; [unfold coord; lia|]. rewrite Eb. apply Zmod_divide; [lia|].
      replace (1 * (y * y) - (0 * 0 * 0 + 0 * (0 * 0) + val (WCurve.c_a e) * 0 + b mod p)) with (y * y - b mod p) by ring.
      rewrite Zminus_mod, Zmod_mod, <- Zminus_mod. exact C4. }
  destruct (WeierProps.c27_is_zero e Q _ W HQ) as (I & EI & HI & _). exists e, I, Q, y.
  split; [exact HX|]. split; [exact EI|]. split; [exact HQ|]. split.
  - apply (c57_same_bytes e I Q Infinity (Affine 0 y) true W HI HQ). right. split; [reflexivity|]. exists y. auto.
  - destruct (WeierProps.c32_equality e I Q _ _ W HI HQ) as (t & -> & Ht). destruct t; [|reflexivity]. discriminate (proj1 Ht eq_refl).
Qed.
Lemma c57_identity_has_its_own_bytes_refuted : collides P256 /\ collides P384 /\ collides P521 /\ collides BLS12381G1.
Proof.
  split; [|split; [|split]].
  - eapply (collides_of _ _ _ _ _ _ _ _ 0x66485c780e2f83d72433bd5d84a06bb6541c2af31dae871728bf856a174f93f4 InstProps.c48_P256). vm_compute. reflexivity.
  - eapply (collides_of _ _ _ _ _ _ _ _ 0x3cf99ef04f51a5ea630ba3f9f960dd593a14c9be39fd2bd215d3b4b08aaaf86bbf927f2c46e52ab06fb742b8850e521e InstProps.c48_P384). vm_compute. reflexivity.
  - eapply (collides_of _ _ _ _ _ _ _ _ 0x12df13601594a883ef2d935e44bb90bf4d6619b74e52af7552f97769011c0719eb439cfab2a88d40fe59a2bed1f43557169a2d0a2ccd280c607b92bbf51ffe0b078 InstProps.c48_P521). vm_compute. reflexivity.
  - eapply (collides_of _ _ _ _ _ _ _ _ 2 InstProps.c48_BLS12381G1). vm_compute. reflexivity.
Qed.
Example c57_ex : WPoints.weier WeierProps.E7 /\ WPoints.wpoint WeierProps.E7 (WeierProps.pt7 1 1 1) (Affine 1 1)
  /\ WCurve.encode (WeierProps.pt7 1 1 1) true = Ret [3; 1] /\ WCurve.encode (WeierProps.pt7 5 5 5) true = Ret [3; 1] /\ WCurve.encode (WeierProps.pt7 1 6 1) true = Ret [2; 1]
  /\ bind (bind (WCurve.pt_mul true (WeierProps.pt7 1 1 1) (mkScalar 7 11)) (fun X => WCurve.pt_mul true X (mkScalar 4 11))) (fun X => WCurve.encode X true) = Ret [2; 3]
  /\ bind (bind (WCurve.pt_mul true (WeierProps.pt7 1 1 1) (mkScalar 4 11)) (fun X => WCurve.pt_mul true X (mkScalar 7 11))) (fun X => WCurve.encode X true) = Ret [2; 3].
Proof. split; [exact WeierProps.weier7|]. split; [exact WeierProps.gen7|]. vm_compute. auto. Qed.
Example c57_mont_ex : MPoints.mont MontProps.E19 /\ MPoints.mpoint MontProps.E19 (MontProps.pt19 0 3 0) Infinity /\ MPoints.mpoint MontProps.E19 (MontProps.pt19 0 0 3) (Affine 0 0)
  /\ MCurve.encode (MontProps.pt19 0 3 0) true = Ret [2; 0] /\ MCurve.encode (MontProps.pt19 0 0 3) true = Ret [2; 0]
  /\ MCurve.encode (MontProps.pt19 12 2 2) false = Ret [4; 6; 1] /\ MCurve.encode (MontProps.pt19 6 1 1) false = Ret [4; 6; 1].
Proof. split; [exact MontProps.mont19|]. split; [exact MontProps.inf19|]. split; [exact MontProps.two19|]. vm_compute. auto. Qed.
Example c57_edw_ex : EPoints.edw EdwProps.E29 /\ EPoints.epoint EdwProps.E29 (EdwProps.pt29 6 10 1 2) (3, 5) /\ sqrt_modulus 29
  /\ ECurve.encode (EdwProps.pt29 6 10 1 2) true = Ret [133] /\ ECurve.encode (EdwProps.pt29 3 5 15 1) false = Ret [133] /\ ECurve.encode (EdwProps.pt29 23 10 28 2) false = Ret [5].
Proof. split; [exact EdwProps.edw29|]. split; [exact EdwProps.other29|]. split; [right; reflexivity|]. vm_compute. auto. Qed.
