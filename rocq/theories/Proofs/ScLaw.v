(** Laws of scalar multiplication, once for all three kinds of curves: [rep P A] says that the model's point P
    stands for the element A of an abelian group. *)
From Coq Require Import ZArith Znumtheory Lia Bool List.
From Verif.Math Require Import FinGroup.
From Verif.Spec Require Import Arith Curve.
From Verif.Model Require Import Out BigInt PrimeField Scalar.
From Verif.Proofs Require Import ScalarProps.
Import ListNotations.
Open Scope Z_scope.

Section Law.
  Context {T : Type} (on : T -> Prop) (add : T -> T -> T) (opp : T -> T) (zero : T).
  Hypothesis HG : group on add opp zero.
  Context {MP : Type} (rep : MP -> T -> Prop) (r : Z).
  Variables (mmul : bool -> MP -> Scalar -> out MP) (madd msub : MP -> MP -> out MP) (mneg : MP -> out MP) (meqb : MP -> MP -> out bool).
  Let same (x y : out MP) : Prop := exists L M, x = Ret L /\ y = Ret M /\ meqb L M = Ret true.
  Local Notation mul := (FinGroup.mul add zero).
  Local Notation zmul := (FinGroup.zmul add opp zero).
  Hypothesis Hon : forall P A, rep P A -> on A.
  Hypothesis Hadd : forall P Q A B, rep P A -> rep Q B -> exists R, madd P Q = Ret R /\ rep R (add A B).
  Hypothesis Hsub : forall P Q A B, rep P A -> rep Q B -> exists R, msub P Q = Ret R /\ rep R (add A (opp B)).
  Hypothesis Hneg : forall P A, rep P A -> exists R, mneg P = Ret R /\ rep R (opp A).
  Hypothesis Hmul : forall oc P A k, rep P A -> valid_scalar r k -> (oc = true -> sk k <> 0) ->
    exists R, mmul oc P k = Ret R /\ rep R (mul (Z.to_nat (sk k)) A).
  Hypothesis Heqb : forall P Q A B, rep P A -> rep Q B -> exists t, meqb P Q = Ret t /\ (t = true <-> A = B).

  Lemma law_same L M A B : rep L A -> rep M B -> A = B -> same (Ret L) (Ret M).
  Proof.
    intros HL HM E. exists L, M. split; [reflexivity|]. split; [reflexivity|].
    destruct (Heqb _ _ _ _ HL HM) as (t & -> & Ht). f_equal. apply Ht, E.
  Qed.
  Lemma law_mul oc P A k : rep P A -> valid_scalar r k -> (oc = true -> sk k <> 0) ->
    exists R, mmul oc P k = Ret R /\ rep R (zmul (sk k) A).
  Proof.
    intros HP V H. destruct (Hmul oc P A k HP V H) as (R & E & HR). exists R. split; [exact E|].
    rewrite <- (Z2Nat.id (sk k)) by (destruct V; lia). rewrite FinGroup.zmul_nat. exact HR.
  Qed.
  Ltac go := cbn [bind].
  Ltac don := match goal with H : rep ?P ?A |- on ?A => exact (Hon _ _ H) end.
  (** l (k P) == k (l P) *)
  Lemma law_agree oc oc' P A k l : rep P A -> valid_scalar r k -> valid_scalar r l ->
    (oc = true \/ oc' = true -> sk k <> 0 /\ sk l <> 0) ->
    same (bind (mmul oc P k) (fun X => mmul oc' X l)) (bind (mmul oc' P l) (fun X => mmul oc X k)).
  Proof.
    intros HP Vk Vl N.
    destruct (law_mul oc P A k HP Vk) as (X & -> & HX); [intro; apply N; auto|].
    destruct (law_mul oc' P A l HP Vl) as (Y & -> & HY); [intro; apply N; auto|]. go.
    destruct (law_mul oc' X _ l HX Vl) as (L & -> & HL); [intro; apply N; auto|].
    destruct (law_mul oc Y _ k HY Vk) as (M & -> & HM); [intro; apply N; auto|].
    apply (law_same L M _ _ HL HM). apply (zmul_comm _ _ _ _ HG). don.
  Qed.
  (** k (P + Q) == k P + k Q, k (P - Q) == k P - k Q, k (-P) == -(k P) *)
  Lemma law_distr oc oc' P Q A B k : rep P A -> rep Q B -> valid_scalar r k -> (oc = true \/ oc' = true -> sk k <> 0) ->
    same (bind (madd P Q) (fun X => mmul oc X k)) (bind (mmul oc' P k) (fun X => bind (mmul oc' Q k) (fun Y => madd X Y)))
    /\ same (bind (msub P Q) (fun X => mmul oc X k)) (bind (mmul oc' P k) (fun X => bind (mmul oc' Q k) (fun Y => msub X Y)))
    /\ same (bind (mneg P) (fun X => mmul oc X k)) (bind (mmul oc' P k) mneg).
  Proof.
    intros HP HQ V N. assert (N1 : oc = true -> sk k <> 0) by (intro; apply N; auto). assert (N2 : oc' = true -> sk k <> 0) by (intro; apply N; auto).
    destruct (Hadd _ _ _ _ HP HQ) as (S & -> & HS). destruct (Hsub _ _ _ _ HP HQ) as (D & -> & HD). destruct (Hneg _ _ HP) as (O & -> & HO).
    destruct (law_mul oc' P A k HP V N2) as (X & -> & HX). destruct (law_mul oc' Q B k HQ V N2) as (Y & -> & HY). go.
    destruct (law_mul oc S _ k HS V N1) as (S' & -> & HS'). destruct (law_mul oc D _ k HD V N1) as (D' & -> & HD').
    destruct (law_mul oc O _ k HO V N1) as (O' & -> & HO').
    destruct (Hadd _ _ _ _ HX HY) as (S2 & -> & HS2). destruct (Hsub _ _ _ _ HX HY) as (D2 & -> & HD2). destruct (Hneg _ _ HX) as (O2 & -> & HO2).
    assert (OA : on A) by don. assert (OB : on B) by don. split; [|split].
    - apply (law_same _ _ _ _ HS' HS2). apply (zmul_plus _ _ _ _ HG); assumption.
    - apply (law_same _ _ _ _ HD' HD2). rewrite (zmul_plus _ _ _ _ HG), (zmul_neg _ _ _ _ HG); [reflexivity|assumption..|apply (g_opp _ _ _ _ HG), OB].
    - apply (law_same _ _ _ _ HO' HO2). apply (zmul_neg _ _ _ _ HG), OA.
  Qed.
  (** equal points have equal multiples, with either overflow behaviour *)
  Lemma law_congr oc oc' P Q A B k : rep P A -> rep Q B -> valid_scalar r k -> (oc = true \/ oc' = true -> sk k <> 0) ->
    meqb P Q = Ret true -> same (mmul oc P k) (mmul oc' Q k).
  Proof.
    intros HP HQ V N E. destruct (Heqb _ _ _ _ HP HQ) as (t & E' & Ht). rewrite E' in E. injection E as ->. assert (AB : A = B) by (apply Ht; reflexivity).
    destruct (law_mul oc P A k HP V) as (X & -> & HX); [intro; apply N; auto|].
    destruct (law_mul oc' Q B k HQ V) as (Y & -> & HY); [intro; apply N; auto|].
    apply (law_same _ _ _ _ HX HY). rewrite AB. reflexivity.
  Qed.
  (** scalars that do not wrap around act on every point *)
  Lemma small_res x c : 0 <= x < r -> residue r x c -> c = x.
  Proof. intros Hx (Hc & [q Hq]). assert (-1 < q < 1) by (split; nia). assert (q = 0) by lia. subst q. lia. Qed.
  Lemma law_small oc P A k l : rep P A -> valid_scalar r k -> valid_scalar r l -> (oc = true -> sk k <> 0 /\ sk l <> 0) ->
    (sk k + sk l < r -> same (bind (mmul oc P k) (fun X => bind (mmul oc P l) (fun Y => madd X Y))) (bind (sc_add k l) (fun m => mmul oc P m)))
    /\ (sk k * sk l < r -> same (bind (mmul oc P k) (fun X => mmul oc X l)) (bind (sc_mul k l) (fun m => mmul oc P m))).
  Proof.
    intros HP Vk Vl N. assert (Hr : 0 < r) by (destruct Vk; lia). assert (OA : on A) by don.
    destruct (c20_scalar_ring r k l Hr (proj1 Vk) (proj1 Vl)) as ((c1 & E1 & S1 & R1) & _ & (c3 & E3 & S3 & R3) & _).
    destruct (law_mul oc P A k HP Vk) as (X & -> & HX); [intro H; apply N, H|]. go.
    destruct (law_mul oc P A l HP Vl) as (Y & -> & HY); [intro H; apply N, H|]. go.
    destruct (law_mul oc X _ l HX Vl) as (Z & -> & HZ); [intro H; apply N, H|].
    rewrite E1, E3. go. split; intro B.
    - assert (B0 : 0 <= sk k + sk l) by (destruct Vk, Vl; lia). pose proof (small_res _ _ (conj B0 B) R1) as C.
      destruct (law_mul oc P A c1 HP (conj S1 (proj1 R1))) as (M & -> & HM).
      { intro H. destruct (N H). destruct Vk, Vl. lia. }
      destruct (Hadd _ _ _ _ HX HY) as (L & -> & HL). apply (law_same _ _ _ _ HL HM). rewrite C. symmetry. apply (zmul_add _ _ _ _ HG), OA.
    - assert (B0 : 0 <= sk k * sk l) by (destruct Vk, Vl; nia). pose proof (small_res _ _ (conj B0 B) R3) as C.
      destruct (law_mul oc P A c3 HP (conj S3 (proj1 R3))) as (M & -> & HM).
      { intro H. destruct (N H). destruct Vk, Vl. nia. }
      apply (law_same _ _ _ _ HZ HM). rewrite C. rewrite Z.mul_comm. symmetry. apply (zmul_mul _ _ _ _ HG), OA.
  Qed.
  (** on points killed by r: differences, opposites and inverses of scalars *)
  Lemma kill_res A x c : on A -> zmul r A = zero -> residue r x c -> zmul c A = zmul x A.
  Proof.
    intros OA K (_ & [q Hq]). replace x with (c + q * r) by lia.
    rewrite (zmul_add _ _ _ _ HG), (zmul_mul _ _ _ _ HG) by exact OA.  rewrite K. rewrite (zmul_zero _ _ _ _ HG).
    symmetry. apply (g_id _ _ _ _ HG), (on_zmul _ _ _ _ HG), OA.
  Qed.
  Lemma law_killed P A k l : rep P A -> mul (Z.to_nat r) A = zero -> valid_scalar r k -> valid_scalar r l ->
    same (bind (mmul false P k) (fun X => bind (mmul false P l) (fun Y => msub X Y))) (bind (sc_sub k l) (fun m => mmul false P m))
    /\ same (bind (mmul false P k) mneg) (bind (sc_neg k) (fun m => mmul false P m))
    /\ (prime r -> sk k <> 0 -> same (bind (sc_u32_div 1 k) (fun i => bind (mmul false P k) (fun X => mmul false X i))) (Ret P)
        /\ same (bind (sc_div l k) (fun q => bind (mmul false P k) (fun X => mmul false X q))) (mmul false P l)).
  Proof.
    intros HP K0 Vk Vl. assert (Hr : 0 < r) by (destruct Vk; lia). assert (OA : on A) by don.
    assert (K : zmul r A = zero). { rewrite <- (Z2Nat.id r) by lia. rewrite FinGroup.zmul_nat. exact K0. }
    destruct (c20_scalar_ring r k l Hr (proj1 Vk) (proj1 Vl)) as (_ & (c2 & E2 & S2 & R2) & _ & (c4 & E4 & S4 & R4)).
    destruct (law_mul false P A k HP Vk) as (X & -> & HX); [discriminate|]. go.
    destruct (law_mul false P A l HP Vl) as (Y & -> & HY); [discriminate|]. go. rewrite E2, E4. go.
    destruct (law_mul false P A c2 HP (conj S2 (proj1 R2))) as (M & -> & HM); [discriminate|].
    destruct (law_mul false P A c4 HP (conj S4 (proj1 R4))) as (M' & -> & HM'); [discriminate|].
    destruct (Hsub _ _ _ _ HX HY) as (L & -> & HL). destruct (Hneg _ _ HX) as (L' & -> & HL').
    split; [|split].
    - apply (law_same _ _ _ _ HL HM). rewrite (kill_res _ _ _ OA K R2). rewrite <- (zmul_opp _ _ _ _ HG) by exact OA.
      symmetry. apply (zmul_add _ _ _ _ HG), OA.
    - apply (law_same _ _ _ _ HL' HM'). rewrite (kill_res _ _ _ OA K R4). symmetry. apply (zmul_opp _ _ _ _ HG), OA.
    - intros Pr N. destruct (c20_scalar_division r l k Pr Vl Vk N) as (q & i & Eq & Vq & Mq & Ei & Vi & Di). rewrite Eq, Ei. go.
      destruct (law_mul false X _ i HX Vi) as (U & -> & HU); [discriminate|].
      destruct (law_mul false X _ q HX Vq) as (V & -> & HV); [discriminate|]. split.
      + apply (law_same _ _ _ _ HU HP). rewrite <- (zmul_mul _ _ _ _ HG) by exact OA. 
        destruct Di as [c Hc]. replace (sk i * sk k) with (1 + c * r) by lia. rewrite (zmul_add _ _ _ _ HG), (zmul_mul _ _ _ _ HG) by exact OA.
         rewrite K. rewrite (zmul_zero _ _ _ _ HG), (zmul_1 _ _ _ _ HG) by exact OA. apply (g_id _ _ _ _ HG), OA.
      + apply (law_same _ _ _ _ HV HY). rewrite <- (zmul_mul _ _ _ _ HG) by exact OA. 
        destruct (c20_scalar_ring r q k Hr (proj1 Vq) (proj1 Vk)) as (_ & _ & (c & Ec & _ & Rc) & _). rewrite Mq in Ec. injection Ec as <-.
        symmetry. apply (kill_res _ _ _ OA K Rc).
  Qed.
End Law.

(** the hypotheses of the section, and how the specification sees the group *)
Record laws {MP S : Type} (point : MP -> S -> Prop) (ssum : S -> S -> S -> Prop) (szero : S) (r : Z)
  (mmul : bool -> MP -> Scalar -> out MP) (madd msub : MP -> MP -> out MP) (mneg : MP -> out MP) (meqb : MP -> MP -> out bool)
  {T : Type} (on : T -> Prop) (add : T -> T -> T) (opp : T -> T) (zero : T) (rep : MP -> T -> Prop) (enc : T -> S) : Prop := mkLaws {
  l_grp : group on add opp zero;
  l_on : forall P A, rep P A -> on A;
  l_add : forall P Q A B, rep P A -> rep Q B -> exists R, madd P Q = Ret R /\ rep R (add A B);
  l_sub : forall P Q A B, rep P A -> rep Q B -> exists R, msub P Q = Ret R /\ rep R (add A (opp B));
  l_neg : forall P A, rep P A -> exists R, mneg P = Ret R /\ rep R (opp A);
  l_mul : forall oc P A k, rep P A -> valid_scalar r k -> (oc = true -> sk k <> 0) ->
    exists R, mmul oc P k = Ret R /\ rep R (FinGroup.mul add zero (Z.to_nat (sk k)) A);
  l_eqb : forall P Q A B, rep P A -> rep Q B -> exists t, meqb P Q = Ret t /\ (t = true <-> A = B);
  l_point : forall P A, point P A <-> exists A', A = enc A' /\ rep P A';
  l_mult : forall A n C, on A -> (multiple ssum szero (enc A) n C <-> C = enc (FinGroup.mul add zero n A));
  l_inj : forall A B, enc A = enc B -> A = B;
  l_zero : enc zero = szero }.
Arguments l_grp {MP S point ssum szero r mmul madd msub mneg meqb T on add opp zero rep enc} _.
Arguments l_on {MP S point ssum szero r mmul madd msub mneg meqb T on add opp zero rep enc} _.
Arguments l_add {MP S point ssum szero r mmul madd msub mneg meqb T on add opp zero rep enc} _.
Arguments l_sub {MP S point ssum szero r mmul madd msub mneg meqb T on add opp zero rep enc} _.
Arguments l_neg {MP S point ssum szero r mmul madd msub mneg meqb T on add opp zero rep enc} _.
Arguments l_mul {MP S point ssum szero r mmul madd msub mneg meqb T on add opp zero rep enc} _.
Arguments l_eqb {MP S point ssum szero r mmul madd msub mneg meqb T on add opp zero rep enc} _.
Arguments l_point {MP S point ssum szero r mmul madd msub mneg meqb T on add opp zero rep enc} _.
Arguments l_mult {MP S point ssum szero r mmul madd msub mneg meqb T on add opp zero rep enc} _.
Arguments l_inj {MP S point ssum szero r mmul madd msub mneg meqb T on add opp zero rep enc} _.
Arguments l_zero {MP S point ssum szero r mmul madd msub mneg meqb T on add opp zero rep enc} _.
