(** Proofs for C77: multiplying by the cofactor, in any group in which the operations of a curve compute. *)
From Coq Require Import ZArith Znumtheory Lia Bool List.
From Verif.Math Require Import FinGroup.
From Verif.Spec Require Import Arith Curve Order Elements Clearing.
From Verif.Model Require Import Out BigInt PrimeField Scalar.
From Verif.Proofs Require Import ScalarProps ScLaw Subgroup Protocols CountP.
Import ListNotations.
Open Scope Z_scope.

Section Clear.
  Context {MP S T : Type} {point : MP -> S -> Prop} {ssum : S -> S -> S -> Prop} {szero : S} {r : Z}
    {mmul : bool -> MP -> Scalar -> out MP} {madd msub : MP -> MP -> out MP} {mneg : MP -> out MP} {meqb : MP -> MP -> out bool}
    {on : T -> Prop} {add : T -> T -> T} {opp : T -> T} {zero : T} {rep : MP -> T -> Prop} {enc : T -> S}.
  Hypothesis LW : laws point ssum szero r mmul madd msub mneg meqb on add opp zero rep enc.
  Local Notation zmul := (FinGroup.zmul add opp zero).
  Let HG := l_grp LW.
  Variables (MG : MP) (G : T).
  Hypothesis Grep : rep MG G.
  Hypothesis Pr : prime r.
  Hypothesis ordG : forall n, multiple ssum szero (enc G) n szero <-> (r | Z.of_nat n).
  Variable dec : forall A B : S, {A = B} + {A <> B}.
  Variable son : S -> Prop.
  Hypothesis Hson : forall A, son A <-> exists P, point P A.
  Variable n : Z.
  Hypothesis Cn : counted son n.
  Variable h : Z.
  Hypothesis h0 : 0 < h < r.
  Hypothesis hr : Z.gcd h r = 1.
  Hypothesis Hc : clears son ssum szero (enc G) h r.
  Let OG : on G := l_on LW _ _ Grep.
  Let r1 : 1 < r := ltac:(destruct Pr; lia).
  Let rG : multiple ssum szero (enc G) (Z.to_nat r) szero.
  Proof. apply ordG. rewrite Z2Nat.id by lia. exists 1. lia. Qed.
  Let smul := law_mul add opp zero rep r mmul (l_mul LW).

  (** a representable element of the group *)
  Definition real (A : T) : Prop := exists P, rep P A.
  Lemma real_on A : real A -> on A.
  Proof. intros (P & H). exact (l_on LW _ _ H). Qed.
  Lemma real_son A : real A <-> son (enc A).
  Proof.
    rewrite Hson. split; intros (P & H); exists P.
    - apply (l_point LW). exists A. split; [reflexivity|exact H].
    - apply (l_point LW) in H. destruct H as (A' & E & H). apply (l_inj LW) in E. subst A'. exact H.
  Qed.
  Lemma real_add A B : real A -> real B -> real (add A B).
  Proof. intros (P & HP) (Q & HQ). destruct (l_add LW _ _ _ _ HP HQ) as (R & _ & H). exists R. exact H. Qed.
  Lemma real_opp A : real A -> real (opp A).
  Proof. intros (P & HP). destruct (l_neg LW _ _ HP) as (R & _ & H). exists R. exact H. Qed.
  Lemma zG_mod z : zmul z G = zmul (z mod r) G.
  Proof. apply (zG_eq LW MG G Grep Pr ordG). exists (z / r). rewrite (Z.div_mod z r) at 1 by lia. lia. Qed.
  Lemma real_zG z : real (zmul z G).
  Proof.
    rewrite zG_mod. destruct (smul false MG G (mkScalar (z mod r) r) Grep) as (R & _ & H); [split; cbn [sk sr]; [reflexivity|apply Z.mod_pos_bound; lia]|discriminate|]. exists R. exact H.
  Qed.
  (** the points in the group's own coordinates *)
  Lemma real_counted : counted real n.
  Proof.
    destruct Cn as (L & N & H & E). assert (X : exists M, map enc M = L /\ forall A, In A M -> real A).
    { assert (F : forall A, In A L -> son A) by (intro A; apply H). clear N H E. induction L as [|A L IH]; [exists []; split; [reflexivity|intros A []]|].
      destruct IH as (M & EM & HM); [intros B HB; apply F; right; exact HB|]. destruct (proj1 (Hson A) (F A (or_introl eq_refl))) as (P & HP).
      apply (l_point LW) in HP. destruct HP as (A' & -> & HP). exists (A' :: M). split; [cbn; rewrite EM; reflexivity|]. intros B [<-|HB]; [exists P; exact HP|exact (HM B HB)]. }
    destruct X as (M & EM & HM). exists M. split; [|split].
    - apply (NoDup_map_inv enc). rewrite EM. exact N.
    - intro A. split; [apply HM|]. intro HA. apply real_son in HA. apply H in HA. rewrite <- EM in HA. apply in_map_iff in HA. destruct HA as (B & EB & HB). apply (l_inj LW) in EB. subst B. exact HB.
    - rewrite <- E, <- EM, map_length. reflexivity.
  Qed.
  Definition fibre (C A : T) : Prop := real A /\ zmul h A = C.
  Lemma fibre_counted C : exists f, counted (fibre C) f.
  Proof.
    destruct real_counted as (M & N & H & _). exists (Z.of_nat (List.length (filter (fun A => if dec (enc (zmul h A)) (enc C) then true else false) M))).
    exists (filter (fun A => if dec (enc (zmul h A)) (enc C) then true else false) M). split; [apply NoDup_filter, N|]. split; [|reflexivity].
    intro A. rewrite filter_In, H. unfold fibre. destruct (dec (enc (zmul h A)) (enc C)) as [E|E].
    - apply (l_inj LW) in E. tauto.
    - split; [intros (_ & F); discriminate F|]. intros (_ & F). destruct E. rewrite F. reflexivity.
  Qed.
  (** translation by D *)
  Lemma fibre_shift C D f g : real D -> counted (fibre C) f -> counted (fibre (add (zmul h D) C)) g -> f <= g.
  Proof.
    intros HD Cf Cg. apply (counted_inj _ _ (add D) f g Cf Cg).
    - intros A (HA & E). split; [exact (real_add _ _ HD HA)|]. rewrite (zmul_plus _ _ _ _ HG) by (apply real_on; assumption). rewrite E. reflexivity.
    - intros A B (HA & _) (HB & _) E. pose proof (real_on _ HA). pose proof (real_on _ HB). pose proof (real_on _ HD).
      rewrite (g_comm _ _ _ _ HG D A), (g_comm _ _ _ _ HG D B) in E by assumption. exact (cancel _ _ _ _ HG A B D ltac:(assumption) ltac:(assumption) ltac:(assumption) E).
  Qed.
  Lemma fibre_same z f g : counted (fibre zero) f -> counted (fibre (zmul z G)) g -> f = g.
  Proof.
    intros Cf Cg. destruct (Z.gcd_bezout h r 1 hr) as (u & v & E). set (D := zmul (z * u) G). assert (HD : real D) by apply real_zG.
    assert (ED : zmul h D = zmul z G).
    { unfold D. rewrite (zG_mul LW MG G Grep). apply (zG_eq LW MG G Grep Pr ordG). exists (- (z * v)). replace (h * (z * u) - z) with (z * (u * h + v * r) - z - z * v * r) by ring. rewrite E. ring. }
    assert (OO : on (zmul z G)) by (apply (on_zmul _ _ _ _ HG), OG).
    assert (L1 : f <= g).
    { apply (fibre_shift zero D f g HD Cf). rewrite ED, (g_id _ _ _ _ HG) by exact OO. exact Cg. }
    assert (L2 : g <= f).
    { apply (fibre_shift (zmul z G) (opp D) g f (real_opp _ HD) Cg). rewrite (zmul_neg _ _ _ _ HG), ED by (apply real_on, HD). rewrite (invl _ _ _ _ HG) by exact OO. exact Cf. }
    lia.
  Qed.
  Lemma lands A : real A -> exists z, zmul h A = zmul z G.
  Proof.
    intro HA. destruct (Hc (enc A) (proj1 (real_son A) HA)) as (C & M & GC). apply (l_mult LW _ _ _ (real_on _ HA)) in M. subst C.
    rewrite <- (FinGroup.zmul_nat add opp zero), Z2Nat.id in GC by lia. apply (gen_iff LW MG G Grep r1 rG) in GC; [exact GC|]. apply (on_zmul _ _ _ _ HG), real_on, HA.
  Qed.
  Lemma fibres : exists f, n = r * f /\ forall z, counted (fibre (zmul z G)) f.
  Proof.
    destruct (fibre_counted zero) as (f & Cf). exists f.
    assert (K : forall z, counted (fibre (zmul z G)) f).
    { intro z. destruct (fibre_counted (zmul z G)) as (g & Cg). rewrite (fibre_same z f g Cf Cg). exact Cg. }
    split; [|exact K]. set (L := map (fun j => zmul (Z.of_nat j) G) (seq 0 (Z.to_nat r))).
    assert (NL : NoDup L).
    { apply nodup_map_in; [|apply seq_NoDup]. intros i j Hi Hj E. apply in_seq in Hi. apply in_seq in Hj. apply (zG_eq LW MG G Grep Pr ordG) in E. destruct E as (q & E).
      assert (-1 < q < 1) by nia. assert (q = 0) by lia. subst q. lia. }
    assert (EL : Z.of_nat (List.length L) = r) by (unfold L; rewrite map_length, seq_length, Z2Nat.id; lia).
    assert (IL : forall z, In (zmul z G) L).
    { intro z. rewrite zG_mod. pose proof (Z.mod_pos_bound z r ltac:(lia)). apply in_map_iff. exists (Z.to_nat (z mod r)). split; [rewrite Z2Nat.id by lia; reflexivity|]. apply in_seq. lia. }
    assert (C : counted (fun A => exists C, In C L /\ fibre C A) (f * Z.of_nat (List.length L))).
    { rewrite <- sum_const. apply count_pairs; [exact NL| |].
      - intros C HC. apply in_map_iff in HC. destruct HC as (j & <- & _). apply K.
      - intros C C' A _ _ (_ & E) (_ & E'). congruence. }
    rewrite EL in C. rewrite Z.mul_comm. apply (counted_unique real n (f * r) real_counted). refine (counted_ext _ _ _ _ C). intro A. split.
    - intros (B & _ & HA & _). exact HA.
    - intro HA. destruct (lands A HA) as (z & E). exists (zmul z G). split; [apply IL|]. split; [exact HA|exact E].
  Qed.
  (** what the code's multiplication by h does *)
  Lemma sent_iff C A : sent_to point mmul (mkScalar h r) (enc C) (enc A) <-> fibre C A.
  Proof.
    assert (V : valid_scalar r (mkScalar h r)) by (split; cbn [sk sr]; [reflexivity|lia]). split.
    - intros ((P & HP) & H). assert (HA : rep P A) by (apply (l_point LW) in HP; destruct HP as (A' & E & HP); apply (l_inj LW) in E; subst A'; exact HP).
      split; [exists P; exact HA|]. destruct (H false P HP) as (Q & EQ & HQ). destruct (smul false P A _ HA V) as (Q' & EQ' & HQ'); [discriminate|]. cbn [sk] in HQ'.
      rewrite EQ in EQ'. injection EQ' as <-. apply (l_point LW) in HQ. destruct HQ as (C' & E & HQ). apply (l_inj LW) in E. subst C'.
      destruct (l_eqb LW _ _ _ _ HQ HQ) as (t & Et & Ht). destruct (l_eqb LW _ _ _ _ HQ HQ') as (t' & Et' & Ht'). rewrite Et in Et'. injection Et' as <-. symmetry. apply Ht', Ht. reflexivity.
    - intros ((P & HP) & E). split; [exists P; apply (l_point LW); exists A; split; [reflexivity|exact HP]|]. intros oc P' HP'.
      apply (l_point LW) in HP'. destruct HP' as (A' & EA & HP'). apply (l_inj LW) in EA. subst A'.
      destruct (smul oc P' A _ HP' V) as (Q & EQ & HQ); [intros _; cbn [sk]; lia|]. cbn [sk] in HQ. exists Q. split; [exact EQ|]. apply (l_point LW). exists C. rewrite <- E. split; [reflexivity|exact HQ].
  Qed.
  Lemma clear_fibres : exists f, n = r * f
    /\ (forall C, generated ssum szero (enc G) r C -> counted (sent_to point mmul (mkScalar h r) C) f)
    /\ (forall C A, sent_to point mmul (mkScalar h r) C A -> generated ssum szero (enc G) r C)
    /\ (forall A, son A -> exists C, sent_to point mmul (mkScalar h r) C A).
  Proof.
    destruct fibres as (f & En & K). exists f. split; [exact En|].
    assert (V : valid_scalar r (mkScalar h r)) by (split; cbn [sk sr]; [reflexivity|lia]). split; [|split].
    - intros C (j & Hj & M). apply (l_mult LW _ _ _ OG) in M. rewrite <- (FinGroup.zmul_nat add opp zero), Z2Nat.id in M by lia. subst C.
      destruct (K j) as (M & N & H & E). exists (map enc M). split; [|split].
      + apply nodup_map_in; [|exact N]. intros A B _ _. apply (l_inj LW).
      + intro A. rewrite in_map_iff. split.
        * intros (A' & <- & HA). apply sent_iff, H, HA.
        * intro HS. destruct (proj1 HS) as (P & HP). apply (l_point LW) in HP. destruct HP as (A' & -> & _). exists A'. split; [reflexivity|]. apply H, sent_iff, HS.
      + rewrite map_length. exact E.
    - intros C A ((P & HP) & H). destruct (H false P HP) as (Q & EQ & HQ). apply (l_point LW) in HP. destruct HP as (A' & -> & HP).
      apply (l_point LW) in HQ. destruct HQ as (C' & -> & HQ). assert (F : fibre C' A').
      { apply sent_iff. split; [exists P; apply (l_point LW); exists A'; split; [reflexivity|exact HP]|exact H]. }
      destruct F as (HA & <-). destruct (lands A' HA) as (z & E). apply (gen_iff LW MG G Grep r1 rG); [apply (on_zmul _ _ _ _ HG), real_on, HA|]. exists z. exact E.
    - intros A HA. apply Hson in HA. destruct HA as (P & HP). apply (l_point LW) in HP. destruct HP as (A' & -> & HP). exists (enc (zmul h A')). apply sent_iff. split; [exists P; exact HP|reflexivity].
  Qed.
End Clear.
