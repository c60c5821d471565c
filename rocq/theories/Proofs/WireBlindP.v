(** Proofs for C78: blinded evaluation over bytes, in any group in which the operations of a curve compute. *)
From Coq Require Import ZArith Znumtheory Lia Bool List.
From Verif.Math Require Import FinGroup.
From Verif.Spec Require Import Arith Curve Order Elements Wire WireBlind.
From Verif.Model Require Import Out BigInt PrimeField Scalar.
From Verif.Proofs Require Import ScalarProps ScLaw Subgroup Protocols WireP.
Import ListNotations.
Open Scope Z_scope.

Section WireBlind.
  Context {MP S T : Type} {point : MP -> S -> Prop} {ssum : S -> S -> S -> Prop} {szero : S} {r : Z}
    {mmul : bool -> MP -> Scalar -> out MP} {madd msub : MP -> MP -> out MP} {mneg : MP -> out MP} {meqb : MP -> MP -> out bool}
    {on : T -> Prop} {add : T -> T -> T} {opp : T -> T} {zero : T} {rep : MP -> T -> Prop} {enc : T -> S}.
  Hypothesis LW : laws point ssum szero r mmul madd msub mneg meqb on add opp zero rep enc.
  Local Notation zmul := (FinGroup.zmul add opp zero).
  Let HG := l_grp LW.
  Let smul := law_mul add opp zero rep r mmul (l_mul LW).
  Variables (menc : MP -> bool -> out (list Z)) (dec : list Z -> out (io_result MP)).
  Hypothesis Hwire : forall P A c, point P A -> A <> szero -> exists buf Q, menc P c = Ret buf /\ dec buf = Ret (Ok Q) /\ point Q A.
  Hypothesis Hbytes : forall P Q A B c, point P A -> point Q B -> A <> szero -> B <> szero -> (menc P c = menc Q c <-> meqb P Q = Ret true).
  Variables (MG : MP) (G : T).
  Hypothesis Grep : rep MG G.
  Hypothesis Pr : prime r.
  Hypothesis ordG : forall n, multiple ssum szero (enc G) n szero <-> (r | Z.of_nat n).
  Let OG : on G := l_on LW _ _ Grep.

  (** the client's result represents sk k * z times G, for P = z G *)
  Lemma evaluate_of oc oc' c c' d P z b k : rep P (zmul z G) -> ~ (r | z) -> valid_scalar r b -> sk b <> 0 -> valid_scalar r k -> sk k <> 0 ->
    exists F X out, mmul oc P k = Ret F /\ rep F (zmul (sk k * z) G) /\ rep X (zmul (sk k * z) G) /\ menc F d = Ret out /\ menc X d = Ret out
    /\ evaluate mmul menc dec oc oc' c c' d P b k = Ret (Some out).
  Proof.
    intros HP Nz Vb Nb Vk Nk. assert (r1 : 1 < r) by (destruct Pr; lia).
    pose proof (unit_of r b Vb Nb) as Ub. pose proof (unit_of r k Vk Nk) as Uk.
    destruct (c20_scalar_division r b b Pr Vb Vb Nb) as (_ & i & _ & _ & _ & Ei & Vi & Di).
    assert (Ni : sk i <> 0).
    { intro E0. rewrite E0 in Di. apply Z.divide_opp_r in Di. replace (- (0 * sk b - 1)) with 1 in Di by ring. apply Z.divide_pos_le in Di; lia. }
    pose proof (unit_of r i Vi Ni) as Ui.
    destruct (smul oc P _ k HP Vk (fun _ => Nk)) as (F & EF & HF). rewrite (zG_mul LW MG G Grep) in HF.
    destruct (smul oc P _ b HP Vb (fun _ => Nb)) as (B & EB & HB). rewrite (zG_mul LW MG G Grep) in HB.
    pose proof (znz LW MG G Grep Pr ordG) as NZ. pose proof (unit_mul Pr) as UM.
    destruct (wire_rep LW menc dec Hwire B _ c HB (NZ _ (UM _ _ Ub Nz))) as (mb & B' & Emb & DB & HB').
    destruct (finish_of LW menc dec Hwire oc' mb B' _ k c' DB HB' Vk Nk) as (E & me & EE & HE & Eme & Fme).
    { rewrite (zG_mul LW MG G Grep). apply NZ, UM; [exact Uk|apply UM; assumption]. }
    rewrite (zG_mul LW MG G Grep) in HE. assert (NE : ~ (r | sk k * (sk b * z))) by (apply UM; [exact Uk|apply UM; assumption]).
    destruct (wire_rep LW menc dec Hwire E _ c' HE (NZ _ NE)) as (me' & E' & Eme' & DE & HE'). rewrite Eme in Eme'. injection Eme' as <-.
    destruct (finish_of LW menc dec Hwire oc me E' _ i d DE HE' Vi Ni) as (X & out & EX & HX & Eo & Fo).
    { rewrite (zG_mul LW MG G Grep). apply NZ, UM; assumption. }
    rewrite (zG_mul LW MG G Grep) in HX.
    assert (Q : zmul (sk i * (sk k * (sk b * z))) G = zmul (sk k * z) G).
    { apply (zG_eq LW MG G Grep Pr ordG). apply (div_comb r _ (sk i * sk b - 1) (sk k * z) Di). ring. }
    rewrite Q in HX. assert (NF : zmul (sk k * z) G <> zero) by (apply NZ, UM; assumption).
    exists F, X, out. split; [exact EF|]. split; [exact HF|]. split; [exact HX|]. split.
    { rewrite (proj2 (bytes_rep LW menc Hbytes F X _ _ d HF HX NF NF) eq_refl). exact Eo. }
    split; [exact Eo|]. unfold evaluate. rewrite EB. cbn [bind]. rewrite Emb. cbn [bind]. rewrite Fme. cbn [bind]. rewrite Ei. cbn [bind]. exact Fo.
  Qed.
  Lemma generated_rep P A : point P A -> generated ssum szero (enc G) r A -> A <> szero -> exists z, rep P (zmul z G) /\ ~ (r | z).
  Proof.
    intros HP HA NZ. apply (l_point LW) in HP. destruct HP as (A' & -> & HP).
    destruct (generated_of LW MG G Grep Pr ordG A' (l_on LW _ _ HP) HA) as (z & ->). exists z. split; [exact HP|].
    intro H. apply NZ. apply (zG0 LW MG G Grep Pr ordG) in H. rewrite H. apply (l_zero LW).
  Qed.
  Lemma evaluates_law : evaluates point ssum szero r mmul menc dec (enc G).
  Proof.
    intros oc oc' c c' d P A b k HP HA NZ Vb Nb Vk Nk. destruct (generated_rep P A HP HA NZ) as (z & HR & Nz).
    destruct (evaluate_of oc oc' c c' d P z b k HR Nz Vb Nb Vk Nk) as (F & X & out & EF & _ & _ & Eo & _ & EV).
    exists F, out. exact (conj EF (conj Eo EV)).
  Qed.
  Lemma separates_law : separates point ssum szero r mmul meqb menc dec (enc G).
  Proof.
    intros oc oc' c c' d o1 o1' c1 c1' P A P1 A1 b k b1 k1 out out1 HP HA NZ HP1 HA1 NZ1 Vb Nb Vk Nk Vb1 Nb1 Vk1 Nk1 E E1.
    destruct (generated_rep P A HP HA NZ) as (z & HR & Nz). destruct (generated_rep P1 A1 HP1 HA1 NZ1) as (z1 & HR1 & Nz1).
    destruct (evaluate_of oc oc' c c' d P z b k HR Nz Vb Nb Vk Nk) as (_ & X & o & _ & _ & HX & _ & Eo & EV). rewrite E in EV. injection EV as <-.
    destruct (evaluate_of o1 o1' c1 c1' d P1 z1 b1 k1 HR1 Nz1 Vb1 Nb1 Vk1 Nk1) as (_ & X1 & o & _ & _ & HX1 & _ & Eo1 & EV). rewrite E1 in EV. injection EV as <-.
    pose proof (unit_of r k Vk Nk) as Uk. pose proof (unit_of r k1 Vk1 Nk1) as Uk1.
    assert (S1 : out = out1 <-> (r | sk k * z - sk k1 * z1)).
    { rewrite <- (zG_eq LW MG G Grep Pr ordG), <- (bytes_rep LW menc Hbytes X X1 _ _ d HX HX1 (znz LW MG G Grep Pr ordG _ (unit_mul Pr _ _ Uk Nz)) (znz LW MG G Grep Pr ordG _ (unit_mul Pr _ _ Uk1 Nz1))), Eo, Eo1.
      split; [intros ->; reflexivity|intro Q; injection Q as Q; exact Q]. }
    assert (S2 : meqb P P1 = Ret true <-> (r | z - z1)).
    { rewrite <- (zG_eq LW MG G Grep Pr ordG). destruct (l_eqb LW _ _ _ _ HR HR1) as (t & -> & Ht). rewrite <- Ht. split; [intro Q; injection Q as ->; reflexivity|intros ->; reflexivity]. }
    split.
    - intros <-. rewrite S1, S2. replace (sk k * z - sk k * z1) with (sk k * (z - z1)) by ring. split; intro H; [|apply Z.divide_mul_r, H].
      destruct (prime_mult r Pr _ _ H); [contradiction|assumption].
    - rewrite S2. intro D. rewrite S1, <- (scalar_same r k k1 Vk Vk1).
      replace (sk k * z - sk k1 * z1) with (z * (sk k - sk k1) + sk k1 * (z - z1)) by ring. split; intro H.
      + assert (H' : (r | z * (sk k - sk k1))).
        { replace (z * (sk k - sk k1)) with ((z * (sk k - sk k1) + sk k1 * (z - z1)) - sk k1 * (z - z1)) by ring. apply Z.divide_sub_r; [exact H|apply Z.divide_mul_r, D]. }
        destruct (prime_mult r Pr _ _ H'); [contradiction|assumption].
      + apply Z.divide_add_r; apply Z.divide_mul_r; assumption.
  Qed.
End WireBlind.
