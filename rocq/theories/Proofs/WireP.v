(** Proofs for C75: key agreement over bytes, in any group in which the operations of a curve compute. *)
From Coq Require Import ZArith Znumtheory Lia Bool List.
From Verif.Math Require Import FinGroup.
From Verif.Spec Require Import Arith Curve Order Elements Wire.
From Verif.Model Require Import Out BigInt PrimeField Scalar.
From Verif.Proofs Require Import ScalarProps ScLaw Subgroup Protocols.
Import ListNotations.
Open Scope Z_scope.

Section Wire.
  Context {MP S T : Type} {point : MP -> S -> Prop} {ssum : S -> S -> S -> Prop} {szero : S} {r : Z}
    {mmul : bool -> MP -> Scalar -> out MP} {madd msub : MP -> MP -> out MP} {mneg : MP -> out MP} {meqb : MP -> MP -> out bool}
    {on : T -> Prop} {add : T -> T -> T} {opp : T -> T} {zero : T} {rep : MP -> T -> Prop} {enc : T -> S}.
  Hypothesis LW : laws point ssum szero r mmul madd msub mneg meqb on add opp zero rep enc.
  Local Notation zmul := (FinGroup.zmul add opp zero).
  Let HG := l_grp LW.
  Let smul := law_mul add opp zero rep r mmul (l_mul LW).
  Variables (menc : MP -> bool -> out (list Z)) (dec : list Z -> out (io_result MP)).
  Hypothesis Hwire : forall P A c, point P A -> A <> szero -> exists buf Q, menc P c = Ret buf /\ dec buf = Ret (Ok Q) /\ point Q A.
  Hypothesis Hbytes : forall P Q A B c, point P A -> point Q B -> A <> szero -> B <> szero -> (menc P c = menc Q c <-> meqb P Q = Ret true).
  Variables (MG : MP) (G : T).
  Hypothesis Grep : rep MG G.
  Hypothesis Pr : prime r.
  Hypothesis ordG : forall n, multiple ssum szero (enc G) n szero <-> (r | Z.of_nat n).
  Let OG : on G := l_on LW _ _ Grep.

  Lemma enc_nz A : A <> zero -> enc A <> szero.
  Proof. intros N E. apply N, (l_inj LW). rewrite (l_zero LW). exact E. Qed.
  Lemma rep_point P A : rep P A -> point P (enc A).
  Proof. intro H. apply (l_point LW). exists A. split; [reflexivity|exact H]. Qed.
  Lemma point_rep P A : point P (enc A) -> rep P A.
  Proof. intro H. apply (l_point LW) in H. destruct H as (A' & E & H). apply (l_inj LW) in E. subst A'. exact H. Qed.
  Lemma wire_rep P A c : rep P A -> A <> zero -> exists buf Q, menc P c = Ret buf /\ dec buf = Ret (Ok Q) /\ rep Q A.
  Proof. intros H N. destruct (Hwire P (enc A) c (rep_point P A H) (enc_nz A N)) as (buf & Q & E & D & H'). exists buf, Q. split; [exact E|]. split; [exact D|exact (point_rep _ _ H')]. Qed.
  Lemma bytes_rep P Q A B c : rep P A -> rep Q B -> A <> zero -> B <> zero -> (menc P c = menc Q c <-> A = B).
  Proof.
    intros HP HQ NA NB. rewrite (Hbytes P Q _ _ c (rep_point _ _ HP) (rep_point _ _ HQ) (enc_nz _ NA) (enc_nz _ NB)).
    destruct (l_eqb LW _ _ _ _ HP HQ) as (t & -> & Ht). rewrite <- Ht. split; [intro E; injection E as ->; reflexivity|intros ->; reflexivity].
  Qed.
  Lemma unit_mul a b : ~ (r | a) -> ~ (r | b) -> ~ (r | a * b).
  Proof. intros Na Nb D. destruct (prime_mult r Pr _ _ D); contradiction. Qed.
  (** z G is not the identity *)
  Lemma znz z : ~ (r | z) -> zmul z G <> zero.
  Proof. intros N E. apply N. apply (zG0 LW MG G Grep Pr ordG). exact E. Qed.

  Lemma finish_of oc buf Q A k d : dec buf = Ret (Ok Q) -> rep Q A -> valid_scalar r k -> sk k <> 0 -> zmul (sk k) A <> zero ->
    exists P s, mmul oc Q k = Ret P /\ rep P (zmul (sk k) A) /\ menc P d = Ret s /\ finish mmul menc dec oc buf k d = Ret (Some s).
  Proof.
    intros D HQ V N NZ. destruct (smul oc Q A k HQ V (fun _ => N)) as (P & EP & HP). destruct (wire_rep P _ d HP NZ) as (s & _ & Es & _).
    exists P, s. split; [exact EP|]. split; [exact HP|]. split; [exact Es|]. unfold finish. rewrite D. cbn [bind]. rewrite EP. cbn [bind]. rewrite Es. reflexivity.
  Qed.
  Lemma exchange_of oc oc' c c' d a b : valid_scalar r a -> valid_scalar r b -> sk a <> 0 -> sk b <> 0 ->
    exists key P, exchange mmul menc dec oc oc' c c' d MG a b = Ret (Some key, Some key) /\ rep P (zmul (sk a * sk b) G) /\ menc P d = Ret key.
  Proof.
    intros Va Vb Na Nb. pose proof (unit_of r a Va Na) as Ua. pose proof (unit_of r b Vb Nb) as Ub.
    destruct (smul oc MG G a Grep Va (fun _ => Na)) as (A & EA & HA). destruct (smul oc' MG G b Grep Vb (fun _ => Nb)) as (B & EB & HB).
    destruct (wire_rep A _ c HA (znz _ Ua)) as (ma & A' & Ema & DA & HA'). destruct (wire_rep B _ c' HB (znz _ Ub)) as (mb & B' & Emb & DB & HB').
    destruct (finish_of oc mb B' _ a d DB HB' Va Na) as (X & s & _ & HX & Es & Fs).
    { rewrite (zG_mul LW MG G Grep). apply znz, unit_mul; assumption. }
    destruct (finish_of oc' ma A' _ b d DA HA' Vb Nb) as (Y & t & _ & HY & Et & Ft).
    { rewrite (zG_mul LW MG G Grep). apply znz, unit_mul; assumption. }
    rewrite (zG_mul LW MG G Grep) in HX, HY. rewrite (Z.mul_comm (sk b)) in HY. pose proof (znz _ (unit_mul _ _ Ua Ub)) as NZ.
    assert (E : s = t). { pose proof (proj2 (bytes_rep X Y _ _ d HX HY NZ NZ) eq_refl) as E. rewrite Es, Et in E. injection E as E. exact E. }
    subst t. exists s, X. split; [|split; assumption]. unfold exchange. rewrite EA. cbn [bind]. rewrite EB. cbn [bind]. rewrite Ema. cbn [bind]. rewrite Emb. cbn [bind].
    rewrite Fs. cbn [bind]. rewrite Ft. reflexivity.
  Qed.
  Lemma agrees_law : agrees point ssum szero r mmul menc dec MG (enc G).
  Proof.
    intros oc oc' c c' d a b Va Vb Na Nb. destruct (exchange_of oc oc' c c' d a b Va Vb Na Nb) as (key & P & E & HP & Ek).
    pose proof (znz _ (unit_mul _ _ (unit_of r a Va Na) (unit_of r b Vb Nb))) as NZ.
    exists key, (enc (zmul (sk a * sk b) G)). split; [exact E|]. split; [apply (multiple_of LW MG G Grep); destruct Va, Vb; nia|].
    split; [apply enc_nz, NZ|]. split; [exists P; exact (rep_point _ _ HP)|]. intros Q HQ. rewrite <- Ek. apply (bytes_rep Q P _ _ d (point_rep _ _ HQ) HP NZ NZ). reflexivity.
  Qed.
  Lemma key_exact_law : key_exact r mmul menc dec MG.
  Proof.
    intros oc oc' c c' d a b o1 o1' c1 c1' a1 b1 key key1 Va Vb Na Nb Va1 Vb1 Na1 Nb1 E E1.
    destruct (exchange_of oc oc' c c' d a b Va Vb Na Nb) as (k & P & F & HP & Ek). rewrite E in F. injection F as <-.
    destruct (exchange_of o1 o1' c1 c1' d a1 b1 Va1 Vb1 Na1 Nb1) as (k1 & P1 & F & HP1 & Ek1). rewrite E1 in F. injection F as <-.
    pose proof (znz _ (unit_mul _ _ (unit_of r a Va Na) (unit_of r b Vb Nb))) as NZ. pose proof (znz _ (unit_mul _ _ (unit_of r a1 Va1 Na1) (unit_of r b1 Vb1 Nb1))) as NZ1.
    rewrite <- (zG_eq LW MG G Grep Pr ordG), <- (bytes_rep P P1 _ _ d HP HP1 NZ NZ1), Ek, Ek1. split; [intros ->; reflexivity|intro Q; injection Q as Q; exact Q].
  Qed.

  (** when every point that decode returns is a multiple of G other than the identity *)
  Variable is_zero : MP -> bool.
  Hypothesis Hzero : forall P A, point P A -> is_zero P = true -> A = szero.
  Hypothesis Hdec : forall buf Q, Forall is_byte buf -> dec buf = Ret (Ok Q) -> exists A, point Q A /\ A <> szero /\ generated ssum szero (enc G) r A.
  Lemma decoded buf Q : Forall is_byte buf -> dec buf = Ret (Ok Q) -> exists z, rep Q (zmul z G) /\ ~ (r | z).
  Proof.
    intros B D. destruct (Hdec buf Q B D) as (A & HQ & NZ & HA). apply (l_point LW) in HQ. destruct HQ as (A' & -> & HQ).
    destruct (generated_of LW MG G Grep Pr ordG A' (l_on LW _ _ HQ) HA) as (z & ->). exists z. split; [exact HQ|].
    intro H. apply NZ. apply (zG0 LW MG G Grep Pr ordG) in H. rewrite H. apply (l_zero LW).
  Qed.
  Lemma contributory_law : contributory r mmul menc dec is_zero.
  Proof.
    intros buf B. split.
    - intros oc k d V N Q D. destruct (decoded buf Q B D) as (z & HQ & Nz).
      assert (NZ : zmul (sk k) (zmul z G) <> zero) by (rewrite (zG_mul LW MG G Grep); apply znz, unit_mul; [exact (unit_of r k V N)|exact Nz]).
      destruct (finish_of oc buf Q _ k d D HQ V N NZ) as (P & s & EP & HP & Es & Fs). exists P, s. split; [exact EP|]. split; [|split; assumption].
      destruct (is_zero P) eqn:Z; [|reflexivity]. exfalso. apply (enc_nz _ NZ). exact (Hzero P _ (rep_point _ _ HP) Z).
    - intros oc oc' k k' d s s' V N V' N' F F'.
      destruct (dec buf) as [[Q|m]|m] eqn:D; [|unfold finish in F; rewrite D in F; discriminate F|unfold finish in F; rewrite D in F; discriminate F].
      destruct (decoded buf Q B D) as (z & HQ & Nz).
      assert (NZ : forall l, valid_scalar r l -> sk l <> 0 -> zmul (sk l) (zmul z G) <> zero).
      { intros l Vl Nl. rewrite (zG_mul LW MG G Grep). apply znz, unit_mul; [exact (unit_of r l Vl Nl)|exact Nz]. }
      destruct (finish_of oc buf Q _ k d D HQ V N (NZ k V N)) as (P & t & _ & HP & Es & Fs). rewrite F in Fs. injection Fs as <-.
      destruct (finish_of oc' buf Q _ k' d D HQ V' N' (NZ k' V' N')) as (P' & t & _ & HP' & Es' & Fs). rewrite F' in Fs. injection Fs as <-.
      rewrite <- (scalar_same r k k' V V'). transitivity (menc P d = menc P' d).
      { rewrite Es, Es'. split; [intros ->; reflexivity|intro E; injection E as E; exact E]. }
      rewrite (bytes_rep P P' _ _ d HP HP' (NZ k V N) (NZ k' V' N')), !(zG_mul LW MG G Grep), (zG_eq LW MG G Grep Pr ordG).
      replace (sk k * z - sk k' * z) with (z * (sk k - sk k')) by ring. split; intro H; [|apply Z.divide_mul_r, H].
      destruct (prime_mult r Pr _ _ H); [contradiction|assumption].
  Qed.
  (** a point of small order, sent as bytes *)
  Lemma small_law P A q : point P A -> A <> szero -> 0 < q < r -> multiple ssum szero A (Z.to_nat q) szero ->
    (forall buf c, menc P c = Ret buf -> Forall is_byte buf) -> not_contributory point szero r mmul dec q.
  Proof.
    intros HP NZ Hq M HB. destruct (Hwire P A false HP NZ) as (buf & Q & E & D & HQ). exists buf, Q. split; [exact (HB _ _ E)|]. split; [exact D|]. apply (l_point LW) in HQ. destruct HQ as (A' & -> & HQ). split.
    { intro H0. rewrite <- (l_zero LW) in H0. apply point_rep in H0. destruct (l_eqb LW _ _ _ _ HQ HQ) as (t & Et & Ht). destruct (l_eqb LW _ _ _ _ HQ H0) as (t' & Et' & Ht').
      rewrite Et in Et'. injection Et' as <-. apply NZ. rewrite <- (l_zero LW). f_equal. apply Ht', Ht. reflexivity. }
    intro oc. destruct (smul oc Q A' (mkScalar q r) HQ) as (X & EX & HX); [split; [reflexivity|cbn; lia]|cbn; lia|].
    exists X. split; [exact EX|]. apply (killed_of LW A' q (l_on LW _ _ HQ)) in M; [|lia]. cbn [sk] in HX. rewrite M in HX. rewrite <- (l_zero LW). exact (rep_point _ _ HX).
  Qed.
End Wire.
