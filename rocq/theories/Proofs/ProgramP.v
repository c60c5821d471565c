(** Runs of programs over one curve, once for all three kinds of curves. *)
From Coq Require Import ZArith String Bool List.
From Verif.Spec Require Import Arith Programs.
From Verif.Model Require Import Out BigInt PrimeField Scalar.
From Verif.Proofs Require Import ScalarProps ScLaw.
Import ListNotations.
Open Scope Z_scope.

Section Opaque.
  Context {Point S : Type} (a : api Point) (point : Point -> S -> Prop).
  Definition same_point (P Q : Point) : Prop := exists A, point P A /\ point Q A.
  Definition same_out (x y : out Point) : Prop :=
    match x, y with Ret P, Ret Q => same_point P Q | Panic m, Panic m' => m = m' | _, _ => False end.
  Hypothesis Hnew : forall x y P, a_new a x y = Ret P -> exists A, point P A.
  Hypothesis Hid : forall P, a_identity a = Ret P -> exists A, point P A.
  Hypothesis Hgen : forall P, a_generator a = Ret P -> exists A, point P A.
  Hypothesis Hdec : forall buf P, Forall is_byte buf -> a_decode a buf = Ret (Ok P) -> exists A, point P A.
  Hypothesis Hadd : forall P P' Q Q', same_point P P' -> same_point Q Q' -> same_out (a_add a P Q) (a_add a P' Q').
  Hypothesis Hsub : forall P P' Q Q', same_point P P' -> same_point Q Q' -> same_out (a_sub a P Q) (a_sub a P' Q').
  Hypothesis Hneg : forall P P', same_point P P' -> same_out (a_neg a P) (a_neg a P').
  Hypothesis Hmul : forall P P' k, same_point P P' -> same_out (a_mul a P k) (a_mul a P' k).
  Hypothesis Hnorm : forall P P', same_point P P' -> a_normalize a P = a_normalize a P'.
  Hypothesis Hnormp : forall P A N, point P A -> a_is_zero a P = false -> a_normalize a P = Ret N -> exists B, point N B.
  Hypothesis Heqb : forall P P' Q Q', same_point P P' -> same_point Q Q' -> a_eqb a P Q = a_eqb a P' Q'.
  Hypothesis Hzero : forall P P', same_point P P' -> a_is_zero a P = a_is_zero a P'.
  Hypothesis Henc : forall P P' c, same_point P P' -> a_encode a P c = a_encode a P' c.

  Definition same_step (x y : out (reply * option Point)) : Prop :=
    match x, y with
    | Ret (r, None), Ret (r', None) => r = r'
    | Ret (r, Some P), Ret (r', Some Q) => r = r' /\ same_point P Q
    | Panic m, Panic m' => m = m'
    | _, _ => False
    end.
  Lemma same_made x y : same_out x y -> same_step (made x) (made y).
  Proof. destruct x, y; cbn; auto. Qed.
  Lemma same_atom x : (forall P, x = Ret P -> exists A, point P A) -> same_step (made x) (made x).
  Proof. intro H. destruct x as [P|m]; cbn; [|reflexivity]. split; [reflexivity|]. destruct (H P eq_refl) as [A HA]. exists A. auto. Qed.
  Lemma same_reg Ps Qs i f g : Forall2 same_point Ps Qs -> (forall P Q, same_point P Q -> same_step (f P) (g Q)) ->
    same_step (reg Ps i f) (reg Qs i g).
  Proof.
    intros H Hf. unfold reg. revert i. induction H as [|P Q Ps Qs HPQ H IH]; intros [|i]; cbn; auto.
  Qed.
  Lemma step_same c Ps Qs : cmd_bytes c -> Forall2 same_point Ps Qs -> same_step (step a c Ps) (step a c Qs).
  Proof.
    intros B H. destruct c as [x y| | |buf|i j|i j|i|i k|i|i j|i|i c|i]; cbn [step cmd_bytes] in *.
    - apply same_atom. intro P. apply Hnew.
    - apply same_atom, Hid.
    - apply same_atom, Hgen.
    - destruct (a_decode a buf) as [[P|m]|m] eqn:E; cbn; auto. split; [reflexivity|].
      destruct (Hdec _ _ B E) as [A HA]. exists A. auto.
    - apply same_reg; [exact H|]. intros P P' HP. apply same_reg; [exact H|]. intros Q Q' HQ. apply same_made; auto.
    - apply same_reg; [exact H|]. intros P P' HP. apply same_reg; [exact H|]. intros Q Q' HQ. apply same_made; auto.
    - apply same_reg; [exact H|]. intros P P' HP. apply same_made; auto.
    - apply same_reg; [exact H|]. intros P P' HP. apply same_made; auto.
    - apply same_reg; [exact H|]. intros P P' HP. rewrite <- (Hzero _ _ HP). destruct (a_is_zero a P) eqn:Z; [reflexivity|].
      rewrite <- (Hnorm _ _ HP). apply same_atom. intros N E. destruct HP as (A & HA & _). exact (Hnormp _ _ _ HA Z E).
    - apply same_reg; [exact H|]. intros P P' HP. apply same_reg; [exact H|]. intros Q Q' HQ. rewrite <- (Heqb _ _ _ _ HP HQ).
      destruct (a_eqb a P Q); reflexivity.
    - apply same_reg; [exact H|]. intros P P' HP. rewrite <- (Hzero _ _ HP). reflexivity.
    - apply same_reg; [exact H|]. intros P P' HP. rewrite <- (Henc _ _ c HP). destruct (a_encode a P c); reflexivity.
    - apply same_reg; [exact H|]. intros P P' HP. rewrite <- (Hnorm _ _ HP). destruct (a_normalize a P) as [N|m]; [|reflexivity].
      cbn. destruct (a_show a N); reflexivity.
  Qed.
  Lemma run_opaque : opaque a point.
  Proof.
    intros p. induction p as [|c next IH]; intros Ps Qs B H; [reflexivity|]. cbn [run prog_bytes] in *. destruct B as [Bc Bn].
    pose proof (step_same c Ps Qs Bc H) as E.
    destruct (step a c Ps) as [[r [P|]]|m], (step a c Qs) as [[r' [Q|]]|m']; cbn in E; try contradiction.
    - destruct E as [<- E]. f_equal. apply IH; [apply Bn|]. apply Forall2_app; [exact H|]. constructor; [exact E|constructor].
    - subst r'. f_equal. apply IH; [apply Bn|exact H].
    - subst. reflexivity.
  Qed.
End Opaque.

Lemma run_separating {Point S : Type} (a : api Point) (point : Point -> S -> Prop) :
  (forall P A, point P A -> exists c N, cmd_bytes c /\ (forall regs, step a c regs = Ret (Made, Some N)) /\ point N A) ->
  (forall P Q A B, point P A -> point Q B -> exists t, a_eqb a P Q = Ret t /\ (t = true <-> A = B)) ->
  separating a point.
Proof.
  intros Hmk Heqb P Q A B HP HQ N. destruct (Hmk P A HP) as (c & R & Bc & Ec & HR).
  exists (Call c (fun _ => Call (Equal 0 1) (fun _ => Halt))). split; [cbn; auto|].
  cbn [run]. rewrite !Ec. cbn [app step reg nth_error].
  destruct (Heqb P R A A HP HR) as (t & -> & Ht), (Heqb Q R B A HQ HR) as (t' & -> & Ht'). cbn [bind].
  intro E. injection E as E. apply N. symmetry. apply Ht'. rewrite <- E. apply Ht. reflexivity.
Qed.

(** what the laws of a curve give *)
Section FromLaws.
  Context {MP S : Type} {point : MP -> S -> Prop} {ssum : S -> S -> S -> Prop} {szero : S} {r : Z}
    {mmul : bool -> MP -> Scalar -> out MP} {madd msub : MP -> MP -> out MP} {mneg : MP -> out MP} {meqb : MP -> MP -> out bool}
    {T : Type} {on : T -> Prop} {add : T -> T -> T} {opp : T -> T} {zero : T} {rep : MP -> T -> Prop} {enc : T -> S}.
  Hypothesis L : laws point ssum szero r mmul madd msub mneg meqb on add opp zero rep enc.
  Lemma same_rep P Q : same_point point P Q <-> exists A, rep P A /\ rep Q A.
  Proof.
    split.
    - intros (A & HP & HQ). apply (l_point L) in HP as (A1 & -> & HP), HQ as (A2 & E & HQ). apply (l_inj L) in E as <-. eauto.
    - intros (A & HP & HQ). exists (enc A). split; apply (l_point L); eauto.
  Qed.
  Lemma laws_add P P' Q Q' : same_point point P P' -> same_point point Q Q' -> same_out point (madd P Q) (madd P' Q').
  Proof.
    intros HP HQ. apply same_rep in HP as (A & HP & HP'), HQ as (B & HQ & HQ').
    destruct (l_add L _ _ _ _ HP HQ) as (R & -> & HR), (l_add L _ _ _ _ HP' HQ') as (R' & -> & HR'). apply same_rep. eauto.
  Qed.
  Lemma laws_sub P P' Q Q' : same_point point P P' -> same_point point Q Q' -> same_out point (msub P Q) (msub P' Q').
  Proof.
    intros HP HQ. apply same_rep in HP as (A & HP & HP'), HQ as (B & HQ & HQ').
    destruct (l_sub L _ _ _ _ HP HQ) as (R & -> & HR), (l_sub L _ _ _ _ HP' HQ') as (R' & -> & HR'). apply same_rep. eauto.
  Qed.
  Lemma laws_neg P P' : same_point point P P' -> same_out point (mneg P) (mneg P').
  Proof.
    intros HP. apply same_rep in HP as (A & HP & HP').
    destruct (l_neg L _ _ HP) as (R & -> & HR), (l_neg L _ _ HP') as (R' & -> & HR'). apply same_rep. eauto.
  Qed.
  Lemma laws_mul msg oc P P' k : (forall P A, point P A -> mmul true P (mkScalar 0 r) = Panic msg) -> 0 < r ->
    same_point point P P' -> same_out point (bind (scalar_new k r) (fun k => mmul oc P k)) (bind (scalar_new k r) (fun k => mmul oc P' k)).
  Proof.
    intros HZ Hr HP. destruct (ScalarProps.c20_new_scalar r k Hr) as (m & -> & Er & R). cbn [bind].
    assert (V : valid_scalar r m) by (split; [exact Er|apply R]).
    destruct (Bool.bool_dec oc true) as [->|Ho].
    - destruct (Z.eq_dec (sk m) 0) as [E|E].
      + assert (m = mkScalar 0 r) as -> by (destruct m; cbn in *; congruence).
        destruct HP as (A & HP & HP'). rewrite (HZ _ _ HP), (HZ _ _ HP'). reflexivity.
      + apply same_rep in HP as (A & HP & HP').
        destruct (l_mul L true _ _ m HP V (fun _ => E)) as (X & -> & HX), (l_mul L true _ _ m HP' V (fun _ => E)) as (X' & -> & HX'). apply same_rep. eauto.
    - apply same_rep in HP as (A & HP & HP'). assert (N : oc = true -> sk m <> 0) by contradiction.
      destruct (l_mul L oc _ _ m HP V N) as (X & -> & HX), (l_mul L oc _ _ m HP' V N) as (X' & -> & HX'). apply same_rep. eauto.
  Qed.
  Lemma laws_eqb P P' Q Q' : same_point point P P' -> same_point point Q Q' -> meqb P Q = meqb P' Q'.
  Proof.
    intros HP HQ. apply same_rep in HP as (A & HP & HP'), HQ as (B & HQ & HQ').
    destruct (l_eqb L _ _ _ _ HP HQ) as (t & -> & Ht), (l_eqb L _ _ _ _ HP' HQ') as (t' & -> & Ht'). f_equal.
    destruct t, t'; auto; exfalso.
    - assert (E : A = B) by (apply Ht; reflexivity). apply Ht' in E. discriminate.
    - assert (E : A = B) by (apply Ht'; reflexivity). apply Ht in E. discriminate.
  Qed.
  Lemma laws_eqb_iff P Q A B : point P A -> point Q B -> exists t, meqb P Q = Ret t /\ (t = true <-> A = B).
  Proof.
    intros HP HQ. apply (l_point L) in HP as (A' & -> & HP), HQ as (B' & -> & HQ).
    destruct (l_eqb L _ _ _ _ HP HQ) as (t & E & Ht). exists t. split; [exact E|]. rewrite Ht. split; [congruence|apply (l_inj L)].
  Qed.
End FromLaws.
