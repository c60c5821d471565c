(** What callers can find out about the representation of points: C64. *)
From Coq Require Import ZArith Znumtheory Lia String Bool List.
From Verif.Math Require Import Fld Zp.
From Verif.Spec Require Import Arith Curve Programs.
From Verif.Spec Require WPoints MPoints EPoints.
From Verif.Model Require Import Out BigInt PrimeField Scalar.
From Verif.Model Require WCurve MCurve ECurve Display.
From Verif.Proofs Require Import FieldP ScalarProps CurveP ScLaw ProgramP.
From Verif.Proofs Require WeierP MontP EdwP WeierProps MontProps EdwProps ScLawProps.
Import ListNotations.
Open Scope Z_scope.

Lemma weier_normal e P Q : WPoints.weier e -> same_point (WPoints.wpoint e) P Q -> WCurve.normalize P = WCurve.normalize Q.
Proof.
  intros W (A & HP & HQ). destruct (WeierProps.weier_open _ W) as (p & Hp & Hp2 & a & b & ef & ea & eb & NR & WP & WS & WM & WO).
  apply WP in HP as (A1 & -> & HP), HQ as (A2 & E & HQ). apply CurveP.ap_inj in E as <-. destruct A1 as [|x y].
  - rewrite (WeierP.normalize_inf p Hp Hp2 a b e P HP), (WeierP.normalize_inf p Hp Hp2 a b e Q HQ). reflexivity.
  - rewrite (WeierP.normalize_wrep p Hp Hp2 a b e P _ _ HP), (WeierP.normalize_wrep p Hp Hp2 a b e Q _ _ HQ). reflexivity.
Qed.
Lemma mont_normal e P Q : MPoints.mont e -> same_point (MPoints.mpoint e) P Q -> MCurve.normalize P = MCurve.normalize Q.
Proof.
  intros W (A & HP & HQ). destruct (MontProps.mont_open _ W) as (p & Hp & Hp2 & a & b & s & ef & ea & eb & es & b1 & NS & NR & WP & WS & WM & WO & WU).
  apply WP in HP as (A1 & -> & HP), HQ as (A2 & E & HQ). apply CurveP.ap_inj in E as <-. destruct A1 as [|x y].
  - rewrite (MontP.normalize_inf p Hp Hp2 a e P HP), (MontP.normalize_inf p Hp Hp2 a e Q HQ). reflexivity.
  - rewrite (MontP.normalize_wrep p Hp Hp2 a e P _ _ HP), (MontP.normalize_wrep p Hp Hp2 a e Q _ _ HQ). reflexivity.
Qed.
Lemma edw_normal e P Q : EPoints.edw e -> same_point (EPoints.epoint e) P Q -> ECurve.normalize P = ECurve.normalize Q.
Proof.
  intros W (A & HP & HQ). destruct (EdwProps.edw_open _ W) as (p & Hp & Hp2 & a & d & ef & ea & ed & AS & AN & DN & WP & WS & WM & WO & WU).
  apply WP in HP as (A1 & -> & HP), HQ as (A2 & E & HQ). apply EdwP.zz_inj in E as <-.
  rewrite (EdwP.normalize_wrep p Hp Hp2 a d e P _ HP), (EdwP.normalize_wrep p Hp Hp2 a d e Q _ HQ). reflexivity.
Qed.
Lemma bool_iff (P : Prop) s t : (s = true <-> P) -> (t = true <-> P) -> s = t.
Proof. intros H K. destruct s, t; auto; [symmetry; apply K, H|apply H, K]; reflexivity. Qed.

(** programs that branch on every answer cannot tell apart two representations of the same points ... *)
Lemma c64_opaque : forall oc e, WPoints.wgroup e -> opaque (w_api oc e) (WPoints.wpoint e).
Proof.
  intros oc e G. pose proof G as (W & Hm & Hr & H64 & Vgx & Vgy). destruct (ScLawProps.weier_laws e W H64) as (T & on & add & opp & zero & rep & enc & L).
  apply run_opaque; cbn [w_api a_new a_identity a_generator a_decode a_add a_sub a_neg a_mul a_normalize a_eqb a_is_zero a_encode].
  - intros x y P E. destruct (WeierProps.c23_history_sound oc e (WPoints.TNew x y) P G I E) as (A & _ & H). eauto.
  - intros P E. destruct (WeierProps.c23_history_sound oc e WPoints.TIdentity P G I E) as (A & _ & H). eauto.
  - intros P E. destruct (WeierProps.c23_history_sound oc e WPoints.TGenerator P G I E) as (A & _ & H). eauto.
  - intros buf P B E. destruct (WeierProps.c23_history_sound oc e (WPoints.TDecode buf) P G B) as (A & _ & H); [cbn; rewrite E; reflexivity|]. eauto.
  - exact (laws_add L).
  - exact (laws_sub L).
  - exact (laws_neg L).
  - intros P P' k HP. apply (laws_mul L "attempt to subtract with overflow" oc P P' k); [|exact Hr|exact HP].
    intros Q A. apply WeierProps.c26_zero_scalar_panics, W.
  - intros P P'. apply weier_normal, W.
  - intros P A N HP Z E. destruct (WeierProps.c27_is_zero e P A W HP) as (I0 & _ & _ & ZI & _).
    destruct A as [|x y]; [assert (WCurve.pt_is_zero P = true) by (apply ZI; reflexivity); congruence|].
    destruct (WeierProps.c31_normalize e P x y W HP) as (R & E' & HR & _). rewrite E' in E. injection E as <-. eauto.
  - exact (laws_eqb L).
  - intros P P' (A & HP & HP'). destruct (WeierProps.c27_is_zero e P A W HP) as (_ & _ & _ & Z1 & _), (WeierProps.c27_is_zero e P' A W HP') as (_ & _ & _ & Z2 & _).
    exact (bool_iff _ _ _ Z1 Z2).
  - intros P P' c HP. unfold WCurve.encode. rewrite (weier_normal e P P' W HP). reflexivity.
Qed.
Lemma c64_mont_opaque : forall oc e, MPoints.mgroup e -> opaque (m_api oc e) (MPoints.mpoint e).
Proof.
  intros oc e G. pose proof G as (W & Hm & Hr & H64 & Vgx & Vgy). destruct (ScLawProps.mont_laws e W H64) as (T & on & add & opp & zero & rep & enc & L).
  apply run_opaque; cbn [m_api a_new a_identity a_generator a_decode a_add a_sub a_neg a_mul a_normalize a_eqb a_is_zero a_encode].
  - intros x y P E. destruct (MontProps.c34_history_sound oc e (MPoints.TNew x y) P G I E) as (A & _ & H). eauto.
  - intros P E. destruct (MontProps.c34_history_sound oc e MPoints.TIdentity P G I E) as (A & _ & H). eauto.
  - intros P E. destruct (MontProps.c34_history_sound oc e MPoints.TGenerator P G I E) as (A & _ & H). eauto.
  - intros buf P B E. destruct (MontProps.c34_history_sound oc e (MPoints.TDecode buf) P G B) as (A & _ & H); [cbn; rewrite E; reflexivity|]. eauto.
  - exact (laws_add L).
  - exact (laws_sub L).
  - exact (laws_neg L).
  - intros P P' k HP. apply (laws_mul L "attempt to subtract with overflow" oc P P' k); [|exact Hr|exact HP].
    intros Q A. apply MontProps.c34_zero_scalar_panics, W.
  - intros P P'. apply mont_normal, W.
  - intros P A N HP Z E. destruct (MontProps.c27_mont_is_zero e P A W HP) as (I0 & _ & _ & ZI & _).
    destruct A as [|x y]; [assert (MCurve.pt_is_zero P = true) by (apply ZI; reflexivity); congruence|].
    destruct (MontProps.c31_mont_normalize e P x y W HP) as (R & E' & HR & _). rewrite E' in E. injection E as <-. eauto.
  - exact (laws_eqb L).
  - intros P P' (A & HP & HP'). destruct (MontProps.c27_mont_is_zero e P A W HP) as (_ & _ & _ & Z1 & _), (MontProps.c27_mont_is_zero e P' A W HP') as (_ & _ & _ & Z2 & _).
    exact (bool_iff _ _ _ Z1 Z2).
  - intros P P' c HP. unfold MCurve.encode. rewrite (mont_normal e P P' W HP). reflexivity.
Qed.
Lemma c64_edw_opaque : forall oc e, EPoints.egroup e -> opaque (e_api oc e) (EPoints.epoint e).
Proof.
  intros oc e G. pose proof G as (W & Hm & Hr & H64 & Vgx & Vgy). destruct (ScLawProps.edw_laws e W H64) as (T & on & add & opp & zero & rep & enc & L).
  apply run_opaque; cbn [e_api a_new a_identity a_generator a_decode a_add a_sub a_neg a_mul a_normalize a_eqb a_is_zero a_encode].
  - intros x y P E. destruct (EdwProps.c37_history_sound oc e (EPoints.TNew x y) P G I E) as (A & _ & H). eauto.
  - intros P E. destruct (EdwProps.c37_history_sound oc e EPoints.TIdentity P G I E) as (A & _ & H). eauto.
  - intros P E. destruct (EdwProps.c37_history_sound oc e EPoints.TGenerator P G I E) as (A & _ & H). eauto.
  - intros buf P B E. destruct (EdwProps.c37_history_sound oc e (EPoints.TDecode buf) P G B) as (A & _ & H); [cbn; rewrite E; reflexivity|]. eauto.
  - exact (laws_add L).
  - exact (laws_sub L).
  - exact (laws_neg L).
  - intros P P' k HP. apply (laws_mul L "attempt to subtract with overflow" oc P P' k); [|exact Hr|exact HP].
    intros Q A. apply EdwProps.c37_zero_scalar_panics, W.
  - intros P P'. apply edw_normal, W.
  - intros P A N HP _ E. destruct (EdwProps.c31_edw_normalize e P A W HP) as (R & E' & HR & _). rewrite E' in E. injection E as <-. eauto.
  - exact (laws_eqb L).
  - intros P P' (A & HP & HP'). destruct (EdwProps.c38_is_zero e P A W HP) as [Z1 _], (EdwProps.c38_is_zero e P' A W HP') as [Z2 _].
    exact (bool_iff _ _ _ Z1 Z2).
  - intros P P' c HP. unfold ECurve.encode. rewrite (edw_normal e P P' W HP).
    destruct HP as (A & (-> & _) & (-> & _)). reflexivity.
Qed.

(** ... and different points are told apart by some program *)
Lemma c64_separating : forall oc e, WPoints.wgroup e -> separating (w_api oc e) (WPoints.wpoint e).
Proof.
  intros oc e (W & Hm & Hr & H64 & Vgx & Vgy). pose proof (proj1 W) as HpP. destruct (ScLawProps.weier_laws e W H64) as (T & on & add & opp & zero & rep & enc & L).
  apply run_separating; [|exact (laws_eqb_iff L)]. intros P [|x y] HP.
  - destruct (WeierProps.c27_is_zero e P _ W HP) as (J & EJ & HJ & _). exists Identity, J. split; [exact I|]. split; [|exact HJ].
    intro regs. cbn [step w_api a_identity made]. unfold made. rewrite EJ. reflexivity.
  - pose proof HP as (_ & _ & _ & _ & _ & O). pose proof O as (Cx & Cy & _).
    destruct (WeierProps.elt_res (WCurve.c_f e) x HpP) as (u & Eu & Vu & Ru), (WeierProps.elt_res (WCurve.c_f e) y HpP) as (v & Ev & Vv & Rv).
    rewrite Z.mod_small in Ru by exact Cx. rewrite Z.mod_small in Rv by exact Cy.
    destruct (WeierProps.c23_new_point e u v W Vu Vv) as [Y _]. rewrite Ru, Rv in Y. destruct (Y O) as (N & EN & HN).
    exists (New x y), N. split; [exact I|]. split; [|exact HN]. intro regs. cbn [step w_api a_new]. unfold made. rewrite Eu, Ev. cbn [bind]. rewrite EN. reflexivity.
Qed.
Lemma c64_mont_separating : forall oc e, MPoints.mgroup e -> separating (m_api oc e) (MPoints.mpoint e).
Proof.
  intros oc e (W & Hm & Hr & H64 & Vgx & Vgy). pose proof (proj1 W) as HpP. destruct (ScLawProps.mont_laws e W H64) as (T & on & add & opp & zero & rep & enc & L).
  apply run_separating; [|exact (laws_eqb_iff L)]. intros P [|x y] HP.
  - destruct (MontProps.c27_mont_is_zero e P _ W HP) as (J & EJ & HJ & _). exists Identity, J. split; [exact I|]. split; [|exact HJ].
    intro regs. cbn [step m_api a_identity made]. unfold made. rewrite EJ. reflexivity.
  - pose proof HP as (_ & _ & _ & _ & _ & O). pose proof O as (Cx & Cy & _).
    destruct (WeierProps.elt_res (MCurve.c_f e) x HpP) as (u & Eu & Vu & Ru), (WeierProps.elt_res (MCurve.c_f e) y HpP) as (v & Ev & Vv & Rv).
    rewrite Z.mod_small in Ru by exact Cx. rewrite Z.mod_small in Rv by exact Cy.
    destruct (MontProps.c33_new_point e u v W Vu Vv) as [Y _]. rewrite Ru, Rv in Y. destruct (Y O) as (N & EN & HN).
    exists (New x y), N. split; [exact I|]. split; [|exact HN]. intro regs. cbn [step m_api a_new]. unfold made. rewrite Eu, Ev. cbn [bind]. rewrite EN. reflexivity.
Qed.
Lemma c64_edw_separating : forall oc e, EPoints.egroup e -> separating (e_api oc e) (EPoints.epoint e).
Proof.
  intros oc e (W & Hm & Hr & H64 & Vgx & Vgy). pose proof (proj1 W) as HpP. destruct (ScLawProps.edw_laws e W H64) as (T & on & add & opp & zero & rep & enc & L).
  apply run_separating; [|exact (laws_eqb_iff L)]. intros P [x y] HP.
  pose proof HP as (_ & _ & _ & _ & _ & _ & O). pose proof O as (Cx & Cy & _). cbn [fst snd] in Cx, Cy.
  destruct (WeierProps.elt_res (ECurve.c_f e) x HpP) as (u & Eu & Vu & Ru), (WeierProps.elt_res (ECurve.c_f e) y HpP) as (v & Ev & Vv & Rv).
  rewrite Z.mod_small in Ru by exact Cx. rewrite Z.mod_small in Rv by exact Cy.
  destruct (EdwProps.c36_new_point e u v W Vu Vv) as [Y _]. rewrite Ru, Rv in Y. destruct (Y O) as (N & EN & HN).
  exists (New x y), N. split; [exact I|]. split; [|exact HN]. intro regs. cbn [step e_api a_new]. unfold made. rewrite Eu, Ev. cbn [bind]. rewrite EN. reflexivity.
Qed.

(** outside these programs the representation shows: in the text of a point that was not normalised, in its coordinates, and in is_two_torsion *)
Lemma c64_raw_text_refuted : exists e P Q A, WPoints.wgroup e /\ WPoints.wpoint e P A /\ WPoints.wpoint e Q A
  /\ Display.wpoint_show P <> Display.wpoint_show Q.
Proof.
  exists WeierProps.E7, (WeierProps.pt7 4 6 2), (WeierProps.pt7 2 3 1), (Affine 2 3).
  split; [exact WeierProps.wgroup7|]. split; [exact WeierProps.other7|]. split; [WeierProps.in7|]. vm_compute. intro H. discriminate H.
Qed.
Lemma c64_two_torsion_refuted : exists e P Q A, MPoints.mgroup e /\ MPoints.mpoint e P A /\ MPoints.mpoint e Q A
  /\ MCurve.is_two_torsion P = true /\ MCurve.is_two_torsion Q = false.
Proof.
  exists MontProps.E19, (MontProps.pt19 0 0 1), (MontProps.pt19 0 0 3), (Affine 0 0).
  split; [exact MontProps.mgroup19|]. split; [MontProps.in19|]. split; [exact MontProps.two19|]. split; vm_compute; reflexivity.
Qed.

(** a program that looks at the sum, doubles again if it is not zero, and asks for everything there is to see *)
Definition looks (s : Z) : prog :=
  Call (Add 0 0) (fun _ => Call (IsZero 1) (fun z => match z with
    | Answer false => Call (Mul 1 s) (fun _ => Call (Normalize 2) (fun _ => Call (Encode 3 true) (fun _ => Call (Equal 2 3) (fun _ => Call (Print 0) (fun _ => Call (Decode [2; 2]) (fun _ => Call (Sub 4 0) (fun _ => Call (Encode 5 false) (fun _ => Halt))))))))
    | _ => Call (Print 0) (fun _ => Halt) end)).
Lemma looks_bytes s : prog_bytes (looks s).
Proof.
  split; [exact I|intros _]. split; [exact I|]. assert (B : Forall is_byte [2; 2]) by (repeat constructor; cbn; lia).
  intros [| | |[|]| | |]; cbn [prog_bytes]; repeat (split; [exact I || exact B|intros _]); exact I.
Qed.
Example c64_ex :
  WPoints.wgroup WeierProps.E7 /\ WPoints.wpoint WeierProps.E7 (WeierProps.pt7 4 6 2) (Affine 2 3) /\ WPoints.wpoint WeierProps.E7 (WeierProps.pt7 2 3 1) (Affine 2 3)
  /\ prog_bytes (looks 5)
  /\ run (w_api true WeierProps.E7) (looks 5) [WeierProps.pt7 4 6 2] = run (w_api true WeierProps.E7) (looks 5) [WeierProps.pt7 2 3 1]
  /\ run (w_api true WeierProps.E7) (looks 5) [WeierProps.pt7 2 3 1]
    = Seen Made (Seen (Answer false) (Seen Made (Seen Made (Seen (Bytes [2; 2]) (Seen (Answer true) (Seen (Text "
x: 2
y: 3
z: 1") (Seen Made (Seen Made (Seen (Bytes [4; 4; 5]) End)))))))))
  /\ run (w_api true WeierProps.E7) (looks 5) [WeierProps.pt7 0 3 0] = Seen Made (Seen (Answer true) (Seen (Text "
x: 0
y: 0
z: 1") End)).
Proof.
  split; [exact WeierProps.wgroup7|]. split; [exact WeierProps.other7|]. split; [WeierProps.in7|]. split; [exact (looks_bytes 5)|]. split; [vm_compute; reflexivity|]. split; vm_compute; reflexivity.
Qed.
Example c64_mont_ex :
  MPoints.mgroup MontProps.E19 /\ MPoints.mpoint MontProps.E19 (MontProps.pt19 12 2 2) (Affine 6 1)
  /\ run (m_api true MontProps.E19) (looks 3) [MontProps.pt19 12 2 2] = run (m_api true MontProps.E19) (looks 3) [MontProps.pt19 6 1 1]
  /\ run (m_api true MontProps.E19) (looks 3) [MontProps.pt19 12 2 2] <> run (m_api true MontProps.E19) (looks 3) [MontProps.pt19 7 6 1].
Proof. split; [exact MontProps.mgroup19|]. split; [exact MontProps.other19|]. split; [vm_compute; reflexivity|]. vm_compute. intro H. discriminate H. Qed.
Example c64_edw_ex :
  EPoints.egroup EdwProps.E29 /\ EPoints.epoint EdwProps.E29 (EdwProps.pt29 6 10 1 2) (3, 5)
  /\ run (e_api true EdwProps.E29) (looks 5) [EdwProps.pt29 6 10 1 2] = run (e_api true EdwProps.E29) (looks 5) [EdwProps.pt29 3 5 15 1]
  /\ run (e_api true EdwProps.E29) (looks 5) [EdwProps.pt29 6 10 1 2] <> run (e_api true EdwProps.E29) (looks 5) [EdwProps.pt29 2 22 15 1].
Proof. split; [exact EdwProps.egroup29|]. split; [exact EdwProps.other29|]. split; [vm_compute; reflexivity|]. vm_compute. intro H. discriminate H. Qed.
