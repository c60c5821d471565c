(** C70: what == decides for each type of the library, and where it is an equivalence. *)
From Coq Require Import ZArith Znumtheory Lia String Bool List.
From Verif.Spec Require Import Arith Elements Equality.
From Verif.Model Require Import Out BigInt PrimeField QuadField Scalar WCurve MCurve ECurve.
From Verif.Proofs Require Import FieldP FieldProps SmallP.
From Verif.Proofs Require WeierProps MontProps EdwProps.
Import ListNotations.
Open Scope Z_scope.

Lemma fp_eqb_iff f g : fp_eqb f g = true <-> f = g.
Proof.
  destruct f as [p], g as [q]. unfold fp_eqb. cbn. rewrite Z.eqb_eq. split; congruence.
Qed.
Lemma fpelt_eqb_iff x y : fpelt_eqb x y = true <-> x = y.
Proof.
  destruct x as [v f], y as [w g]. unfold fpelt_eqb. cbn. rewrite andb_true_iff, Z.eqb_eq, fp_eqb_iff.
  split; [intros [-> ->]; reflexivity|intro E; split; congruence].
Qed.

(** *** C70 *)
(** fields, elements, quadratic elements, scalars and curves: == holds exactly for identical values *)
Lemma c70_values : (forall f g, fp_eqb f g = true <-> f = g) /\ (forall x y, fpelt_eqb x y = true <-> x = y)
  /\ (forall f g, fp2_eqb f g = true <-> f = g) /\ (forall x y, fp2elt_eqb x y = true <-> x = y)
  /\ (forall a b, scalar_eqb a b = true <-> a = b)
  /\ (forall c d, WCurve.curve_eqb c d = true <-> c = d)
  /\ (forall c d, MCurve.curve_eqb c d = true <-> c = d)
  /\ (forall c d, ECurve.curve_eqb c d = true <-> c = d).
Proof.
  assert (F2 : forall f g, fp2_eqb f g = true <-> f = g).
  { intros [f] [g]. unfold fp2_eqb. cbn. rewrite fp_eqb_iff. split; congruence. }
  split; [exact fp_eqb_iff|]. split; [exact fpelt_eqb_iff|]. split; [exact F2|]. split; [|split; [|split; [|split]]].
  - intros [a b f] [c d g]. unfold fp2elt_eqb. cbn. rewrite !andb_true_iff, !fpelt_eqb_iff, F2.
    split; [intros [[-> ->] ->]; reflexivity|intro E; repeat split; congruence].
  - intros [k r] [l s]. unfold scalar_eqb. cbn. rewrite andb_true_iff, !Z.eqb_eq.
    split; [intros [-> ->]; reflexivity|intro E; split; congruence].
  - exact WeierProps.curve_eqb_eq.
  - exact MontProps.curve_eqb_eq.
  - exact EdwProps.curve_eqb_eq.
Qed.

Section Tuples.
  Variable p : Z.
  Hypothesis Hp : prime p.

  Lemma mul_v x y : valid p x -> valid p y -> mul x y = Ret (mkFpElt ((val x * val y) mod p) (mkFp p)).
  Proof.
    intros [Fx Rx] [Fy Ry]. unfold mul, red, mod_floor. rewrite Fx, Fy.
    unfold fp_eqb. cbn [modulus]. rewrite Z.eqb_refl. cbn [do_if_eq].
    destruct (Z.eqb_spec p 0); [lia|]. reflexivity.
  Qed.
  Lemma eqb_v a b : fpelt_eqb (mkFpElt (a mod p) (mkFp p)) (mkFpElt (b mod p) (mkFp p)) = true <-> (p | a - b).
  Proof.
    pose proof (pgt1 p Hp). rewrite fpelt_eqb_iff, divide_mod_eq by lia. split; congruence.
  Qed.
  Lemma cross_refl x z : cross p x z x z.
  Proof. exists 0. ring. Qed.
  Lemma cross_sym x1 z1 x2 z2 : cross p x1 z1 x2 z2 <-> cross p x2 z2 x1 z1.
  Proof. split; intros [k E]; exists (- k); lia. Qed.
  Lemma small_div x : 0 <= x < p -> (p | x) -> x = 0.
  Proof. intros R D. destruct (Z.eq_dec x 0); [assumption|]. apply Z.divide_pos_le in D; lia. Qed.
  Lemma cross_trans x1 z1 x2 z2 x3 z3 : ~ (p | z2) -> cross p x1 z1 x2 z2 -> cross p x2 z2 x3 z3 -> cross p x1 z1 x3 z3.
  Proof.
    intros N [k E] [l F]. unfold cross.
    assert (D : (p | z2 * (x1 * z3 - z1 * x3))).
    { exists (k * z3 + z1 * l).
      transitivity (z3 * (x1 * z2 - z1 * x2) + z1 * (x2 * z3 - z2 * x3)); [ring|]. rewrite E, F. ring. }
    destruct (prime_mult p Hp _ _ D); [contradiction|assumption].
  Qed.
  (** a middle tuple with z = 0 and a coordinate that is not 0 forces z = 0 on its neighbours *)
  Lemma cross_z0 x1 z1 x2 : 0 <= x2 < p -> 0 <= z1 < p -> x2 <> 0 -> cross p x1 z1 x2 0 -> z1 = 0.
  Proof.
    intros R1 R2 N [k E]. assert (D : (p | z1 * x2)) by (exists (- k); nia).
    destruct (prime_mult p Hp _ _ D) as [A|A]; [apply small_div; assumption|].
    exfalso. apply N, small_div; assumption.
  Qed.
  Lemma cross_00 x1 x3 : cross p x1 0 x3 0.
  Proof. exists 0. ring. Qed.
  Lemma ndiv z : 0 <= z < p -> z <> 0 -> ~ (p | z).
  Proof. intros R N D. apply N, small_div; assumption. Qed.
End Tuples.

(** Weierstrass.  On tuples over one field == never panics, is reflexive and symmetric, and compares
    the curves and the cross products.  It is transitive through Q exactly when Q is not (0,0,0). *)
Lemma c70_weier : forall p P Q, prime p -> wtuple p P -> wtuple p Q ->
  WCurve.pt_eqb P P = Ret true
  /\ (exists b, WCurve.pt_eqb P Q = Ret b /\ WCurve.pt_eqb Q P = Ret b
      /\ (b = true <-> WCurve.pe P = WCurve.pe Q
          /\ cross p (val (WCurve.px (WCurve.pc P))) (val (WCurve.pz (WCurve.pc P))) (val (WCurve.px (WCurve.pc Q))) (val (WCurve.pz (WCurve.pc Q)))
          /\ cross p (val (WCurve.py (WCurve.pc P))) (val (WCurve.pz (WCurve.pc P))) (val (WCurve.py (WCurve.pc Q))) (val (WCurve.pz (WCurve.pc Q)))))
  /\ ((forall S R, wtuple p S -> wtuple p R -> WCurve.pt_eqb S Q = Ret true -> WCurve.pt_eqb Q R = Ret true -> WCurve.pt_eqb S R = Ret true)
      <-> ~ wnull Q).
Proof.
  intros p P Q Hp VP VQ. pose proof (pgt1 p Hp) as H1.
  assert (D : forall A B, wtuple p A -> wtuple p B -> exists b, WCurve.pt_eqb A B = Ret b
      /\ (b = true <-> WCurve.pe A = WCurve.pe B
          /\ cross p (val (WCurve.px (WCurve.pc A))) (val (WCurve.pz (WCurve.pc A))) (val (WCurve.px (WCurve.pc B))) (val (WCurve.pz (WCurve.pc B)))
          /\ cross p (val (WCurve.py (WCurve.pc A))) (val (WCurve.pz (WCurve.pc A))) (val (WCurve.py (WCurve.pc B))) (val (WCurve.pz (WCurve.pc B))))).
  { intros A B (A1 & A2 & A3) (B1 & B2 & B3). unfold WCurve.pt_eqb.
    rewrite !(mul_v p) by assumption. cbn [bind]. eexists. split; [reflexivity|].
    rewrite !andb_true_iff, !(eqb_v p Hp), WeierProps.curve_eqb_eq. unfold cross. tauto. }
  assert (T : forall A B, wtuple p A -> wtuple p B -> (WCurve.pt_eqb A B = Ret true <-> WCurve.pe A = WCurve.pe B
          /\ cross p (val (WCurve.px (WCurve.pc A))) (val (WCurve.pz (WCurve.pc A))) (val (WCurve.px (WCurve.pc B))) (val (WCurve.pz (WCurve.pc B)))
          /\ cross p (val (WCurve.py (WCurve.pc A))) (val (WCurve.pz (WCurve.pc A))) (val (WCurve.py (WCurve.pc B))) (val (WCurve.pz (WCurve.pc B))))).
  { intros A B VA VB. destruct (D A B VA VB) as (b & E & I). rewrite E, <- I. split; congruence. }
  split; [|split].
  - apply T; [exact VP|exact VP|]. repeat split; apply cross_refl.
  - destruct (D P Q VP VQ) as (b & E & I). destruct (D Q P VQ VP) as (b' & E' & I').
    exists b. split; [exact E|]. split; [|exact I]. rewrite E'. f_equal. apply eq_true_iff_eq.
    rewrite I, I'. rewrite (cross_sym p (val (WCurve.px (WCurve.pc Q)))), (cross_sym p (val (WCurve.py (WCurve.pc Q)))).
    split; intros (A & B & C); (split; [symmetry; exact A|tauto]).
  - split.
    + intros Tr (X & Y & Z).
      pose (mk := fun v => WCurve.mkPoint (WCurve.pe Q) (WCurve.mkProy (mkFpElt v (mkFp p)) (mkFpElt 0 (mkFp p)) (mkFpElt 1 (mkFp p)))).
      assert (V : forall v, 0 <= v < p -> wtuple p (mk v)).
      { intros v R. unfold wtuple, mk, valid. cbn. repeat split; lia. }
      pose proof (V 0 ltac:(lia)) as V0. pose proof (V 1 ltac:(lia)) as V1.
      assert (E : WCurve.pt_eqb (mk 0) (mk 1) = Ret true).
      { apply Tr; [exact V0|exact V1| |]; (apply T; [assumption|assumption|]); rewrite X, Y, Z; cbn;
          (split; [reflexivity|]); split; exists 0; lia. }
      apply T in E; [|exact V0|exact V1]. destruct E as (_ & [k E] & _). cbn in E.
      assert (D1 : (p | 1)) by (exists (- k); lia). apply Z.divide_1_r_nonneg in D1; lia.
    + intros N S R VS VR E F. apply T in E; [|exact VS|exact VQ]. apply T in F; [|exact VQ|exact VR].
      apply T; [exact VS|exact VR|]. destruct E as (E0 & E1 & E2), F as (F0 & F1 & F2).
      split; [congruence|].
      destruct VQ as ((_ & Q1) & (_ & Q2) & (_ & Q3)), VS as (_ & _ & (_ & S3)), VR as (_ & _ & (_ & R3)).
      destruct (Z.eq_dec (val (WCurve.pz (WCurve.pc Q))) 0) as [Z|Z].
      * rewrite Z in *. apply cross_sym in F1, F2.
        assert (Zs : val (WCurve.pz (WCurve.pc S)) = 0 /\ val (WCurve.pz (WCurve.pc R)) = 0).
        { destruct (Z.eq_dec (val (WCurve.px (WCurve.pc Q))) 0) as [X|X].
          - assert (Y : val (WCurve.py (WCurve.pc Q)) <> 0) by (intro Y; apply N; repeat split; assumption).
            split; [exact (cross_z0 p Hp _ _ _ Q2 S3 Y E2)|exact (cross_z0 p Hp _ _ _ Q2 R3 Y F2)].
          - split; [exact (cross_z0 p Hp _ _ _ Q1 S3 X E1)|exact (cross_z0 p Hp _ _ _ Q1 R3 X F1)]. }
        destruct Zs as [-> ->]. split; apply cross_00.
      * pose proof (ndiv p _ Q3 Z) as ND. split; [exact (cross_trans p Hp _ _ _ _ _ _ ND E1 F1)|exact (cross_trans p Hp _ _ _ _ _ _ ND E2 F2)].
Qed.

(** Montgomery: the same *)
Lemma c70_mont : forall p P Q, prime p -> mtuple p P -> mtuple p Q ->
  MCurve.pt_eqb P P = Ret true
  /\ (exists b, MCurve.pt_eqb P Q = Ret b /\ MCurve.pt_eqb Q P = Ret b
      /\ (b = true <-> MCurve.pe P = MCurve.pe Q
          /\ cross p (val (MCurve.px (MCurve.pc P))) (val (MCurve.pz (MCurve.pc P))) (val (MCurve.px (MCurve.pc Q))) (val (MCurve.pz (MCurve.pc Q)))
          /\ cross p (val (MCurve.py (MCurve.pc P))) (val (MCurve.pz (MCurve.pc P))) (val (MCurve.py (MCurve.pc Q))) (val (MCurve.pz (MCurve.pc Q)))))
  /\ ((forall S R, mtuple p S -> mtuple p R -> MCurve.pt_eqb S Q = Ret true -> MCurve.pt_eqb Q R = Ret true -> MCurve.pt_eqb S R = Ret true)
      <-> ~ mnull Q).
Proof.
  intros p P Q Hp VP VQ. pose proof (pgt1 p Hp) as H1.
  assert (D : forall A B, mtuple p A -> mtuple p B -> exists b, MCurve.pt_eqb A B = Ret b
      /\ (b = true <-> MCurve.pe A = MCurve.pe B
          /\ cross p (val (MCurve.px (MCurve.pc A))) (val (MCurve.pz (MCurve.pc A))) (val (MCurve.px (MCurve.pc B))) (val (MCurve.pz (MCurve.pc B)))
          /\ cross p (val (MCurve.py (MCurve.pc A))) (val (MCurve.pz (MCurve.pc A))) (val (MCurve.py (MCurve.pc B))) (val (MCurve.pz (MCurve.pc B))))).
  { intros A B (A1 & A2 & A3) (B1 & B2 & B3). unfold MCurve.pt_eqb.
    rewrite !(mul_v p) by assumption. cbn [bind]. eexists. split; [reflexivity|].
    rewrite !andb_true_iff, !(eqb_v p Hp), MontProps.curve_eqb_eq. unfold cross. tauto. }
  assert (T : forall A B, mtuple p A -> mtuple p B -> (MCurve.pt_eqb A B = Ret true <-> MCurve.pe A = MCurve.pe B
          /\ cross p (val (MCurve.px (MCurve.pc A))) (val (MCurve.pz (MCurve.pc A))) (val (MCurve.px (MCurve.pc B))) (val (MCurve.pz (MCurve.pc B)))
          /\ cross p (val (MCurve.py (MCurve.pc A))) (val (MCurve.pz (MCurve.pc A))) (val (MCurve.py (MCurve.pc B))) (val (MCurve.pz (MCurve.pc B))))).
  { intros A B VA VB. destruct (D A B VA VB) as (b & E & I). rewrite E, <- I. split; congruence. }
  split; [|split].
  - apply T; [exact VP|exact VP|]. repeat split; apply cross_refl.
  - destruct (D P Q VP VQ) as (b & E & I). destruct (D Q P VQ VP) as (b' & E' & I').
    exists b. split; [exact E|]. split; [|exact I]. rewrite E'. f_equal. apply eq_true_iff_eq.
    rewrite I, I'. rewrite (cross_sym p (val (MCurve.px (MCurve.pc Q)))), (cross_sym p (val (MCurve.py (MCurve.pc Q)))).
    split; intros (A & B & C); (split; [symmetry; exact A|tauto]).
  - split.
    + intros Tr (X & Y & Z).
      pose (mk := fun v => MCurve.mkPoint (MCurve.pe Q) (MCurve.mkProy (mkFpElt v (mkFp p)) (mkFpElt 0 (mkFp p)) (mkFpElt 1 (mkFp p)))).
      assert (V : forall v, 0 <= v < p -> mtuple p (mk v)).
      { intros v R. unfold mtuple, mk, valid. cbn. repeat split; lia. }
      pose proof (V 0 ltac:(lia)) as V0. pose proof (V 1 ltac:(lia)) as V1.
      assert (E : MCurve.pt_eqb (mk 0) (mk 1) = Ret true).
      { apply Tr; [exact V0|exact V1| |]; (apply T; [assumption|assumption|]); rewrite X, Y, Z; cbn;
          (split; [reflexivity|]); split; exists 0; lia. }
      apply T in E; [|exact V0|exact V1]. destruct E as (_ & [k E] & _). cbn in E.
      assert (D1 : (p | 1)) by (exists (- k); lia). apply Z.divide_1_r_nonneg in D1; lia.
    + intros N S R VS VR E F. apply T in E; [|exact VS|exact VQ]. apply T in F; [|exact VQ|exact VR].
      apply T; [exact VS|exact VR|]. destruct E as (E0 & E1 & E2), F as (F0 & F1 & F2).
      split; [congruence|].
      destruct VQ as ((_ & Q1) & (_ & Q2) & (_ & Q3)), VS as (_ & _ & (_ & S3)), VR as (_ & _ & (_ & R3)).
      destruct (Z.eq_dec (val (MCurve.pz (MCurve.pc Q))) 0) as [Z|Z].
      * rewrite Z in *. apply cross_sym in F1, F2.
        assert (Zs : val (MCurve.pz (MCurve.pc S)) = 0 /\ val (MCurve.pz (MCurve.pc R)) = 0).
        { destruct (Z.eq_dec (val (MCurve.px (MCurve.pc Q))) 0) as [X|X].
          - assert (Y : val (MCurve.py (MCurve.pc Q)) <> 0) by (intro Y; apply N; repeat split; assumption).
            split; [exact (cross_z0 p Hp _ _ _ Q2 S3 Y E2)|exact (cross_z0 p Hp _ _ _ Q2 R3 Y F2)].
          - split; [exact (cross_z0 p Hp _ _ _ Q1 S3 X E1)|exact (cross_z0 p Hp _ _ _ Q1 R3 X F1)]. }
        destruct Zs as [-> ->]. split; apply cross_00.
      * pose proof (ndiv p _ Q3 Z) as ND. split; [exact (cross_trans p Hp _ _ _ _ _ _ ND E1 F1)|exact (cross_trans p Hp _ _ _ _ _ _ ND E2 F2)].
Qed.

(** Edwards: the same with the third cross product *)
Lemma c70_edw : forall p P Q, prime p -> etuple p P -> etuple p Q ->
  ECurve.pt_eqb P P = Ret true
  /\ (exists b, ECurve.pt_eqb P Q = Ret b /\ ECurve.pt_eqb Q P = Ret b
      /\ (b = true <-> ECurve.pe P = ECurve.pe Q
          /\ cross p (val (ECurve.px (ECurve.pc P))) (val (ECurve.pz (ECurve.pc P))) (val (ECurve.px (ECurve.pc Q))) (val (ECurve.pz (ECurve.pc Q)))
          /\ cross p (val (ECurve.py (ECurve.pc P))) (val (ECurve.pz (ECurve.pc P))) (val (ECurve.py (ECurve.pc Q))) (val (ECurve.pz (ECurve.pc Q)))
          /\ cross p (val (ECurve.ptt (ECurve.pc P))) (val (ECurve.pz (ECurve.pc P))) (val (ECurve.ptt (ECurve.pc Q))) (val (ECurve.pz (ECurve.pc Q)))))
  /\ ((forall S R, etuple p S -> etuple p R -> ECurve.pt_eqb S Q = Ret true -> ECurve.pt_eqb Q R = Ret true -> ECurve.pt_eqb S R = Ret true)
      <-> ~ enull Q).
Proof.
  intros p P Q Hp VP VQ. pose proof (pgt1 p Hp) as H1.
  assert (D : forall A B, etuple p A -> etuple p B -> exists b, ECurve.pt_eqb A B = Ret b
      /\ (b = true <-> ECurve.pe A = ECurve.pe B
          /\ cross p (val (ECurve.px (ECurve.pc A))) (val (ECurve.pz (ECurve.pc A))) (val (ECurve.px (ECurve.pc B))) (val (ECurve.pz (ECurve.pc B)))
          /\ cross p (val (ECurve.py (ECurve.pc A))) (val (ECurve.pz (ECurve.pc A))) (val (ECurve.py (ECurve.pc B))) (val (ECurve.pz (ECurve.pc B)))
          /\ cross p (val (ECurve.ptt (ECurve.pc A))) (val (ECurve.pz (ECurve.pc A))) (val (ECurve.ptt (ECurve.pc B))) (val (ECurve.pz (ECurve.pc B))))).
  { intros A B (A1 & A2 & A4 & A3) (B1 & B2 & B4 & B3). unfold ECurve.pt_eqb.
    rewrite !(mul_v p) by assumption. cbn [bind]. eexists. split; [reflexivity|].
    rewrite !andb_true_iff, !(eqb_v p Hp), EdwProps.curve_eqb_eq. unfold cross. tauto. }
  assert (T : forall A B, etuple p A -> etuple p B -> (ECurve.pt_eqb A B = Ret true <-> ECurve.pe A = ECurve.pe B
          /\ cross p (val (ECurve.px (ECurve.pc A))) (val (ECurve.pz (ECurve.pc A))) (val (ECurve.px (ECurve.pc B))) (val (ECurve.pz (ECurve.pc B)))
          /\ cross p (val (ECurve.py (ECurve.pc A))) (val (ECurve.pz (ECurve.pc A))) (val (ECurve.py (ECurve.pc B))) (val (ECurve.pz (ECurve.pc B)))
          /\ cross p (val (ECurve.ptt (ECurve.pc A))) (val (ECurve.pz (ECurve.pc A))) (val (ECurve.ptt (ECurve.pc B))) (val (ECurve.pz (ECurve.pc B))))).
  { intros A B VA VB. destruct (D A B VA VB) as (b & E & I). rewrite E, <- I. split; congruence. }
  split; [|split].
  - apply T; [exact VP|exact VP|]. repeat split; apply cross_refl.
  - destruct (D P Q VP VQ) as (b & E & I). destruct (D Q P VQ VP) as (b' & E' & I').
    exists b. split; [exact E|]. split; [|exact I]. rewrite E'. f_equal. apply eq_true_iff_eq.
    rewrite I, I'. rewrite (cross_sym p (val (ECurve.px (ECurve.pc Q)))), (cross_sym p (val (ECurve.py (ECurve.pc Q)))), (cross_sym p (val (ECurve.ptt (ECurve.pc Q)))).
    split; intros (A & B & C); (split; [symmetry; exact A|tauto]).
  - split.
    + intros Tr (X & Y & W & Z).
      pose (mk := fun v => ECurve.mkPoint (ECurve.pe Q) (ECurve.mkProy (mkFpElt v (mkFp p)) (mkFpElt 0 (mkFp p)) (mkFpElt 0 (mkFp p)) (mkFpElt 1 (mkFp p)))).
      assert (V : forall v, 0 <= v < p -> etuple p (mk v)).
      { intros v R. unfold etuple, mk, valid. cbn. repeat split; lia. }
      pose proof (V 0 ltac:(lia)) as V0. pose proof (V 1 ltac:(lia)) as V1.
      assert (E : ECurve.pt_eqb (mk 0) (mk 1) = Ret true).
      { apply Tr; [exact V0|exact V1| |]; (apply T; [assumption|assumption|]); rewrite X, Y, W, Z; cbn;
          (split; [reflexivity|]); (split; [|split]); exists 0; lia. }
      apply T in E; [|exact V0|exact V1]. destruct E as (_ & [k E] & _). cbn in E.
      assert (D1 : (p | 1)) by (exists (- k); lia). apply Z.divide_1_r_nonneg in D1; lia.
    + intros N S R VS VR E F. apply T in E; [|exact VS|exact VQ]. apply T in F; [|exact VQ|exact VR].
      apply T; [exact VS|exact VR|]. destruct E as (E0 & E1 & E2 & E4), F as (F0 & F1 & F2 & F4).
      split; [congruence|].
      destruct VQ as ((_ & Q1) & (_ & Q2) & (_ & Q4) & (_ & Q3)), VS as (_ & _ & _ & (_ & S3)), VR as (_ & _ & _ & (_ & R3)).
      destruct (Z.eq_dec (val (ECurve.pz (ECurve.pc Q))) 0) as [Z|Z].
      * rewrite Z in *. apply cross_sym in F1, F2, F4.
        assert (Zs : val (ECurve.pz (ECurve.pc S)) = 0 /\ val (ECurve.pz (ECurve.pc R)) = 0).
        { destruct (Z.eq_dec (val (ECurve.px (ECurve.pc Q))) 0) as [X|X].
          - destruct (Z.eq_dec (val (ECurve.py (ECurve.pc Q))) 0) as [Y|Y].
            + assert (W : val (ECurve.ptt (ECurve.pc Q)) <> 0) by (intro W; apply N; repeat split; assumption).
              split; [exact (cross_z0 p Hp _ _ _ Q4 S3 W E4)|exact (cross_z0 p Hp _ _ _ Q4 R3 W F4)].
            + split; [exact (cross_z0 p Hp _ _ _ Q2 S3 Y E2)|exact (cross_z0 p Hp _ _ _ Q2 R3 Y F2)].
          - split; [exact (cross_z0 p Hp _ _ _ Q1 S3 X E1)|exact (cross_z0 p Hp _ _ _ Q1 R3 X F1)]. }
        destruct Zs as [-> ->]. repeat split; apply cross_00.
      * pose proof (ndiv p _ Q3 Z) as ND. split; [exact (cross_trans p Hp _ _ _ _ _ _ ND E1 F1)|]. split; [exact (cross_trans p Hp _ _ _ _ _ _ ND E2 F2)|exact (cross_trans p Hp _ _ _ _ _ _ ND E4 F4)].
Qed.

(** Points over different fields: == does not answer false, it panics, whatever the curves are *)
Lemma c70_different_fields : forall p q, p <> q ->
  (forall P Q, wtuple p P -> wtuple q Q -> WCurve.pt_eqb P Q = Panic "elements of different fields")
  /\ (forall P Q, mtuple p P -> mtuple q Q -> MCurve.pt_eqb P Q = Panic "elements of different fields")
  /\ (forall P Q, etuple p P -> etuple q Q -> ECurve.pt_eqb P Q = Panic "elements of different fields").
Proof.
  intros p q N.
  assert (M : forall x y, valid p x -> valid q y -> mul x y = Panic "elements of different fields").
  { intros x y [Fx _] [Fy _]. unfold mul. rewrite Fx, Fy. unfold fp_eqb. cbn [modulus].
    destruct (Z.eqb_spec p q); [contradiction|reflexivity]. }
  repeat split; intros P Q VP VQ.
  - destruct VP as (A & _), VQ as (_ & _ & B). unfold WCurve.pt_eqb. rewrite (M _ _ A B). reflexivity.
  - destruct VP as (A & _), VQ as (_ & _ & B). unfold MCurve.pt_eqb. rewrite (M _ _ A B). reflexivity.
  - destruct VP as (A & _), VQ as (_ & _ & _ & B). unfold ECurve.pt_eqb. rewrite (M _ _ A B). reflexivity.
Qed.

(** two representations of (2,3), the tuples with z = 0 (all equal to each other), and (0,0,0) between two points *)
Example c70_ex : let e := WeierProps.E7 in
  let t x y z := WCurve.mkPoint e (WCurve.mkProy (mkFpElt x (mkFp 7)) (mkFpElt y (mkFp 7)) (mkFpElt z (mkFp 7))) in
  WCurve.pt_eqb (t 2 3 1) (t 4 6 2) = Ret true /\ WCurve.pt_eqb (t 2 3 1) (t 4 5 2) = Ret false
  /\ WCurve.pt_eqb (t 1 0 0) (t 0 1 0) = Ret true /\ WCurve.pt_eqb (t 1 0 0) (t 2 3 1) = Ret false
  /\ WCurve.pt_eqb (t 2 3 1) (t 0 0 0) = Ret true /\ WCurve.pt_eqb (t 0 0 0) (t 2 4 1) = Ret true
  /\ WCurve.pt_eqb (t 2 3 1) (t 2 4 1) = Ret false.
Proof. vm_compute. repeat split. Qed.
