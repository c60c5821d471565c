(** C52: the Display texts, and reading a quadratic-field element from text. *)
From Coq Require Import ZArith Lia String Ascii Bool List.
From Verif.Math Require Import Zp.
From Verif.Spec Require Import Arith Text.
From Verif.Model Require Import Out BigInt PrimeField QuadField Scalar Display.
From Verif.Model Require WCurve MCurve ECurve.
From Verif.Model Require Import Instances.
From Verif.Proofs Require Import FieldP FieldProps BytesP SerialProps QuadProps TextP.
Import ListNotations.
Open Scope Z_scope.

Ltac nodig := intros (d0 & E0 & L0); vm_compute in E0; try discriminate E0; injection E0 as <-; lia.
Lemma nl_nodig : ~ is_digit (ascii_of_nat 10). Proof. nodig. Qed.
Lemma par_nodig : ~ is_digit ")". Proof. nodig. Qed.
Lemma plus_nodig : ~ is_digit "+". Proof. nodig. Qed.
Lemma comma_nodig : ~ is_digit ",". Proof. nodig. Qed.
Lemma nl_app s : (NL ++ s)%string = String (ascii_of_nat 10) s. Proof. reflexivity. Qed.
Lemma sapp_nil s : (s ++ "")%string = s.
Proof. induction s as [|c s IH]; cbn; [reflexivity|]. rewrite IH. reflexivity. Qed.

(** the decimal text of a number exists, is unique, and names one number only *)
Lemma c52_decimal : forall n, 0 <= n ->
  exists s, decimal s n /\ (forall t, decimal t n -> t = s) /\ (forall m, decimal s m -> m = n).
Proof.
  intros n H. exists (show n). split; [apply show_decimal, H|]. split; [intros t; apply decimal_show|].
  intros m [M _]. apply (numeral_fun (show n)); [exact M|apply show_numeral, H].
Qed.

(** fields print their modulus *)
Lemma c52_fields : forall p, 0 <= p -> exists s, decimal s p
  /\ fp_show (fp_new p) = ("GF(" ++ s ++ ")")%string /\ fp2_show (fp2_new p) = ("GF(" ++ s ++ ")^2")%string.
Proof.
  intros p H. exists (show p). split; [apply show_decimal, H|]. split; [reflexivity|].
  unfold fp2_show, fp_show. cbn [base fp2_new modulus fp_new]. rewrite !sapp_assoc. reflexivity.
Qed.
(** and only fields with the same modulus print alike *)
Lemma c52_fields_injective : forall p q, 0 <= p -> 0 <= q ->
  (fp_show (fp_new p) = fp_show (fp_new q) -> fp_eqb (fp_new p) (fp_new q) = true)
  /\ (fp2_show (fp2_new p) = fp2_show (fp2_new q) -> fp2_eqb (fp2_new p) (fp2_new q) = true)
  /\ fp_show (fp_new p) <> fp2_show (fp2_new q).
Proof.
  intros p q Hp Hq.
  assert (G : forall u v, ("GF(" ++ show p ++ String ")" u = "GF(" ++ show q ++ String ")" v)%string -> p = q /\ u = v).
  { intros u v E. apply app_inv_l in E.
    apply dig_split in E; [|exact par_nodig|apply show_alldig, Hp|apply show_alldig, Hq].
    destruct E as [E ->]. split; [apply show_inj; assumption|reflexivity]. }
  assert (F2 : forall p, fp2_show (fp2_new p) = ("GF(" ++ show p ++ String ")" "^2")%string).
  { intro. unfold fp2_show, fp_show. cbn [base fp2_new modulus fp_new]. rewrite !sapp_assoc. reflexivity. }
  rewrite !F2. split; [|split].
  - intro E. apply G in E. destruct E as [-> _]. apply Z.eqb_refl.
  - intro E. apply G in E. destruct E as [-> _]. apply Z.eqb_refl.
  - intro E. apply (G "" "^2")%string in E. destruct E as [_ E]. discriminate E.
Qed.

(** an element prints its residue in decimal; within one field the text tells it *)
Lemma c52_elements : forall p x, valid p x -> exists s, elt_show x = Ret s /\ decimal s (val x)
  /\ from_str (fp_new p) s = Ret x.
Proof.
  intros p x V. exists (show (val x)). split; [apply (elt_show_valid p), V|].
  split; [apply show_decimal, (valid_nonneg p), V|].
  destruct (c13_display_round_trip p x V) as (s & E & _ & R). rewrite (elt_show_valid p x V) in E. injection E as <-. exact R.
Qed.
Lemma elt_show_inj p x y : valid p x -> valid p y -> show (val x) = show (val y) -> x = y.
Proof.
  intros V W E. apply show_inj in E; [|apply (valid_nonneg p), V|apply (valid_nonneg p), W].
  destruct x as [vx fx], y as [vy fy]. destruct V as [F1 _], W as [F2 _]. cbn in *. congruence.
Qed.
Lemma c52_elements_injective : forall p x y, valid p x -> valid p y -> elt_show x = elt_show y -> x = y.
Proof.
  intros p x y V W E. rewrite (elt_show_valid p x V), (elt_show_valid p y W) in E. injection E as E.
  exact (elt_show_inj p x y V W E).
Qed.
(** the field is not in the text: equal texts do not mean equal elements *)
Lemma c52_elements_of_two_fields_refuted : forall p q, 1 < p -> 1 < q -> p <> q ->
  exists x y, valid p x /\ valid q y /\ elt_show x = Ret "1"%string /\ elt_show y = Ret "1"%string
    /\ fpelt_eqb x y = false.
Proof.
  intros p q Hp Hq N. exists (mkFpElt 1 (fp_new p)), (mkFpElt 1 (fp_new q)).
  assert (V : forall r, 1 < r -> valid r (mkFpElt 1 (fp_new r))) by (intros r Hr; split; [reflexivity|cbn; lia]).
  split; [apply V, Hp|]. split; [apply V, Hq|].
  rewrite (elt_show_valid p _ (V p Hp)), (elt_show_valid q _ (V q Hq)). split; [reflexivity|]. split; [reflexivity|].
  apply c05_eq_across_fields. exact N.
Qed.

(** *** reading a quadratic element *)
Fixpoint nocomma (s : string) : Prop :=
  match s with EmptyString => True | String c s' => c <> ","%char /\ nocomma s' end.
Lemma nocomma_app a b : nocomma (a ++ b) <-> nocomma a /\ nocomma b.
Proof. induction a as [|c a IH]; cbn; [tauto|]. rewrite IH. tauto. Qed.
Lemma split_comma_app l r : nocomma l -> split_comma (l ++ String "," r) = Some (l, r).
Proof.
  induction l as [|c l IH]; intro N; cbn; [reflexivity|]. destruct N as [N1 N2].
  destruct (Ascii.eqb_spec c ","); [contradiction|]. rewrite (IH N2). reflexivity.
Qed.
Lemma split_comma_some s l r : split_comma s = Some (l, r) -> s = (l ++ String "," r)%string /\ nocomma l.
Proof.
  revert l. induction s as [|c s IH]; intros l; cbn; [discriminate|].
  destruct (Ascii.eqb_spec c ",") as [->|N]; [intro E; injection E as <- <-; split; [reflexivity|exact I]|].
  destruct (split_comma s) as [[l' r']|] eqn:E; [|discriminate]. intro F. injection F as <- <-.
  destruct (IH l' eq_refl) as [-> H]. split; [reflexivity|]. split; assumption.
Qed.
Lemma split_comma_none s : nocomma s -> split_comma s = None.
Proof.
  induction s as [|c s IH]; intro N; cbn; [reflexivity|]. destruct N as [N1 N2].
  destruct (Ascii.eqb_spec c ","); [contradiction|]. rewrite (IH N2). reflexivity.
Qed.
Lemma digit_not_comma c d : digit_of c = Some d -> c <> ","%char.
Proof. intros E ->. discriminate E. Qed.
Lemma body_nocomma r s n : body r s n -> nocomma s.
Proof.
  induction 1 as [c d H1 H2|s n c d B IH H1 H2|s n B IH]; rewrite ?nocomma_app; cbn;
    repeat split; try assumption; try (eapply digit_not_comma; eassumption); discriminate.
Qed.
Lemma signed_nocomma r s n : signed r s n -> nocomma s.
Proof. destruct 1 as [s n B|s n B|s n B]; apply body_nocomma in B; cbn; repeat split; try assumption; discriminate. Qed.
Lemma literal_nocomma s n : literal s n -> nocomma s.
Proof.
  assert (P : forall r pre, radix_text r pre -> nocomma pre).
  { intros r pre R. unfold radix_text in R. decompose [or and] R; subst; cbn; repeat split; discriminate. }
  destruct 1 as [|r pre s n R S|r pre s n R S]; [exact I| |]; apply signed_nocomma in S; apply P in R;
    rewrite ?nocomma_app; cbn; rewrite ?nocomma_app; repeat split; try assumption; discriminate.
Qed.

(** f.from("l,r") of a quadratic field: both halves are number literals, the first is the
    real part; every other text panics *)
Lemma c52_quadratic_reading : forall p s, 0 < p ->
  (forall l r a b, s = (l ++ "," ++ r)%string -> literal l a -> literal r b ->
     exists x, from_str2 (fp2_new p) s = Ret x /\ valid2 p x
       /\ residue p a (val (re x)) /\ residue p b (val (im x)))
  /\ ((forall l r a b, s = (l ++ "," ++ r)%string -> ~ (literal l a /\ literal r b)) ->
      exists msg, from_str2 (fp2_new p) s = Panic msg).
Proof.
  intros p s Hp. split.
  - intros l r a b -> La Lb. unfold from_str2. change ("," ++ r)%string with (String "," r).
    rewrite split_comma_app by (eapply literal_nocomma; eassumption). cbn [base fp2_new].
    rewrite (from_str_iff p l a ltac:(lia) La), (from_str_iff p r b ltac:(lia) Lb). cbn [bind].
    exists (ge p (of_Z p a) (of_Z p b)). split; [reflexivity|]. split; [apply valid2_ge, Hp|].
    split; apply mod_residue, Hp.
  - intro N. unfold from_str2. destruct (split_comma s) as [[l r]|] eqn:E.
    + apply split_comma_some in E. destruct E as [-> C]. cbn [base fp2_new].
      destruct (from_str (fp_new p) l) as [x|m] eqn:E1; cbn [bind]; [|eexists; reflexivity].
      destruct (from_str (fp_new p) r) as [y|m] eqn:E2; cbn [bind]; [|eexists; reflexivity].
      apply from_str_only in E1; [|lia]. apply from_str_only in E2; [|lia].
      destruct E1 as [a A], E2 as [b B]. destruct (N l r a b eq_refl). auto.
    + cbn [base fp2_new]. destruct (from_str (fp_new p) s); cbn [bind]; eexists; reflexivity.
Qed.

(** a quadratic element prints "re+i*im"; with a comma in place of "+i*" it can be read back *)
Lemma c52_quadratic_text : forall p x, valid2 p x ->
  exists a b, decimal a (val (re x)) /\ decimal b (val (im x))
    /\ elt2_show x = Ret (a ++ "+i*" ++ b)%string /\ from_str2 (fp2_new p) (a ++ "," ++ b)%string = Ret x.
Proof.
  intros p x (F & Va & Vb). exists (show (val (re x))), (show (val (im x))).
  pose proof (valid_nonneg p _ Va). pose proof (valid_nonneg p _ Vb).
  split; [apply show_decimal; assumption|]. split; [apply show_decimal; assumption|].
  unfold elt2_show. rewrite (elt_show_valid p _ Va), (elt_show_valid p _ Vb). split; [reflexivity|].
  unfold from_str2. change ("," ++ show (val (im x)))%string with (String "," (show (val (im x)))).
  assert (L : forall n, 0 <= n -> literal (show n) n).
  { intros n Hn. apply (literal_pos 10 "" (show n) n); [left; auto|]. apply signed_none, numeral_body, show_numeral, Hn. }
  rewrite split_comma_app by (eapply literal_nocomma, L; assumption). cbn [base fp2_new].
  assert (R : forall y, valid p y -> from_str (fp_new p) (show (val y)) = Ret y).
  { intros y V. destruct (c52_elements p y V) as (s & E & _ & R). rewrite (elt_show_valid p y V) in E. injection E as <-. exact R. }
  rewrite (R _ Va), (R _ Vb). cbn [bind]. destruct x as [u v G]. cbn in *. subst G. reflexivity.
Qed.
Lemma c52_quadratic_text_injective : forall p x y, valid2 p x -> valid2 p y -> elt2_show x = elt2_show y -> x = y.
Proof.
  intros p x y (F & Va & Vb) (G & Wa & Wb). unfold elt2_show.
  rewrite (elt_show_valid p _ Va), (elt_show_valid p _ Vb), (elt_show_valid p _ Wa), (elt_show_valid p _ Wb).
  cbn [bind]. intro E. injection E as E.
  apply (dig_split "+") in E; [|exact plus_nodig|apply show_alldig, (valid_nonneg p); assumption|apply show_alldig, (valid_nonneg p); assumption].
  destruct E as [E1 E2]. injection E2 as E2.
  apply (elt_show_inj p _ _ Va Wa) in E1. apply (elt_show_inj p _ _ Vb Wb) in E2.
  destruct x, y. cbn in *. congruence.
Qed.
(** "the printed text reads back" fails for every quadratic element: from() panics on it *)
Lemma c52_quadratic_text_unreadable_refuted : forall p x, valid2 p x ->
  exists s msg, elt2_show x = Ret s /\ from_str2 (fp2_new p) s = Panic msg.
Proof.
  intros p x (F & Va & Vb). unfold elt2_show. rewrite (elt_show_valid p _ Va), (elt_show_valid p _ Vb). cbn [bind].
  set (s := (show (val (re x)) ++ "+i*" ++ show (val (im x)))%string). exists s.
  unfold from_str2. assert (split_comma s = None) as ->.
  { apply split_comma_none. unfold s.
    assert (D : forall n, 0 <= n -> nocomma (show n)).
    { intros n Hn. apply (body_nocomma 10 _ n), numeral_body, show_numeral, Hn. }
    rewrite !nocomma_app. cbn. pose proof (D _ (valid_nonneg p _ Va)). pose proof (D _ (valid_nonneg p _ Vb)).
    repeat split; try assumption; discriminate. }
  destruct (from_str (base (fp2_new p)) s); cbn [bind]; eexists; split; reflexivity.
Qed.

(** *** scalars *)
Lemma c52_scalars : forall k r, 0 < r -> exists s, scalar_new k r = Ret s /\ decimal (scalar_show s) (k mod r).
Proof.
  intros k r H. unfold scalar_new, mod_floor. destruct (Z.eqb_spec r 0); [lia|]. cbn [bind].
  eexists. split; [reflexivity|]. apply show_decimal. pose proof (Z.mod_pos_bound k r H). cbn. lia.
Qed.
(** scalar equality and the text: same group order, same text, same scalar *)
Lemma c52_scalars_injective : forall k l r s t, 0 < r -> scalar_new k r = Ret s -> scalar_new l r = Ret t ->
  (scalar_show s = scalar_show t <-> k mod r = l mod r) /\ (scalar_eqb s t = true <-> k mod r = l mod r).
Proof.
  intros k l r s t H. unfold scalar_new, mod_floor. destruct (Z.eqb_spec r 0); [lia|]. cbn [bind].
  intros E1 E2. injection E1 as <-. injection E2 as <-. unfold scalar_show, scalar_eqb. cbn [sk sr].
  pose proof (Z.mod_pos_bound k r H). pose proof (Z.mod_pos_bound l r H).
  rewrite Z.eqb_refl, andb_true_r, Z.eqb_eq. split; [|reflexivity].
  split; [apply show_inj; lia|intros ->; reflexivity].
Qed.
(** scalars of groups of different order are never equal, whatever they print *)
Lemma c52_scalars_of_two_groups : forall k l r q s t, 0 < r -> 0 < q -> r <> q ->
  scalar_new k r = Ret s -> scalar_new l q = Ret t -> scalar_eqb s t = false.
Proof.
  intros k l r q s t Hr Hq N. unfold scalar_new, mod_floor.
  destruct (Z.eqb_spec r 0); [lia|]. destruct (Z.eqb_spec q 0); [lia|]. cbn [bind].
  intros E1 E2. injection E1 as <-. injection E2 as <-. unfold scalar_eqb. cbn [sk sr].
  apply andb_false_iff. right. apply Z.eqb_neq, N.
Qed.

(** *** points and curves *)
Lemma tri_inj p x y z x' y' z' : valid p x -> valid p y -> valid p z -> valid p x' -> valid p y' -> valid p z' ->
  (NL ++ "x: " ++ show (val x) ++ NL ++ "y: " ++ show (val y) ++ NL ++ "z: " ++ show (val z))%string
  = (NL ++ "x: " ++ show (val x') ++ NL ++ "y: " ++ show (val y') ++ NL ++ "z: " ++ show (val z'))%string ->
  x = x' /\ y = y' /\ z = z'.
Proof.
  intros V1 V2 V3 W1 W2 W3 E. rewrite !nl_app in E. cbn [append] in E. injection E as E.
  apply dig_split in E; [|exact nl_nodig|apply show_alldig, (valid_nonneg p); assumption|apply show_alldig, (valid_nonneg p); assumption].
  destruct E as [E1 E]. injection E as E.
  apply dig_split in E; [|exact nl_nodig|apply show_alldig, (valid_nonneg p); assumption|apply show_alldig, (valid_nonneg p); assumption].
  destruct E as [E2 E3]. injection E3 as E3.
  split; [|split]; eapply elt_show_inj; eassumption.
Qed.
Lemma quad_inj p x y t z x' y' t' z' : valid p x -> valid p y -> valid p t -> valid p z ->
  valid p x' -> valid p y' -> valid p t' -> valid p z' ->
  (NL ++ "x: " ++ show (val x) ++ NL ++ "y: " ++ show (val y) ++ NL ++ "t: " ++ show (val t) ++ NL ++ "z: " ++ show (val z))%string
  = (NL ++ "x: " ++ show (val x') ++ NL ++ "y: " ++ show (val y') ++ NL ++ "t: " ++ show (val t') ++ NL ++ "z: " ++ show (val z'))%string ->
  x = x' /\ y = y' /\ t = t' /\ z = z'.
Proof.
  intros V1 V2 V3 V4 W1 W2 W3 W4 E. rewrite !nl_app in E. cbn [append] in E. injection E as E.
  apply dig_split in E; [|exact nl_nodig|apply show_alldig, (valid_nonneg p); assumption|apply show_alldig, (valid_nonneg p); assumption].
  destruct E as [E1 E]. injection E as E.
  apply dig_split in E; [|exact nl_nodig|apply show_alldig, (valid_nonneg p); assumption|apply show_alldig, (valid_nonneg p); assumption].
  destruct E as [E2 E]. injection E as E.
  apply dig_split in E; [|exact nl_nodig|apply show_alldig, (valid_nonneg p); assumption|apply show_alldig, (valid_nonneg p); assumption].
  destruct E as [E3 E4]. injection E4 as E4.
  repeat split; eapply elt_show_inj; eassumption.
Qed.
Lemma two_inj p l l2 a b a' b' : valid p a -> valid p b -> valid p a' -> valid p b' ->
  (l ++ NL ++ "a: " ++ show (val a) ++ NL ++ String l2 (": " ++ show (val b)))%string
  = (l ++ NL ++ "a: " ++ show (val a') ++ NL ++ String l2 (": " ++ show (val b')))%string ->
  a = a' /\ b = b'.
Proof.
  intros V1 V2 W1 W2 E. apply app_inv_l in E. rewrite !nl_app in E. cbn [append] in E. injection E as E.
  apply dig_split in E; [|exact nl_nodig|apply show_alldig, (valid_nonneg p); assumption|apply show_alldig, (valid_nonneg p); assumption].
  destruct E as [E1 E]. injection E as E2. split; eapply elt_show_inj; eassumption.
Qed.

(** points print their projective coordinates in decimal *)
Lemma c52_points : forall p,
  (forall P : WCurve.Point, valid p (WCurve.px (WCurve.pc P)) -> valid p (WCurve.py (WCurve.pc P)) ->
     valid p (WCurve.pz (WCurve.pc P)) -> exists x y z, decimal x (val (WCurve.px (WCurve.pc P)))
     /\ decimal y (val (WCurve.py (WCurve.pc P))) /\ decimal z (val (WCurve.pz (WCurve.pc P)))
     /\ wpoint_show P = Ret (NL ++ "x: " ++ x ++ NL ++ "y: " ++ y ++ NL ++ "z: " ++ z)%string)
  /\ (forall P : MCurve.Point, valid p (MCurve.px (MCurve.pc P)) -> valid p (MCurve.py (MCurve.pc P)) ->
     valid p (MCurve.pz (MCurve.pc P)) -> exists x y z, decimal x (val (MCurve.px (MCurve.pc P)))
     /\ decimal y (val (MCurve.py (MCurve.pc P))) /\ decimal z (val (MCurve.pz (MCurve.pc P)))
     /\ mpoint_show P = Ret (NL ++ "x: " ++ x ++ NL ++ "y: " ++ y ++ NL ++ "z: " ++ z)%string)
  /\ (forall P : ECurve.Point, valid p (ECurve.px (ECurve.pc P)) -> valid p (ECurve.py (ECurve.pc P)) ->
     valid p (ECurve.ptt (ECurve.pc P)) -> valid p (ECurve.pz (ECurve.pc P)) ->
     exists x y t z, decimal x (val (ECurve.px (ECurve.pc P))) /\ decimal y (val (ECurve.py (ECurve.pc P)))
     /\ decimal t (val (ECurve.ptt (ECurve.pc P))) /\ decimal z (val (ECurve.pz (ECurve.pc P)))
     /\ epoint_show P = Ret (NL ++ "x: " ++ x ++ NL ++ "y: " ++ y ++ NL ++ "t: " ++ t ++ NL ++ "z: " ++ z)%string).
Proof.
  assert (D : forall p x, valid p x -> decimal (show (val x)) (val x))
    by (intros p x V; apply show_decimal, (valid_nonneg p), V).
  intro p. split; [|split].
  - intros P V1 V2 V3. do 3 eexists. split; [exact (D p _ V1)|]. split; [exact (D p _ V2)|]. split; [exact (D p _ V3)|].
    unfold wpoint_show. rewrite (elt_show_valid p _ V1), (elt_show_valid p _ V2), (elt_show_valid p _ V3). reflexivity.
  - intros P V1 V2 V3. do 3 eexists. split; [exact (D p _ V1)|]. split; [exact (D p _ V2)|]. split; [exact (D p _ V3)|].
    unfold mpoint_show. rewrite (elt_show_valid p _ V1), (elt_show_valid p _ V2), (elt_show_valid p _ V3). reflexivity.
  - intros P V1 V2 V3 V4. do 4 eexists. split; [exact (D p _ V1)|]. split; [exact (D p _ V2)|]. split; [exact (D p _ V3)|].
    split; [exact (D p _ V4)|].
    unfold epoint_show. rewrite (elt_show_valid p _ V1), (elt_show_valid p _ V2), (elt_show_valid p _ V3), (elt_show_valid p _ V4). reflexivity.
Qed.
(** on one curve the text tells the coordinates *)
Lemma c52_points_injective : forall p,
  (forall P Q : WCurve.Point, WCurve.pe P = WCurve.pe Q ->
     valid p (WCurve.px (WCurve.pc P)) -> valid p (WCurve.py (WCurve.pc P)) -> valid p (WCurve.pz (WCurve.pc P)) ->
     valid p (WCurve.px (WCurve.pc Q)) -> valid p (WCurve.py (WCurve.pc Q)) -> valid p (WCurve.pz (WCurve.pc Q)) ->
     wpoint_show P = wpoint_show Q -> P = Q)
  /\ (forall P Q : MCurve.Point, MCurve.pe P = MCurve.pe Q ->
     valid p (MCurve.px (MCurve.pc P)) -> valid p (MCurve.py (MCurve.pc P)) -> valid p (MCurve.pz (MCurve.pc P)) ->
     valid p (MCurve.px (MCurve.pc Q)) -> valid p (MCurve.py (MCurve.pc Q)) -> valid p (MCurve.pz (MCurve.pc Q)) ->
     mpoint_show P = mpoint_show Q -> P = Q)
  /\ (forall P Q : ECurve.Point, ECurve.pe P = ECurve.pe Q ->
     valid p (ECurve.px (ECurve.pc P)) -> valid p (ECurve.py (ECurve.pc P)) -> valid p (ECurve.ptt (ECurve.pc P)) ->
     valid p (ECurve.pz (ECurve.pc P)) ->
     valid p (ECurve.px (ECurve.pc Q)) -> valid p (ECurve.py (ECurve.pc Q)) -> valid p (ECurve.ptt (ECurve.pc Q)) ->
     valid p (ECurve.pz (ECurve.pc Q)) ->
     epoint_show P = epoint_show Q -> P = Q).
Proof.
  intro p. split; [|split].
  - intros P Q Ee V1 V2 V3 W1 W2 W3. unfold wpoint_show.
    rewrite (elt_show_valid p _ V1), (elt_show_valid p _ V2), (elt_show_valid p _ V3).
    rewrite (elt_show_valid p _ W1), (elt_show_valid p _ W2), (elt_show_valid p _ W3). cbn [bind].
    intro E. assert (E' := f_equal (fun o => match o with Ret s => s | Panic _ => ""%string end) E).
    apply (tri_inj p) in E'; try assumption. destruct E' as (E1 & E2 & E3).
    destruct P as [e [x y z]], Q as [e' [x' y' z']]. cbn in *. congruence.
  - intros P Q Ee V1 V2 V3 W1 W2 W3. unfold mpoint_show.
    rewrite (elt_show_valid p _ V1), (elt_show_valid p _ V2), (elt_show_valid p _ V3).
    rewrite (elt_show_valid p _ W1), (elt_show_valid p _ W2), (elt_show_valid p _ W3). cbn [bind].
    intro E. assert (E' := f_equal (fun o => match o with Ret s => s | Panic _ => ""%string end) E).
    apply (tri_inj p) in E'; try assumption. destruct E' as (E1 & E2 & E3).
    destruct P as [e [x y z]], Q as [e' [x' y' z']]. cbn in *. congruence.
  - intros P Q Ee V1 V2 V3 V4 W1 W2 W3 W4. unfold epoint_show.
    rewrite (elt_show_valid p _ V1), (elt_show_valid p _ V2), (elt_show_valid p _ V3), (elt_show_valid p _ V4).
    rewrite (elt_show_valid p _ W1), (elt_show_valid p _ W2), (elt_show_valid p _ W3), (elt_show_valid p _ W4). cbn [bind].
    intro E. assert (E' := f_equal (fun o => match o with Ret s => s | Panic _ => ""%string end) E).
    apply (quad_inj p) in E'; try assumption. destruct E' as (E1 & E2 & E3 & E4).
    destruct P as [e [x y t z]], Q as [e' [x' y' t' z']]. cbn in *. congruence.
Qed.
(** but the text is not a function of the point: (1:2:1) and (2:4:2) on y^2 = x^3 + 3 over
    GF(7), equal for ==, print differently *)
Lemma c52_equal_points_print_differently_refuted : exists P Q s t,
  WCurve.pe P = WCurve.pe Q /\ WCurve.is_on_curve (WCurve.pe P) (WCurve.pc P) = Ret true
  /\ WCurve.is_on_curve (WCurve.pe P) (WCurve.pc Q) = Ret true /\ WCurve.pt_eqb P Q = Ret true
  /\ wpoint_show P = Ret s /\ wpoint_show Q = Ret t /\ s <> t.
Proof.
  set (F := fp_new 7). set (k := fun z => mkFpElt z F).
  set (e := WCurve.mkCurve F (k 0) (k 3) 13 (k 1) (k 2) 1).
  exists (WCurve.mkPoint e (WCurve.mkProy (k 1) (k 2) (k 1))), (WCurve.mkPoint e (WCurve.mkProy (k 2) (k 4) (k 2))).
  do 2 eexists. repeat split; try reflexivity. vm_compute. discriminate.
Qed.

(** curves print their two coefficients *)
Lemma c52_curves : forall p,
  (forall e : WCurve.Curve, valid p (WCurve.c_a e) -> valid p (WCurve.c_b e) ->
     exists a b, decimal a (val (WCurve.c_a e)) /\ decimal b (val (WCurve.c_b e))
     /\ wcurve_show e = Ret ("Weierstrass Curve y^2=x^3+ax+b" ++ NL ++ "a: " ++ a ++ NL ++ "b: " ++ b)%string)
  /\ (forall e : MCurve.Curve, valid p (MCurve.c_a e) -> valid p (MCurve.c_b e) ->
     exists a b, decimal a (val (MCurve.c_a e)) /\ decimal b (val (MCurve.c_b e))
     /\ mcurve_show e = Ret ("Montgomery Curve by^2=x^3+ax^2+x" ++ NL ++ "a: " ++ a ++ NL ++ "b: " ++ b)%string)
  /\ (forall e : ECurve.Curve, valid p (ECurve.c_a e) -> valid p (ECurve.c_d e) ->
     exists a d, decimal a (val (ECurve.c_a e)) /\ decimal d (val (ECurve.c_d e))
     /\ ecurve_show e = Ret ("Twisted Edwards Curve ax^2+y^2=1+dx^2y^2" ++ NL ++ "a: " ++ a ++ NL ++ "d: " ++ d)%string).
Proof.
  assert (D : forall p x, valid p x -> decimal (show (val x)) (val x))
    by (intros p x V; apply show_decimal, (valid_nonneg p), V).
  intro p. split; [|split]; intros e V1 V2; do 2 eexists; (split; [exact (D p _ V1)|]); (split; [exact (D p _ V2)|]);
  [unfold wcurve_show|unfold mcurve_show|unfold ecurve_show];
  rewrite (elt_show_valid p _ V1), (elt_show_valid p _ V2); reflexivity.
Qed.
(** over one field, curves with the same text have the same equation *)
Lemma c52_curves_injective : forall p,
  (forall e f : WCurve.Curve, valid p (WCurve.c_a e) -> valid p (WCurve.c_b e) -> valid p (WCurve.c_a f) -> valid p (WCurve.c_b f) ->
     wcurve_show e = wcurve_show f -> WCurve.c_a e = WCurve.c_a f /\ WCurve.c_b e = WCurve.c_b f)
  /\ (forall e f : MCurve.Curve, valid p (MCurve.c_a e) -> valid p (MCurve.c_b e) -> valid p (MCurve.c_a f) -> valid p (MCurve.c_b f) ->
     mcurve_show e = mcurve_show f -> MCurve.c_a e = MCurve.c_a f /\ MCurve.c_b e = MCurve.c_b f)
  /\ (forall e f : ECurve.Curve, valid p (ECurve.c_a e) -> valid p (ECurve.c_d e) -> valid p (ECurve.c_a f) -> valid p (ECurve.c_d f) ->
     ecurve_show e = ecurve_show f -> ECurve.c_a e = ECurve.c_a f /\ ECurve.c_d e = ECurve.c_d f).
Proof.
  intro p. split; [|split]; intros e f V1 V2 W1 W2;
  [unfold wcurve_show|unfold mcurve_show|unfold ecurve_show];
  rewrite (elt_show_valid p _ V1), (elt_show_valid p _ V2), (elt_show_valid p _ W1), (elt_show_valid p _ W2); cbn [bind]; intro E;
  assert (E' := f_equal (fun o => match o with Ret s => s | Panic _ => ""%string end) E); clear E.
  - exact (two_inj p _ "b" _ _ _ _ V1 V2 W1 W2 E').
  - exact (two_inj p _ "b" _ _ _ _ V1 V2 W1 W2 E').
  - exact (two_inj p _ "d" _ _ _ _ V1 V2 W1 W2 E').
Qed.
(** the text leaves out field, order, generator and cofactor: unequal curves print alike *)
Lemma c52_unequal_curves_print_alike_refuted : forall p q, 1 < p -> 1 < q -> p <> q ->
  exists (e f : WCurve.Curve) s, WCurve.c_f e = fp_new p /\ WCurve.c_f f = fp_new q
    /\ valid p (WCurve.c_a e) /\ valid p (WCurve.c_b e) /\ valid q (WCurve.c_a f) /\ valid q (WCurve.c_b f)
    /\ wcurve_show e = Ret s /\ wcurve_show f = Ret s /\ WCurve.curve_eqb e f = false.
Proof.
  intros p q Hp Hq N. set (k := fun p z => mkFpElt z (fp_new p)).
  set (e := fun p => WCurve.mkCurve (fp_new p) (k p 0) (k p 1) 1 (k p 0) (k p 1) 1).
  assert (V : forall p z, 1 < p -> 0 <= z <= 1 -> valid p (k p z)) by (intros r z Hr Hz; split; [reflexivity|cbn; lia]).
  assert (S : forall p, 1 < p -> exists s, wcurve_show (e p) = Ret s /\
     s = ("Weierstrass Curve y^2=x^3+ax+b" ++ NL ++ "a: 0" ++ NL ++ "b: 1")%string).
  { intros r Hr. unfold wcurve_show. cbn [e WCurve.c_a WCurve.c_b].
    rewrite (elt_show_valid r _ (V r 0 Hr ltac:(lia))), (elt_show_valid r _ (V r 1 Hr ltac:(lia))).
    cbn [bind]. eexists. split; reflexivity. }
  destruct (S p Hp) as (s & E1 & ->), (S q Hq) as (t & E2 & ->).
  exists (e p), (e q). eexists. do 2 (split; [reflexivity|]).
  do 4 (split; [apply V; lia|]). split; [exact E1|]. split; [exact E2|].
  unfold WCurve.curve_eqb. cbn [e WCurve.c_f fp_eqb modulus fp_new].
  replace (fp_eqb (fp_new p) (fp_new q)) with false by (symmetry; apply Z.eqb_neq, N). reflexivity.
Qed.

(** the identifiers of the shipped curves print different names *)
Lemma c52_names : 
  let names := (map wid_show [P256_PARAMS; P384_PARAMS; P521_PARAMS; SECP256K1_PARAMS; SECP256K1_3ISO_PARAMS;
                             BLS12381G1_PARAMS; BLS12381G1_11ISO_PARAMS]
    ++ map mid_show [CURVE25519_PARAMS; CURVE448_PARAMS] ++ map eid_show [EDWARDS25519_PARAMS; EDWARDS448_PARAMS])%list in
  names = ["P256"; "P384"; "P521"; "secp256k1"; "secp256k1_3iso"; "bls12381_g1"; "bls12381_g1_11iso";
           "curve25519"; "curve448"; "edwards25519"; "edwards448"]%string /\ NoDup names.
Proof.
  cbv zeta. split; [reflexivity|]. vm_compute.
  repeat (constructor; [cbn; intro H; decompose [or] H; (discriminate || contradiction)|]). constructor.
Qed.

Example c52_ex :
  let x := mkFp2Elt (mkFpElt 12 (mkFp 103)) (mkFpElt 100 (mkFp 103)) (mkFp2 (mkFp 103)) in
  valid2 103 x /\ elt2_show x = Ret "12+i*100"%string /\ fp2_show (fld2 x) = "GF(103)^2"%string
  /\ from_str2 (fp2_new 103) "12,-0x3" = Ret x /\ from_str2 (fp2_new 103) "12" = Panic "index out of bounds"
  /\ scalar_show (mkScalar 10 13) = "10"%string.
Proof. vm_compute. repeat split; congruence. Qed.
