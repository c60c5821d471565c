(** The prime-field model on canonical elements. *)
From Coq Require Import ZArith Znumtheory Zpow_facts Lia String Bool List Ring Field.
From Verif.Math Require Import Fld Pow Zp Residue.
From Verif.Spec Require Import Arith.
From Verif.Model Require Import Out BigInt PrimeField.
From Verif.Spec Require Export Elements.
Import ListNotations.
Open Scope Z_scope.

(** the model element of a residue *)
Definition fe {p} (x : Zp p) : FpElt := mkFpElt (zv x) (mkFp p).
Lemma fe_inj p (x y : Zp p) : fe x = fe y -> x = y.
Proof. intro E. apply Zp_eq. exact (f_equal val E). Qed.

Lemma valid_fe p (x : Zp p) : 0 < p -> valid p (fe x).
Proof. intro. split; [reflexivity|]. apply zv_range. assumption. Qed.

Lemma valid_inv p x : valid p x -> x = fe (of_Z p (val x)).
Proof.
  destruct x as [v F]. intros [E H]. cbn in *. subst F. unfold fe. f_equal. rewrite zv_of_Z.
  symmetry. apply Z.mod_small. exact H.
Qed.

Lemma valid_ex p x : valid p x -> exists k : Zp p, x = fe k.
Proof. intro H. eexists. apply valid_inv, H. Qed.

Lemma valid_pos p x : valid p x -> 0 < p. Proof. intros [_ H]. lia. Qed.

Section Any.
  Variable p : Z.
  Hypothesis p_nz : p <> 0.
  Let F := mkFp p.

  Lemma elt_fe n : elt F n = Ret (fe (of_Z p n)).
  Proof.
    unfold elt, mod_floor, F. cbn. destruct (Z.eqb_spec p 0); [contradiction|]. reflexivity.
  Qed.
  Lemma red_fe (x : Zp p) n : red (fe x) n = Ret (fe (of_Z p n)).
  Proof. unfold red, mod_floor. cbn. destruct (Z.eqb_spec p 0); [contradiction|]. reflexivity. Qed.
  Lemma fp_eqb_refl G : fp_eqb G G = true. Proof. apply Z.eqb_refl. Qed.
  Lemma zero_fe : zero F = Ret (fe (of_Z p 0)). Proof. apply elt_fe. Qed.
  Lemma one_fe : one F = Ret (fe (of_Z p 1)). Proof. apply elt_fe. Qed.
  Lemma from_int_fe n : from_int F n = Ret (fe (of_Z p n)). Proof. apply elt_fe. Qed.
  Lemma add_fe (x y : Zp p) : add (fe x) (fe y) = Ret (fe (zadd x y)).
  Proof. unfold add. cbn [fld fe]. rewrite fp_eqb_refl. apply red_fe. Qed.
  Lemma sub_fe (x y : Zp p) : sub (fe x) (fe y) = Ret (fe (zsub x y)).
  Proof. unfold sub. cbn [fld fe]. rewrite fp_eqb_refl. apply red_fe. Qed.
  Lemma mul_fe (x y : Zp p) : mul (fe x) (fe y) = Ret (fe (zmul x y)).
  Proof. unfold mul. cbn [fld fe]. rewrite fp_eqb_refl. apply red_fe. Qed.
  Lemma neg_fe (x : Zp p) : neg (fe x) = Ret (fe (zopp x)).
  Proof. apply red_fe. Qed.
  Lemma sqr_fe (x : Zp p) : sqr (fe x) = Ret (fe (zmul x x)).
  Proof. unfold sqr, pow_u32. cbn [Z.eqb Pos.eqb do_if_eq]. apply mul_fe. Qed.
  Lemma is_zero_fe (x : Zp p) : is_zero (fe x) = true <-> x = of_Z p 0.
  Proof.
    unfold is_zero. cbn. rewrite Z.eqb_eq. split; intro E.
    - apply Zp_eq. rewrite E, zv_of_Z. symmetry. apply Zmod_0_l.
    - rewrite E, zv_of_Z. apply Zmod_0_l.
  Qed.
  Lemma is_zero_fe_b (x : Zp p) : is_zero (fe x) = if zp_eqd p x (of_Z p 0) then true else false.
  Proof.
    destruct (zp_eqd p x (of_Z p 0)) as [E|E]; [apply is_zero_fe, E|].
    destruct (is_zero (fe x)) eqn:Z; [apply is_zero_fe in Z; contradiction|reflexivity].
  Qed.
  Lemma is_one_fe (x : Zp p) : 1 < p -> (is_one (fe x) = true <-> x = of_Z p 1).
  Proof.
    intro. unfold is_one. cbn. rewrite Z.eqb_eq. split; intro E.
    - apply Zp_eq. rewrite E, zv_of_Z. symmetry. apply Z.mod_1_l. lia.
    - rewrite E, zv_of_Z. apply Z.mod_1_l. lia.
  Qed.
  Lemma set_one_fe (x : Zp p) : 1 < p -> set_one (fe x) = fe (of_Z p 1).
  Proof. intro. unfold set_one, fe. cbn [fld]. rewrite zv_of_Z, Z.mod_1_l by lia. reflexivity. Qed.
  Lemma fpelt_eqb_fe (x y : Zp p) : fpelt_eqb (fe x) (fe y) = true <-> x = y.
  Proof.
    unfold fpelt_eqb. cbn. rewrite fp_eqb_refl, andb_true_r, Z.eqb_eq.
    split; [apply Zp_eq|intros ->; reflexivity].
  Qed.
  Lemma fpelt_eqb_fe_b (x y : Zp p) : fpelt_eqb (fe x) (fe y) = if zp_eqd p x y then true else false.
  Proof.
    destruct (zp_eqd p x y) as [E|E]; [apply fpelt_eqb_fe, E|].
    destruct (fpelt_eqb (fe x) (fe y)) eqn:Z; [apply fpelt_eqb_fe in Z; contradiction|reflexivity].
  Qed.
End Any.

(** modular exponentiation *)
Lemma powm_pos_spec b e m : powm_pos b e m = b ^ Zpos e mod m.
Proof.
  induction e as [e IH|e IH|]; cbn [powm_pos].
  - rewrite IH, Pos2Z.inj_xI, Z.pow_add_r, Z.pow_1_r by lia.
    rewrite (Z.mul_comm 2), Z.pow_mul_r, Z.pow_2_r by lia.
    rewrite <- Zmult_mod, Zmult_mod_idemp_l. reflexivity.
  - rewrite IH, Pos2Z.inj_xO, (Z.mul_comm 2), Z.pow_mul_r, Z.pow_2_r by lia.
    rewrite <- Zmult_mod. reflexivity.
  - rewrite Z.pow_1_r. reflexivity.
Qed.

Lemma powm_spec b e m : 0 <= e -> powm b e m = b ^ e mod m.
Proof. destruct e as [|e|e]; [reflexivity| |lia]. intros _. apply powm_pos_spec. Qed.

Lemma pow_biguint_fe p (x : Zp p) e : p <> 0 -> 0 <= e ->
  pow_biguint (fe x) e = Ret (fe (of_Z p (zv x ^ e))).
Proof.
  intros Hp He. unfold pow_biguint, modpow. cbn [val fld fe modulus].
  destruct (Z.ltb_spec e 0); [lia|]. destruct (Z.eqb_spec p 0); [contradiction|].
  cbn [bind]. rewrite red_fe by assumption. rewrite powm_spec, of_Z_mod by assumption. reflexivity.
Qed.

Lemma pow_bigint_fe p (x : Zp p) e : 1 < p ->
  pow_bigint (fe x) e = Ret (fe (of_Z p (zv x ^ (e mod (p - 1))))).
Proof.
  intros Hp. unfold pow_bigint, mod_floor. cbn [val fld fe modulus].
  destruct (Z.eqb_spec (p - 1) 0); [lia|]. cbn [bind].
  pose proof (Z.mod_pos_bound e (p - 1) ltac:(lia)).
  destruct (Z.ltb_spec (e mod (p - 1)) 0); [lia|]. apply pow_biguint_fe; lia.
Qed.

(** for a prime other than 2 the code's inverse is the field inverse (and 0 for 0) *)
Lemma inv_mod_fe p (x : Zp p) : 2 < p -> inv_mod (fe x) = Ret (fe (zinv x)).
Proof.
  intro. unfold inv_mod. cbn [fld fe modulus]. rewrite pow_bigint_fe by lia.
  rewrite Z.mod_small by lia. reflexivity.
Qed.
Lemma u32_div_fe p (x : Zp p) : 2 < p -> u32_div 1 (fe x) = Ret (fe (zinv x)).
Proof. intro. unfold u32_div. cbn [Z.eqb Pos.eqb do_if_eq]. apply inv_mod_fe. assumption. Qed.
Lemma div_fe p (x y : Zp p) : 2 < p -> div (fe x) (fe y) = Ret (fe (zdiv x y)).
Proof. intro. unfold div. rewrite inv_mod_fe by assumption. cbn [bind]. apply mul_fe. lia. Qed.

Lemma zinv_0 p : 2 < p -> zinv (of_Z p 0) = of_Z p 0.
Proof.
  intro. apply of_Z_eq. rewrite zv_of_Z, Zmod_0_l, Z.pow_0_l by lia. apply Zmod_0_l.
Qed.

(** evaluate field operations on [fe] terms *)
Ltac fes := repeat first
  [ progress cbn [bind]
  | rewrite add_fe by lia | rewrite sub_fe by lia | rewrite mul_fe by lia | rewrite neg_fe by lia
  | rewrite sqr_fe by lia | rewrite zero_fe by lia | rewrite one_fe by lia | rewrite from_int_fe by lia
  | rewrite elt_fe by lia | rewrite div_fe by lia | rewrite u32_div_fe by lia | rewrite inv_mod_fe by lia ].
