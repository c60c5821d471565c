(** Residues modulo p as a type; a field when p is prime (Fermat's little theorem). *)
From Coq Require Import ZArith Znumtheory Zpow_facts Lia List Permutation Eqdep_dec Bool Ring Field.
From Verif.Math Require Import Fld.
Import ListNotations.
Open Scope Z_scope.

(** *** Fermat *)
Definition lprod (l : list Z) : Z := fold_right Z.mul 1 l.

Lemma lprod_perm l l' : Permutation l l' -> lprod l = lprod l'.
Proof. induction 1; unfold lprod in *; cbn; try lia; try congruence. Qed.

Lemma lprod_scale p a l :
  lprod (map (fun x => (a * x) mod p) l) mod p = (a ^ Z.of_nat (length l) * lprod l) mod p.
Proof.
  induction l as [|x l IH]; [reflexivity|].
  cbn [map lprod fold_right length]. fold (lprod l).
  fold (lprod (map (fun x => (a * x) mod p) l)).
  rewrite Zmult_mod, IH, Zmod_mod, <- Zmult_mod.
  rewrite Nat2Z.inj_succ, Z.pow_succ_r by lia. f_equal. ring.
Qed.

Lemma prime_coprime_res p x : prime p -> 0 < x < p -> rel_prime p x.
Proof.
  intros Hp Hx. apply rel_prime_sym, rel_prime_le_prime; [exact Hp|lia].
Qed.

Lemma lprod_coprime p l : prime p -> (forall x, In x l -> 0 < x < p) -> rel_prime p (lprod l).
Proof.
  intros Hp. induction l as [|x l IH]; intros H; cbn.
  - apply rel_prime_sym, rel_prime_1.
  - apply rel_prime_mult; [apply prime_coprime_res; [exact Hp|apply H; left; reflexivity]|].
    apply IH. intros; apply H; right; assumption.
Qed.

Definition residues (p : Z) : list Z := map Z.of_nat (seq 1 (Z.to_nat (p - 1))).

Lemma in_residues p x : In x (residues p) <-> 0 < x < p.
Proof.
  unfold residues. rewrite in_map_iff. split.
  - intros (n & <- & Hn). apply in_seq in Hn. lia.
  - intros H. exists (Z.to_nat x). split; [lia|]. apply in_seq. lia.
Qed.

Lemma nodup_residues p : NoDup (residues p).
Proof.
  apply FinFun.Injective_map_NoDup; [intros a b; lia|apply seq_NoDup].
Qed.

Lemma length_residues p : 0 < p -> Z.of_nat (length (residues p)) = p - 1.
Proof. intro. unfold residues. rewrite map_length, seq_length. lia. Qed.

Lemma mul_mod_cancel p a x y : prime p -> ~ (p | a) ->
  (a * x) mod p = (a * y) mod p -> x mod p = y mod p.
Proof.
  intros Hp Ha H. assert (0 < p) by (destruct Hp; lia).
  assert (D : (p | a * (x - y))).
  { apply Zmod_divide; [lia|]. replace (a * (x - y)) with (a * x - a * y) by ring.
    rewrite Zminus_mod, H, Z.sub_diag. reflexivity. }
  destruct (prime_mult _ Hp _ _ D) as [|D']; [contradiction|].
  apply Zdivide_mod in D'. replace x with (x - y + y) by ring.
  rewrite Zplus_mod, D'. rewrite Z.add_0_l, Zmod_mod. reflexivity.
Qed.

Theorem fermat p a : prime p -> ~ (p | a) -> a ^ (p - 1) mod p = 1.
Proof.
  intros Hp Ha. assert (Hp1 : 1 < p) by (destruct Hp; lia).
  pose (f := fun x => (a * x) mod p).
  assert (P : Permutation (map f (residues p)) (residues p)).
  { apply NoDup_Permutation_bis.
    - assert (I : forall x y, In x (residues p) -> In y (residues p) -> f x = f y -> x = y).
      { intros x y Hx Hy E. apply in_residues in Hx, Hy.
        pose proof (mul_mod_cancel p a x y Hp Ha E) as E'. rewrite !Z.mod_small in E' by lia. exact E'. }
      revert I. generalize (nodup_residues p). generalize (residues p) as l.
      intro l. induction 1 as [|x l Hx Hl IH]; intros I; cbn; constructor.
      + rewrite in_map_iff. intros (y & E & Hy). apply Hx.
        rewrite <- (I y x); [exact Hy|right; exact Hy|left; reflexivity|exact E].
      + apply IH. intros; apply I; [right|right|]; assumption.
    - rewrite map_length. lia.
    - intros x Hx. apply in_map_iff in Hx. destruct Hx as (y & <- & Hy).
      apply in_residues in Hy. apply in_residues. unfold f.
      pose proof (Z.mod_pos_bound (a * y) p ltac:(lia)).
      assert ((a * y) mod p <> 0); [|lia].
      intro E. apply Zmod_divide in E; [|lia].
      destruct (prime_mult _ Hp _ _ E) as [D|D]; [contradiction|].
      apply Z.divide_pos_le in D; lia. }
  pose proof (lprod_scale p a (residues p)) as E.
  fold f in E. rewrite (lprod_perm _ _ P), length_residues in E by lia.
  assert (C : rel_prime p (lprod (residues p))).
  { apply lprod_coprime; [exact Hp|]. intros; apply in_residues; assumption. }
  assert (E' : (lprod (residues p) * 1) mod p = (lprod (residues p) * a ^ (p - 1)) mod p).
  { rewrite Z.mul_1_r, E. f_equal. ring. }
  apply mul_mod_cancel in E'; [|exact Hp|].
  - rewrite <- E'. apply Z.mod_1_l. lia.
  - intro D. apply (prime_ge_2) in Hp. destruct C as [_ _ C].
    specialize (C p (Z.divide_refl p) D). apply Z.divide_1_r in C. lia.
Qed.

(** *** The type of residues *)
Definition Zp (p : Z) : Type := { z : Z | z mod p = z }.
Definition zv {p} (x : Zp p) : Z := proj1_sig x.
Definition of_Z (p z : Z) : Zp p := exist _ (z mod p) (Zmod_mod z p).

Lemma Zp_eq p (x y : Zp p) : zv x = zv y -> x = y.
Proof.
  destruct x as [x Hx], y as [y Hy]. cbn. intro E. subst y. f_equal.
  apply UIP_dec, Z.eq_dec.
Qed.

Lemma zv_of_Z p z : zv (of_Z p z) = z mod p. Proof. reflexivity. Qed.
Lemma of_Z_zv p (x : Zp p) : of_Z p (zv x) = x.
Proof. apply Zp_eq. rewrite zv_of_Z. exact (proj2_sig x). Qed.
Lemma zv_mod p (x : Zp p) : zv x mod p = zv x. Proof. exact (proj2_sig x). Qed.
Lemma zv_range p (x : Zp p) : 0 < p -> 0 <= zv x < p.
Proof. intro. rewrite <- zv_mod. apply Z.mod_pos_bound. assumption. Qed.
Lemma of_Z_eq p a b : of_Z p a = of_Z p b <-> a mod p = b mod p.
Proof.
  split; intro E.
  - apply (f_equal zv) in E. exact E.
  - apply Zp_eq. exact E.
Qed.
Lemma of_Z_mod p a : of_Z p (a mod p) = of_Z p a.
Proof. apply of_Z_eq, Zmod_mod. Qed.

Definition zadd {p} (x y : Zp p) : Zp p := of_Z p (zv x + zv y).
Definition zsub {p} (x y : Zp p) : Zp p := of_Z p (zv x - zv y).
Definition zmul {p} (x y : Zp p) : Zp p := of_Z p (zv x * zv y).
Definition zopp {p} (x : Zp p) : Zp p := of_Z p (- zv x).
Definition zinv {p} (x : Zp p) : Zp p := of_Z p (zv x ^ (p - 2)).
Definition zdiv {p} (x y : Zp p) : Zp p := zmul x (zinv y).

Lemma of_Z_add p a b : of_Z p (a + b) = zadd (of_Z p a) (of_Z p b).
Proof. apply of_Z_eq. rewrite !zv_of_Z. apply Zplus_mod. Qed.
Lemma of_Z_sub p a b : of_Z p (a - b) = zsub (of_Z p a) (of_Z p b).
Proof. apply of_Z_eq. rewrite !zv_of_Z. apply Zminus_mod. Qed.
Lemma of_Z_mul p a b : of_Z p (a * b) = zmul (of_Z p a) (of_Z p b).
Proof. apply of_Z_eq. rewrite !zv_of_Z. apply Zmult_mod. Qed.
Lemma of_Z_opp p a : of_Z p (- a) = zopp (of_Z p a).
Proof.
  apply of_Z_eq. rewrite !zv_of_Z. rewrite <- !Z.sub_0_l, Zminus_mod.
  rewrite (Zminus_mod 0 (a mod p)), Zmod_mod. reflexivity.
Qed.

Lemma Zp_ind_of_Z p (P : Zp p -> Prop) : (forall z, P (of_Z p z)) -> forall x, P x.
Proof. intros H x. rewrite <- (of_Z_zv p x). apply H. Qed.

Lemma zp_ring p : ring_theory (of_Z p 0) (of_Z p 1) zadd zmul zsub zopp (@eq (Zp p)).
Proof.
  constructor; intros;
    repeat match goal with x : Zp p |- _ =>
      lazymatch goal with |- context [x] => pattern x; apply Zp_ind_of_Z; clear x; intro x end end;
    rewrite <- ?of_Z_opp, <- ?of_Z_add, <- ?of_Z_sub, <- ?of_Z_mul, <- ?of_Z_add, <- ?of_Z_mul,
            <- ?of_Z_add; f_equal; ring.
Qed.

Lemma of_Z_zero p z : 0 < p -> (of_Z p z = of_Z p 0 <-> (p | z)).
Proof.
  intro. rewrite of_Z_eq, Zmod_0_l. split; intro E.
  - apply Zmod_divide; [lia|exact E].
  - apply Zdivide_mod, E.
Qed.

Lemma zp_field p : prime p ->
  field_theory (of_Z p 0) (of_Z p 1) zadd zmul zsub zopp zdiv zinv (@eq (Zp p)).
Proof.
  intro Hp. assert (1 < p) by (destruct Hp; lia). constructor.
  - apply zp_ring.
  - rewrite of_Z_eq, Zmod_0_l, Z.mod_1_l by lia. discriminate.
  - reflexivity.
  - intros x. pattern x. apply Zp_ind_of_Z. clear x. intros z Hz.
    rewrite of_Z_zero in Hz by lia.
    unfold zinv. rewrite zv_of_Z, <- of_Z_mul. apply of_Z_eq. rewrite Z.mod_1_l by lia.
    rewrite <- (fermat p z Hp Hz).
    rewrite Zmult_mod, <- (Zpower_mod z) by lia. rewrite Zmod_mod || idtac.
    rewrite <- Zmult_mod. rewrite <- (Z.pow_1_r z) at 2.
    rewrite <- Z.pow_add_r by lia. f_equal. f_equal. ring.
Qed.

Lemma zp_eqd p (x y : Zp p) : {x = y} + {x <> y}.
Proof.
  destruct (Z.eq_dec (zv x) (zv y)) as [E|E].
  - left. apply Zp_eq, E.
  - right. congruence.
Defined.

Definition ZpF (p : Z) (Hp : prime p) : Fld :=
  {| car := Zp p; F0 := of_Z p 0; F1 := of_Z p 1; Fadd := zadd; Fmul := zmul; Fsub := zsub;
     Fopp := zopp; Fdiv := zdiv; Finv := zinv; Fth := zp_field p Hp; Feqd := zp_eqd p |}.
