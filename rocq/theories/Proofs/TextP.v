(** Strings of digits: separating printed numbers from the text around them. *)
From Coq Require Import ZArith Lia String Ascii Bool List.
From Verif.Math Require Import Zp.
From Verif.Spec Require Import Arith Text.
From Verif.Model Require Import Out BigInt PrimeField.
From Verif.Proofs Require Import FieldP FieldProps BytesP SerialProps.
Import ListNotations.
Open Scope Z_scope.

Definition is_digit (c : ascii) : Prop := exists d, digit_of c = Some d /\ d < 10.
Fixpoint alldig (s : string) : Prop :=
  match s with EmptyString => True | String c s' => is_digit c /\ alldig s' end.

Lemma alldig_app a b : alldig (a ++ b) <-> alldig a /\ alldig b.
Proof. induction a as [|c a IH]; cbn; [tauto|]. rewrite IH. tauto. Qed.
Lemma numeral_alldig s n : numeral 10 s n -> alldig s.
Proof.
  induction 1 as [c d H1 H2|s n c d N IH H1 H2].
  - cbn. split; [exists d; auto|exact I].
  - rewrite alldig_app. split; [exact IH|]. cbn. split; [exists d; auto|exact I].
Qed.
Lemma not_digit_cases c : (forall d, digit_of c = Some d -> 10 <= d) -> ~ is_digit c.
Proof. intros H (d & E & L). specialize (H d E). lia. Qed.

(** the text up to the first non-digit is determined *)
Lemma dig_split c a b r t : ~ is_digit c -> alldig a -> alldig b ->
  (a ++ String c r = b ++ String c t)%string -> a = b /\ r = t.
Proof.
  intro N. revert b. induction a as [|x a IH]; intros [|y b] A B E; cbn in *.
  - injection E as E. auto.
  - injection E as E1 E2. subst y. destruct B as [B _]. contradiction.
  - injection E as E1 E2. subst x. destruct A as [A _]. contradiction.
  - injection E as E1 E2. subst y. destruct (IH b (proj2 A) (proj2 B) E2) as [-> ->]. auto.
Qed.
Lemma app_inv_r a b s : (a ++ s = b ++ s)%string -> a = b.
Proof.
  revert b. induction a as [|x a IH]; intros [|y b] E; cbn in E; try reflexivity.
  - exfalso. apply (f_equal String.length) in E. cbn in E.
    assert (L : forall u v, String.length (u ++ v) = (String.length u + String.length v)%nat)
      by (induction u; intros; cbn; congruence). rewrite L in E. lia.
  - exfalso. apply (f_equal String.length) in E. cbn in E.
    assert (L : forall u v, String.length (u ++ v) = (String.length u + String.length v)%nat)
      by (induction u; intros; cbn; congruence). rewrite L in E. lia.
  - injection E as -> E. f_equal. apply IH, E.
Qed.
Lemma app_inv_l a s t : (a ++ s = a ++ t)%string -> s = t.
Proof. induction a as [|x a IH]; cbn; intro E; [exact E|]. injection E as E. apply IH, E. Qed.
Lemma sapp_assoc a b c : ((a ++ b) ++ c = a ++ b ++ c)%string.
Proof. induction a as [|x a IH]; cbn; [reflexivity|]. rewrite IH. reflexivity. Qed.

Lemma show_zero_lead n t : 0 <= n -> show n = String "0" t -> t = EmptyString.
Proof.
  intro H. unfold show. destruct (Z.ltb_spec n 0); [lia|]. unfold show_nonneg.
  destruct (Z.eqb_spec n 0) as [->|N]; [intro E; injection E as <-; reflexivity|].
  assert (G : forall fuel m, 0 < m < 2 ^ Z.of_nat fuel ->
    exists d l, rev (digits_fuel fuel 10 m) = d :: l /\ 0 < d < 10).
  { induction fuel as [|k IH]; intros m Hm; [change (2 ^ Z.of_nat 0) with 1 in Hm; lia|].
    cbn [digits_fuel]. destruct (Z.eqb_spec m 0); [lia|]. cbn [rev].
    pose proof (Z.mod_pos_bound m 10 ltac:(lia)) as B.
    pose proof (Z.div_mod m 10 ltac:(lia)) as DM. rewrite Nat2Z.inj_succ, Z.pow_succ_r in Hm by lia.
    destruct (Z.eq_dec (m / 10) 0) as [Z0|NZ].
    - assert (digits_fuel k 10 (m / 10) = []) as -> by (rewrite Z0; destruct k; reflexivity).
      exists (m mod 10), []. split; [reflexivity|lia].
    - destruct (IH (m / 10)) as (d & l & E & D).
      + split; [pose proof (Z.div_pos m 10); lia|]. apply Z.div_lt_upper_bound; lia.
      + exists d, (l ++ [m mod 10]). rewrite E. split; [reflexivity|exact D]. }
  destruct (G (Z.to_nat (bits n)) n) as (d & l & E & D).
  { rewrite Z2Nat.id by apply bits_nonneg. split; [lia|apply bits_lt, H]. }
  unfold digits. rewrite E. cbn [map string_of_list]. intro F. injection F as F _. exfalso.
  assert (C : d = 1 \/ d = 2 \/ d = 3 \/ d = 4 \/ d = 5 \/ d = 6 \/ d = 7 \/ d = 8 \/ d = 9) by lia.
  decompose [or] C; subst d; discriminate F.
Qed.
Lemma show_decimal n : 0 <= n -> decimal (show n) n.
Proof. intro H. split; [apply show_numeral, H|]. intros t. apply show_zero_lead, H. Qed.
Lemma show_alldig n : 0 <= n -> alldig (show n).
Proof. intro H. eapply numeral_alldig, show_numeral, H. Qed.
Lemma elt_show_valid p x : valid p x -> elt_show x = Ret (show (val x)).
Proof.
  intros V. pose proof (valid_pos _ _ V) as Hp. destruct V as [F V]. unfold elt_show, mod_floor. rewrite F. cbn [modulus].
  destruct (Z.eqb_spec p 0); [lia|]. cbn [bind]. rewrite Z.mod_small by exact V. reflexivity.
Qed.
Lemma valid_nonneg p x : valid p x -> 0 <= val x.
Proof. intros [_ V]. lia. Qed.
Lemma numeral_pos r s n : 0 < r -> numeral r s n -> 0 <= n.
Proof.
  assert (D : forall c d, digit_of c = Some d -> 0 <= d).
  { intros c d. unfold digit_of. cbv zeta. set (v := Z.of_nat (nat_of_ascii c)).
    destruct ((48 <=? v) && (v <=? 57)) eqn:E1; [apply andb_true_iff in E1; rewrite !Z.leb_le in E1; intro E; injection E as <-; lia|].
    destruct ((97 <=? v) && (v <=? 102)) eqn:E2; [apply andb_true_iff in E2; rewrite !Z.leb_le in E2; intro E; injection E as <-; lia|].
    destruct ((65 <=? v) && (v <=? 70)) eqn:E3; [apply andb_true_iff in E3; rewrite !Z.leb_le in E3; intro E; injection E as <-; lia|discriminate]. }
  intro R. induction 1 as [c d H1 H2|s n c d N IH H1 H2]; [exact (D _ _ H1)|]. pose proof (D _ _ H1). nia.
Qed.
(** a text denotes at most one number *)
Lemma numeral_fun s n m : numeral 10 s n -> numeral 10 s m -> n = m.
Proof.
  intros N M. pose proof (numeral_pos 10 _ _ ltac:(lia) N). pose proof (numeral_pos 10 _ _ ltac:(lia) M).
  set (p := n + m + 1). assert (Hp : p <> 0) by (subst p; lia).
  assert (E : forall k, numeral 10 s k -> from_str (fp_new p) s = Ret (fe (of_Z p k))).
  { intros k K. apply from_str_iff; [exact Hp|]. apply (literal_pos 10 "" s k); [left; auto|].
    apply signed_none, numeral_body, K. }
  pose proof (E n N) as E1. rewrite (E m M) in E1.
  assert (E2 : val (fe (of_Z p m)) = val (fe (of_Z p n))) by congruence.
  cbn in E2. rewrite !Z.mod_small in E2 by (subst p; lia). lia.
Qed.
Lemma show_inj n m : 0 <= n -> 0 <= m -> show n = show m -> n = m.
Proof. intros Hn Hm E. apply (numeral_fun (show n)); [apply show_numeral, Hn|]. rewrite E. apply show_numeral, Hm. Qed.

(** every number has one decimal text *)
Lemma digits_fuel_more n : forall k j, 0 <= n < 2 ^ Z.of_nat k -> (k <= j)%nat -> digits_fuel j 10 n = digits_fuel k 10 n.
Proof.
  intro k. revert n. induction k as [|k IH]; intros n j Hn L.
  - change (2 ^ Z.of_nat 0) with 1 in Hn. assert (n = 0) as -> by lia. destruct j; reflexivity.
  - destruct j as [|j]; [lia|]. cbn [digits_fuel]. destruct (Z.eqb_spec n 0); [reflexivity|]. f_equal.
    rewrite Nat2Z.inj_succ, Z.pow_succ_r in Hn by lia. apply IH; [|lia].
    split; [apply Z.div_pos; lia|apply Z.div_lt_upper_bound; lia].
Qed.
Lemma digits_snoc n d : 0 < n -> 0 <= d < 10 -> digits 10 (n * 10 + d) = d :: digits 10 n.
Proof.
  intros Hn Hd. unfold digits. set (m := n * 10 + d).
  assert (Hm : 0 < m) by (subst m; lia).
  pose proof (bits_lt m ltac:(lia)) as B. pose proof (bits_lt n ltac:(lia)) as Bn.
  pose proof (bits_nonneg m) as P. pose proof (bits_nonneg n) as Pn.
  destruct (Z.to_nat (bits m)) as [|k] eqn:E.
  - assert (bits m = 0) as Z0 by lia. rewrite Z0 in B. change (2 ^ 0) with 1 in B. lia.
  - cbn [digits_fuel]. destruct (Z.eqb_spec m 0); [lia|].
    assert (M1 : m mod 10 = d) by (subst m; rewrite Z.add_comm, Z_mod_plus_full; apply Z.mod_small; lia).
    assert (M2 : m / 10 = n) by (subst m; rewrite Z.div_add_l by lia; rewrite Z.div_small by lia; lia).
    rewrite M1, M2. f_equal.
    assert (Bk : bits m = Z.of_nat k + 1) by lia. rewrite Bk, Z.pow_add_r in B by lia. change (2 ^ 1) with 2 in B.
    destruct (Nat.le_ge_cases k (Z.to_nat (bits n))) as [L|L].
    + symmetry. apply digits_fuel_more; [|exact L]. subst m. lia.
    + apply digits_fuel_more; [|exact L]. rewrite Z2Nat.id by lia. lia.
Qed.
Lemma digit_of_inv c d : digit_of c = Some d -> d < 10 -> c = digit_char d /\ 0 <= d.
Proof.
  destruct c as [[] [] [] [] [] [] [] []]; vm_compute; intro E; try discriminate E; injection E as <-; intro L;
    try discriminate L; split; (reflexivity || congruence).
Qed.
Lemma decimal_show s n : decimal s n -> s = show n.
Proof.
  intros [N L]. induction N as [c d H1 H2|s n c d N IH H1 H2].
  - destruct (digit_of_inv c d H1 H2) as [-> D].
    assert (C : d = 0 \/ d = 1 \/ d = 2 \/ d = 3 \/ d = 4 \/ d = 5 \/ d = 6 \/ d = 7 \/ d = 8 \/ d = 9) by lia.
    decompose [or] C; subst d; reflexivity.
  - destruct (digit_of_inv c d H1 H2) as [-> D].
    assert (E : s = show n).
    { apply IH. intros t ->. specialize (L _ eq_refl). destruct t; discriminate L. }
    pose proof (numeral_pos 10 _ _ ltac:(lia) N) as P.
    assert (n <> 0).
    { intros ->. rewrite E in L. specialize (L _ eq_refl). discriminate L. }
    rewrite E. unfold show. destruct (Z.ltb_spec n 0); [lia|]. destruct (Z.ltb_spec (n * 10 + d) 0); [lia|].
    unfold show_nonneg. destruct (Z.eqb_spec n 0); [lia|]. destruct (Z.eqb_spec (n * 10 + d) 0); [lia|].
    rewrite digits_snoc by lia. cbn [rev]. rewrite map_app, string_of_list_app. reflexivity.
Qed.
