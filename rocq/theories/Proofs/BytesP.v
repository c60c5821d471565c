(** Digits, bytes and bits of integers. *)
From Coq Require Import ZArith Lia String Ascii Bool List.
From Verif.Spec Require Import Arith.
From Verif.Model Require Import Out BigInt PrimeField Scalar.
Import ListNotations.
Open Scope Z_scope.

Lemma bits_nonneg n : 0 <= bits n.
Proof. unfold bits. destruct (n =? 0); [lia|]. pose proof (Z.log2_nonneg (Z.abs n)). lia. Qed.
Lemma bits_lt n : 0 <= n -> n < 2 ^ bits n.
Proof.
  intro H. unfold bits. destruct (Z.eqb_spec n 0) as [->|N]; [reflexivity|].
  rewrite Z.abs_eq by lia. apply Z.log2_spec. lia.
Qed.
Lemma bits_le n : 0 < n -> 2 ^ (bits n - 1) <= n.
Proof.
  intro H. unfold bits. destruct (Z.eqb_spec n 0) as [->|N]; [lia|].
  rewrite Z.abs_eq by lia. rewrite Z.add_simpl_r. apply Z.log2_spec. lia.
Qed.
Lemma bits_pos n : 0 < n -> 0 < bits n.
Proof.
  intro H. unfold bits. destruct (Z.eqb_spec n 0); [lia|].
  pose proof (Z.log2_nonneg (Z.abs n)). lia.
Qed.

Section Digits.
  Variable base : Z.
  Hypothesis Hb : 2 <= base.

  Definition lval (l : list Z) : Z := fold_right (fun d acc => d + base * acc) 0 l.

  Lemma digits_fuel_value fuel n : 0 <= n < 2 ^ Z.of_nat fuel -> lval (digits_fuel fuel base n) = n.
  Proof.
    revert n. induction fuel as [|k IH]; intros n H.
    - change (2 ^ Z.of_nat 0) with 1 in H. cbn. lia.
    - cbn [digits_fuel]. destruct (Z.eqb_spec n 0) as [->|N]; [reflexivity|].
      cbn [lval fold_right]. fold (lval (digits_fuel k base (n / base))). rewrite IH.
      + pose proof (Z.div_mod n base ltac:(lia)). lia.
      + rewrite Nat2Z.inj_succ, Z.pow_succ_r in H by lia. split; [apply Z.div_pos; lia|].
        apply Z.div_lt_upper_bound; [lia|]. assert (0 < 2 ^ Z.of_nat k) by (apply Z.pow_pos_nonneg; lia). nia.
  Qed.
  Lemma digits_value n : 0 <= n -> lval (digits base n) = n.
  Proof.
    intro H. apply digits_fuel_value. rewrite Z2Nat.id by apply bits_nonneg.
    split; [exact H|apply bits_lt, H].
  Qed.
  Lemma digits_fuel_range fuel n : 0 <= n -> Forall (fun d => 0 <= d < base) (digits_fuel fuel base n).
  Proof.
    revert n. induction fuel as [|k IH]; intros n H; cbn [digits_fuel]; [constructor|].
    destruct (n =? 0); constructor; [apply Z.mod_pos_bound; lia|apply IH, Z.div_pos; lia].
  Qed.
  Lemma digits_range n : 0 <= n -> Forall (fun d => 0 <= d < base) (digits base n).
  Proof. apply digits_fuel_range. Qed.
  Lemma digits_fuel_length fuel n (k : nat) : 0 <= n < base ^ Z.of_nat k ->
    (length (digits_fuel fuel base n) <= k)%nat.
  Proof.
    revert n k. induction fuel as [|f IH]; intros n k H; cbn [digits_fuel]; [cbn; lia|].
    destruct (Z.eqb_spec n 0) as [->|N]; [cbn; lia|]. cbn [length].
    destruct k as [|k]; [change (base ^ Z.of_nat 0) with 1 in H; lia|].
    apply le_n_S, IH. rewrite Nat2Z.inj_succ, Z.pow_succ_r in H by lia.
    split; [apply Z.div_pos; lia|]. apply Z.div_lt_upper_bound; lia.
  Qed.
  Lemma digits_fuel_nth fuel n j : 0 <= n < 2 ^ Z.of_nat fuel -> base ^ Z.of_nat j <= n ->
    nth_error (digits_fuel fuel base n) j = Some ((n / base ^ Z.of_nat j) mod base).
  Proof.
    revert n j. induction fuel as [|k IH]; intros n j H Hj.
    - change (2 ^ Z.of_nat 0) with 1 in H. assert (0 < base ^ Z.of_nat j) by (apply Z.pow_pos_nonneg; lia). lia.
    - cbn [digits_fuel]. assert (0 < base ^ Z.of_nat j) by (apply Z.pow_pos_nonneg; lia).
      destruct (Z.eqb_spec n 0) as [->|N]; [lia|]. destruct j as [|j].
      + cbn [nth_error]. change (base ^ Z.of_nat 0) with 1. rewrite Z.div_1_r. reflexivity.
      + cbn [nth_error]. rewrite Nat2Z.inj_succ, Z.pow_succ_r in * by lia. rewrite IH.
        * rewrite Z.div_div by lia. reflexivity.
        * split; [apply Z.div_pos; lia|].
          apply Z.div_lt_upper_bound; [lia|]. assert (0 < 2 ^ Z.of_nat k) by (apply Z.pow_pos_nonneg; lia). nia.
        * apply Z.div_le_lower_bound; [lia|]. lia.
  Qed.
End Digits.

Lemma lval_le_value l : lval 256 l = le_value l.
Proof. induction l as [|b l IH]; [reflexivity|]. cbn [lval fold_right le_value]. fold (lval 256 l). rewrite IH. reflexivity. Qed.

Lemma be_value_app l m : be_value (l ++ m) = be_value l * 256 ^ Z.of_nat (length m) + be_value m.
Proof.
  induction l as [|b l IH]; [reflexivity|]. cbn [be_value app]. rewrite IH, app_length, Nat2Z.inj_add, Z.pow_add_r by lia.
  ring.
Qed.
Lemma be_value_rev l : be_value (rev l) = le_value l.
Proof.
  induction l as [|b l IH]; [reflexivity|]. cbn [rev le_value]. rewrite be_value_app, IH. cbn [length be_value].
  change (256 ^ Z.of_nat 0) with 1. change (256 ^ Z.of_nat 1) with 256. ring.
Qed.
Lemma le_value_rev l : le_value (rev l) = be_value l.
Proof. rewrite <- be_value_rev, rev_involutive. reflexivity. Qed.
Lemma be_value_zeros n : be_value (repeat 0 n) = 0.
Proof. induction n as [|n IH]; [reflexivity|]. cbn [repeat be_value]. rewrite IH. ring. Qed.

Lemma from_bytes_be_value l : from_bytes_be l = be_value l.
Proof.
  unfold from_bytes_be.
  assert (G : forall acc, fold_left (fun acc b => acc * 256 + b) l acc = acc * 256 ^ Z.of_nat (length l) + be_value l).
  { induction l as [|b l IH]; intro acc; cbn [fold_left be_value length].
    - change (256 ^ Z.of_nat 0) with 1. ring.
    - rewrite IH, Nat2Z.inj_succ, Z.pow_succ_r by lia. ring. }
  rewrite G. ring.
Qed.
Lemma from_bytes_le_value l : from_bytes_le l = le_value l.
Proof. induction l as [|b l IH]; [reflexivity|]. cbn [le_value]. rewrite <- IH. reflexivity. Qed.

Lemma be_value_bound l : Forall is_byte l -> 0 <= be_value l < 256 ^ Z.of_nat (length l).
Proof.
  induction 1 as [|b l Hb _ IH]; [cbn; lia|]. cbn [be_value length].
  rewrite Nat2Z.inj_succ, Z.pow_succ_r by lia. unfold is_byte in Hb. nia.
Qed.
Lemma be_value_inj l m : Forall is_byte l -> Forall is_byte m -> length l = length m ->
  be_value l = be_value m -> l = m.
Proof.
  intros Hl. revert m. induction Hl as [|b l Hb Hl IH]; intros [|c m] Hm L E; try discriminate; [reflexivity|].
  injection L as L. inversion Hm as [|? ? Hc Hm']; subst. cbn [be_value] in E. rewrite <- L in E.
  pose proof (be_value_bound l Hl) as Bl. pose proof (be_value_bound m Hm') as Bm. rewrite <- L in Bm.
  unfold is_byte in Hb, Hc.
  assert (b = c) by nia. subst c. f_equal. apply IH; auto. nia.
Qed.

(** the padded big-endian bytes of v *)
Lemma pad_left_spec v (n : nat) : 0 <= v < 256 ^ Z.of_nat n -> (0 < n)%nat ->
  exists b, pad_left (Z.of_nat n) (to_bytes_be v) = Ret b /\ length b = n /\ Forall is_byte b /\ be_value b = v.
Proof.
  intros Hv Hn.
  assert (L : (length (to_bytes_be v) <= n)%nat).
  { unfold to_bytes_be. destruct (v =? 0); [cbn; lia|]. rewrite rev_length.
    apply digits_fuel_length; lia. }
  unfold pad_left. destruct (Z.ltb_spec (Z.of_nat n) (Z.of_nat (length (to_bytes_be v)))); [lia|].
  eexists. split; [reflexivity|]. split; [|split].
  - rewrite app_length, repeat_length. lia.
  - apply Forall_app. split.
    + apply Forall_forall. intros x Hx. apply repeat_spec in Hx. subst x. unfold is_byte. lia.
    + unfold to_bytes_be. destruct (v =? 0); [repeat constructor; unfold is_byte; lia|].
      apply Forall_rev. apply (digits_range 256); lia.
  - rewrite be_value_app, be_value_zeros. cbn [Z.mul Z.add].
    unfold to_bytes_be. destruct (Z.eqb_spec v 0) as [->|N]; [reflexivity|].
    rewrite be_value_rev, <- lval_le_value. apply digits_value; lia.
Qed.

Lemma size_pos p : 0 < p -> 0 < (bits p + 7) / 8.
Proof. intro H. pose proof (bits_pos p H). apply Z.div_str_pos. lia. Qed.
Lemma size_fits p : 0 < p -> p < 256 ^ ((bits p + 7) / 8).
Proof.
  intro H. pose proof (size_pos p H) as S. change 256 with (2 ^ 8). rewrite <- Z.pow_mul_r by lia.
  apply Z.lt_le_trans with (2 ^ bits p); [apply bits_lt; lia|]. apply Z.pow_le_mono_r; [lia|].
  pose proof (Z.div_mod (bits p + 7) 8 ltac:(lia)). pose proof (Z.mod_pos_bound (bits p + 7) 8 ltac:(lia)). lia.
Qed.
Lemma size_tight p : 0 < p -> 256 ^ ((bits p + 7) / 8 - 1) <= p.
Proof.
  intro H. pose proof (size_pos p H) as S. change 256 with (2 ^ 8). rewrite <- Z.pow_mul_r by lia.
  apply Z.le_trans with (2 ^ (bits p - 1)); [|apply bits_le; exact H]. apply Z.pow_le_mono_r; [lia|].
  pose proof (Z.div_mod (bits p + 7) 8 ltac:(lia)). pose proof (Z.mod_pos_bound (bits p + 7) 8 ltac:(lia)). lia.
Qed.
Lemma size_byte_size p : 0 < p -> byte_size p ((bits p + 7) / 8).
Proof.
  intro H. pose proof (size_pos p H). pose proof (size_fits p H). pose proof (size_tight p H).
  split; [lia|]. split; [lia|]. right. assumption.
Qed.

(** *** bits *)
Definition bits_desc (k : Z) (n : nat) : list bool := map (fun i => Z.testbit k (Z.of_nat i)) (rev (seq 0 n)).

Lemma bits_desc_S k n : bits_desc k (S n) = Z.testbit k (Z.of_nat n) :: bits_desc k n.
Proof.
  unfold bits_desc. rewrite seq_S, rev_app_distr. reflexivity.
Qed.
Lemma bits_desc_length k n : length (bits_desc k n) = n.
Proof. unfold bits_desc. rewrite map_length, rev_length, seq_length. reflexivity. Qed.
Lemma bits_desc_value k n : 0 <= k -> bits_value (bits_desc k n) = k mod 2 ^ Z.of_nat n.
Proof.
  intro H. induction n as [|n IH]; [cbn; rewrite Z.mod_1_r; reflexivity|].
  rewrite bits_desc_S. cbn [bits_value]. rewrite bits_desc_length, IH.
  rewrite Nat2Z.inj_succ, Z.pow_succ_r by lia.
  assert (P : 0 < 2 ^ Z.of_nat n) by (apply Z.pow_pos_nonneg; lia).
  rewrite (Z.mul_comm 2), Z.rem_mul_r by lia.
  assert (E : (if Z.testbit k (Z.of_nat n) then 1 else 0) = (k / 2 ^ Z.of_nat n) mod 2).
  { rewrite <- Z.testbit_spec' by lia. destruct (Z.testbit k (Z.of_nat n)); reflexivity. }
  rewrite E. ring.
Qed.
