(** Integers modulo a number that need not be prime: prime divisors, powers of two, square-free
    numbers, and bases whose powers are neither 0 nor 1. *)
From Coq Require Import ZArith Znumtheory Zpow_facts Lia Bool List.
Local Open Scope Z_scope.

Lemma prime_divisor n : 1 < n -> exists q, prime q /\ (q | n).
Proof.
  intro H. assert (N : 0 <= n) by lia. revert H. pattern n. apply Z_lt_induction; [clear n N|exact N].
  intros n IH H. destruct (prime_dec n) as [P|P].
  - exists n. split; [exact P|apply Z.divide_refl].
  - destruct (not_prime_divide n H P) as (d & Hd & D).
    destruct (IH d ltac:(lia) ltac:(lia)) as (q & Q & E).
    exists q. split; [exact Q|]. exact (Z.divide_trans _ _ _ E D).
Qed.

Lemma prime_gt1 q : prime q -> 1 < q. Proof. intros [H _]. exact H. Qed.

Lemma odd_prime q : prime q -> q <> 2 -> ~ (2 | q).
Proof.
  intros Q N D. pose proof (prime_gt1 _ Q).
  destruct (prime_divisors q Q 2 D) as [E|[E|[E|E]]]; lia.
Qed.

(** only 2 divides it: a power of two *)
Lemma power_of_two n : 0 < n -> (forall q, prime q -> (q | n) -> q = 2) -> exists k, 0 <= k /\ n = 2 ^ k.
Proof.
  intro H. assert (N : 0 <= n) by lia. revert H. pattern n. apply Z_lt_induction; [clear n N|exact N].
  intros n IH H A. destruct (Z.eq_dec n 1) as [->|N1]; [exists 0; split; [lia|reflexivity]|].
  destruct (prime_divisor n ltac:(lia)) as (q & Q & D).
  pose proof (A q Q D). subst q. destruct D as [m E].
  destruct (IH m ltac:(lia) ltac:(lia)) as (k & K & M).
  - intros q Q' D. apply A; [exact Q'|]. rewrite E. apply Z.divide_mul_l. exact D.
  - exists (k + 1). split; [lia|]. rewrite Z.pow_add_r, Z.pow_1_r by lia. lia.
Qed.

(** the first two terms of the binomial *)
Lemma binomial2 q e : 0 <= e -> exists k, (1 + q) ^ e = 1 + e * q + k * (q * q).
Proof.
  intro H. pattern e. apply natlike_ind; [| |exact H].
  - exists 0. rewrite Z.pow_0_r. lia.
  - intros x Hx [k E]. exists (k * (1 + q) + x). rewrite Z.pow_succ_r, E by exact Hx. unfold Z.succ. ring.
Qed.

(** a prime divisor q of a composite n, prime to the exponent, gives a base whose power is not 0 or 1 *)
Lemma bad_base n q e : 1 < n -> prime q -> (q | n) -> q <> n -> 0 < e -> ~ (q | e) ->
  exists b, ~ (n | b ^ e) /\ ~ (n | b ^ e - 1).
Proof.
  intros Hn Q D NE He Ne. pose proof (prime_gt1 _ Q) as Hq.
  destruct (Zdivide_dec (q * q) n) as [S|S].
  - exists (1 + q). destruct (binomial2 q e ltac:(lia)) as [k E]. rewrite E. split.
    + intro F. assert (G : (q | 1 + e * q + k * (q * q))) by (apply Z.divide_trans with n; assumption).
      replace (1 + e * q + k * (q * q)) with (1 + (e + k * q) * q) in G by ring.
      destruct G as [j G]. assert (q * (j - (e + k * q)) = 1) by lia.
      assert (q = 1 \/ q = -1) by (apply Z.mul_eq_1 with (j - (e + k * q)); assumption). lia.
    + intro F. assert (G : (q * q | 1 + e * q + k * (q * q) - 1)) by (apply Z.divide_trans with n; assumption).
      apply Ne. destruct G as [j G]. exists (j - k). apply Z.mul_reg_r with q; lia.
  - exists q. destruct D as [m M]. split.
    + intro F. assert (R : rel_prime m (q ^ e)).
      { apply rel_prime_Zpower_r; [lia|]. apply rel_prime_sym, prime_rel_prime; [exact Q|].
        intros [j J]. apply S. exists j. lia. }
      assert (G : (m | q ^ e)) by (apply Z.divide_trans with n; [exists q; lia|exact F]).
      assert (E : (m | 1)).
      { apply Gauss with (q ^ e); [|exact R]. rewrite Z.mul_1_r. exact G. }
      destruct (Z.divide_1_r m E) as [->| ->]; lia.
    + intro F. assert (G : (q | q ^ e - 1)) by (apply Z.divide_trans with n; [exists m; lia|exact F]).
      assert (T : (q | q ^ e)).
      { replace e with (1 + (e - 1)) by lia. rewrite Z.pow_add_r, Z.pow_1_r by lia.
        apply Z.divide_mul_l, Z.divide_refl. }
      assert (E : (q | 1)).
      { replace 1 with (q ^ e - (q ^ e - 1)) by ring. apply Z.divide_sub_r; assumption. }
      destruct (Z.divide_1_r q E); lia.
Qed.

(** a composite number is 4, has an odd prime divisor, or is a larger power of two *)
Lemma composite_cases n : 1 < n -> ~ prime n ->
  n = 4 \/ (exists q, prime q /\ (q | n) /\ q <> n /\ q <> 2) \/ (exists k, 3 <= k /\ n = 2 ^ k).
Proof.
  intros H NP.
  destruct (Zdivide_dec 2 n) as [D|D].
  2:{ right; left. destruct (prime_divisor n H) as (q & Q & E). exists q.
      split; [exact Q|]. split; [exact E|]. split; intros ->; auto. }
  assert (A : n = 2 ^ Z.log2 n \/ n <> 2 ^ Z.log2 n) by lia. destruct A as [A|A].
  - pose proof (Z.log2_nonneg n) as L. set (k := Z.log2 n) in *.
    destruct (Z.eq_dec k 0) as [K|K]; [rewrite K in A; cbn in A; lia|].
    destruct (Z.eq_dec k 1) as [K1|K1].
    { exfalso. rewrite K1 in A. apply NP. rewrite A. exact prime_2. }
    destruct (Z.eq_dec k 2) as [K2|K2]; [left; rewrite A, K2; reflexivity|].
    right; right. exists k. split; [lia|exact A].
  - right; left. destruct D as [m M]. 
    assert (X : ~ forall q, prime q -> (q | n) -> q = 2).
    { intro X. destruct (power_of_two n ltac:(lia) X) as (k & K & E). apply A.
      rewrite E at 2. rewrite Z.log2_pow2 by exact K. exact E. }
    (* search among the numbers up to n *)
    assert (Y : exists q, prime q /\ (q | n) /\ q <> 2).
    { set (P := fun q => prime q /\ (q | n) /\ q <> 2).
      assert (Pd : forall q, {P q} + {~ P q}).
      { intro q. unfold P. destruct (prime_dec q), (Zdivide_dec q n), (Z.eq_dec q 2); tauto. }
      assert (W : forall l, (exists q, In q l /\ P q) \/ (forall q, In q l -> ~ P q)).
      { induction l as [|a l IH]; [right; intros q []|].
        destruct (Pd a) as [y|y]; [left; exists a; split; [left; reflexivity|exact y]|].
        destruct IH as [(q & I & Pq)|IH]; [left; exists q; split; [right; exact I|exact Pq]|].
        right. intros q [<-|I]; [exact y|apply IH; exact I]. }
      destruct (W (map Z.of_nat (seq 0 (S (Z.to_nat n))))) as [(q & _ & Pq)|No]; [exists q; exact Pq|].
      exfalso. apply X. intros q Q E. destruct (Z.eq_dec q 2) as [|N2]; [assumption|].
      exfalso. apply (No q); [|exact (conj Q (conj E N2))].
      pose proof (prime_gt1 _ Q). pose proof (Z.divide_pos_le q n ltac:(lia) E).
      rewrite in_map_iff. exists (Z.to_nat q). split; [lia|]. apply in_seq. lia. }
    destruct Y as (q & Q & E & N). exists q.
    split; [exact Q|]. split; [exact E|]. split; [|exact N]. intros ->. apply (odd_prime n Q N). exists m. lia.
Qed.

Lemma pow2_exceeds k : 3 <= k -> k <= 2 ^ (k - 1) - 1.
Proof.
  intro H. replace k with (3 + (k - 3)) by lia. set (j := k - 3). assert (J : 0 <= j) by (unfold j; lia).
  clearbody j. clear H k. pattern j. apply natlike_ind; [cbn; lia| |exact J].
  intros x Hx IH. replace (3 + Z.succ x - 1) with (1 + (3 + x - 1)) by lia.
  rewrite (Z.pow_add_r 2 1), Z.pow_1_r by lia. lia.
Qed.

(** no square is 2 modulo 4 *)
Lemma two_not_square n : (4 | n) -> ~ exists y, (n | y * y - 2).
Proof.
  intros D [y E]. destruct (Z.divide_trans _ _ _ D E) as [j J].
  pose proof (Z.div_mod y 2 ltac:(lia)). pose proof (Z.mod_pos_bound y 2 ltac:(lia)).
  set (a := y / 2) in *. assert (C : y mod 2 = 0 \/ y mod 2 = 1) by lia.
  destruct C as [C|C]; rewrite C in *.
  - assert (y * y = 4 * (a * a)) by (replace y with (2 * a) by lia; ring). lia.
  - assert (y * y = 4 * (a * a + a) + 1) by (replace y with (2 * a + 1) by lia; ring). lia.
Qed.

(** square-free: no square of a prime divides it *)
Definition square_free (n : Z) : Prop := forall q, prime q -> ~ (q * q | n).
Lemma square_free_divides n x : 0 < n -> square_free n ->
  (forall q, prime q -> (q | n) -> (q | x)) -> (n | x).
Proof.
  intro H. assert (N : 0 <= n) by lia. revert H. pattern n. apply Z_lt_induction; [clear n N|exact N].
  intros n IH H S A. destruct (Z.eq_dec n 1) as [->|N1]; [apply Z.divide_1_l|].
  destruct (prime_divisor n ltac:(lia)) as (q & Q & D). pose proof (prime_gt1 _ Q).
  pose proof (A q Q D) as Dx. destruct D as [m M].
  assert (Hm : 0 < m < n) by nia.
  assert (Sm : ~ (q | m)).
  { intros [j J]. apply (S q Q). exists j. lia. }
  assert (Dm : (m | x)).
  { apply IH; [lia|lia| |].
    - intros r R [j J]. apply (S r R). exists (j * q). rewrite M, J. ring.
    - intros r R E. apply A; [exact R|]. rewrite M. apply Z.divide_mul_l. exact E. }
  destruct Dx as [y Y]. rewrite Y in Dm |- *.
  assert (G : (m | y)).
  { apply Gauss with q; [rewrite Z.mul_comm; exact Dm|]. apply rel_prime_sym, prime_rel_prime; assumption. }
  rewrite M. apply Z.mul_divide_mono_r. exact G.
Qed.

(** every b satisfies b^(n+1) = b^2 modulo n exactly when every b satisfies b^n = b *)
Lemma all_powers n : 1 < n ->
  ((forall b, (n | b ^ (n + 1) - b * b)) <-> (forall b, (n | b ^ n - b))).
Proof.
  intro Hn. split.
  - intros A b. apply square_free_divides; [lia| |].
    + intros q Q D. pose proof (prime_gt1 _ Q).
      pose proof (Z.divide_trans _ _ _ D (A (1 + q))) as F.
      destruct (binomial2 q (n + 1) ltac:(lia)) as [k E]. rewrite E in F.
      replace (1 + (n + 1) * q + k * (q * q) - (1 + q) * (1 + q))
        with (n * q - q + (k - 1) * (q * q)) in F by ring.
      destruct D as [m M]. rewrite M in F. destruct F as [j J].
      assert (T : q * (m * q * q + (k - 1) * q - j * q - 1) = 0) by
        (transitivity (m * (q * q) * q - q + (k - 1) * (q * q) - j * (q * q)); [ring|rewrite J; ring]).
      apply Z.mul_eq_0 in T. destruct T as [T|T]; [lia|].
      assert (U : q * (m * q + (k - 1) - j) = 1) by lia.
      apply Z.mul_eq_1 in U. lia.
    + intros q Q D. pose proof (Z.divide_trans _ _ _ D (A b)) as F.
      replace (n + 1) with (1 + n) in F by lia. rewrite Z.pow_add_r, Z.pow_1_r in F by lia.
      replace (b * b ^ n - b * b) with (b * (b ^ n - b)) in F by ring.
      destruct (prime_mult q Q _ _ F) as [G|G]; [|exact G].
      apply Z.divide_sub_r; [|exact G]. replace n with (1 + (n - 1)) by lia.
      rewrite Z.pow_add_r, Z.pow_1_r by lia. apply Z.divide_mul_l. exact G.
  - intros A b. replace (n + 1) with (1 + n) by lia. rewrite Z.pow_add_r, Z.pow_1_r by lia.
    replace (b * b ^ n - b * b) with (b * (b ^ n - b)) by ring. apply Z.divide_mul_r. apply A.
Qed.
