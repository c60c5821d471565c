(** Moduli n = 5 mod 8 for which the square root formula is right on every square. *)
From Coq Require Import ZArith Znumtheory Lia.
From Verif.Math Require Import Composite.
Open Scope Z_scope.

Lemma pow_cong m x y e : 0 <= e -> (m | x - y) -> (m | x ^ e - y ^ e).
Proof.
  intros He D. pattern e. apply natlike_ind; [| |exact He].
  - exists 0. rewrite !Z.pow_0_r. ring.
  - intros i Hi IH. rewrite !Z.pow_succ_r by lia.
    replace (x * x ^ i - y * y ^ i) with (x * (x ^ i - y ^ i) + (x - y) * y ^ i) by ring.
    apply Z.divide_add_r; [apply Z.divide_mul_r, IH|apply Z.divide_mul_l, D].
Qed.

Lemma crt1 q m a : rel_prime q m -> exists b, (q | b - a) /\ (m | b - 1).
Proof.
  intro R. destruct (rel_prime_bezout _ _ R) as [u v E].
  exists (a * (v * m) + u * q). split.
  - exists (u * (1 - a)). replace (v * m) with (1 - u * q) by lia. ring.
  - exists (v * (a - 1)). replace (u * q) with (1 - v * m) by lia. ring.
Qed.

Section Five.
  Variables n k : Z.
  Hypothesis Hk : 0 <= k.
  Hypothesis Hn : n = 8 * k + 5.
  Local Notation e := (4 * k + 2).
  Local Notation t := (2 ^ k).
  Local Notation c := ((2 * (t * t) + 1) * t).
  Hypothesis D : forall b, (n | b ^ (e + 2) - b * b) \/ (n | b ^ (e + 2) * (c * c) - b * b).

  Lemma odd_div q : prime q -> (q | n) -> q <> 2 /\ ~ (q | e).
  Proof.
    intros Q [j J]. split.
    - intros ->. lia.
    - intros [i I]. assert (F : (q | 1)) by (exists (j - 2 * i); nia).
      pose proof (prime_gt1 _ Q). destruct (Z.divide_1_r _ F); lia.
  Qed.

  Lemma five_square_free : square_free n.
  Proof.
    intros q Q [j J]. pose proof (prime_gt1 _ Q) as Hq.
    destruct (odd_div q Q) as [N2 Ne]; [exists (j * q); lia|].
    set (m := j * q). assert (Hm : m <> 0) by (unfold m; nia).
    assert (En : n = q * m) by (unfold m; lia). assert (Em : m * m = j * n) by (unfold m; rewrite J; ring).
    assert (X : forall s, s = 1 \/ s = 2 -> (n | (1 + (e + 2) * (s * m)) * (c * c) - (1 + 2 * (s * m)))).
    { intros s Hs. destruct (binomial2 (s * m) (e + 2) ltac:(lia)) as [z Z].
      destruct (D (1 + s * m)) as [[w W]|[w W]]; rewrite Z in W.
      - exfalso. apply Ne.
        assert (F : s * e * m = m * (q * (w - z * s * s * j + s * s * j))).
        { replace (m * (q * (w - z * s * s * j + s * s * j))) with (w * n - z * s * s * (j * n) + s * s * (j * n)) by (rewrite En; ring).
          rewrite <- Em. lia. }
        assert (G : s * e = q * (w - z * s * s * j + s * s * j)) by (apply (Z.mul_reg_l _ _ m Hm); lia).
        assert (G' : (q | s * e)) by (exists (w - z * s * s * j + s * s * j); lia).
        apply prime_mult in G'; [|exact Q]. destruct G' as [G'|G']; [|exact G'].
        exfalso. apply Z.divide_pos_le in G'; [|lia]. lia.
      - exists (w - z * s * s * j * (c * c) + s * s * j).
        replace ((w - z * s * s * j * (c * c) + s * s * j) * n)
          with (w * n - z * s * s * (c * c) * (j * n) + s * s * (j * n)) by ring.
        rewrite <- Em, <- W. ring. }
    destruct (X 1 (or_introl eq_refl)) as [w1 W1]. destruct (X 2 (or_intror eq_refl)) as [w2 W2].
    set (C := c * c) in *. clearbody C.
    assert (F : (e + 2) * C - 2 = q * (w2 - w1)).
    { apply (Z.mul_reg_l _ _ m Hm). replace (m * (q * (w2 - w1))) with (w2 * n - w1 * n) by (rewrite En; ring).
      rewrite <- W1, <- W2. ring. }
    apply Ne. exists (w2 - w1 - (e + 2) * (w1 * m - (e + 2) * j * C + 2 * j)).
    assert (G : C - 1 = q * (w1 * m - (e + 2) * j * C + 2 * j)).
    { replace (q * (w1 * m - (e + 2) * j * C + 2 * j)) with (w1 * n - (e + 2) * C * (j * q) + 2 * (j * q)) by (rewrite En; ring).
      fold m. rewrite <- W1. ring. }
    replace ((w2 - w1 - (e + 2) * (w1 * m - (e + 2) * j * C + 2 * j)) * q)
      with (q * (w2 - w1) - (e + 2) * (q * (w1 * m - (e + 2) * j * C + 2 * j))) by ring.
    rewrite <- F, <- G. ring.
  Qed.

  Lemma split_prime q : prime q -> (q | n) -> exists m, n = q * m /\ rel_prime q m /\ 0 < m.
  Proof.
    intros Q [m M]. pose proof (prime_gt1 _ Q). exists m. split; [lia|]. split; [|nia].
    apply prime_rel_prime; [exact Q|]. intros [i I]. apply (five_square_free q Q). exists i. rewrite M, I. ring.
  Qed.

  Lemma local_case q m a : n = q * m -> rel_prime q m ->
    (q | a ^ (e + 2) - a * a) \/ ((m | c * c - 1) /\ (q | a ^ (e + 2) * (c * c) - a * a)).
  Proof.
    intros E R. destruct (crt1 q m a R) as (b & Bq & Bm).
    assert (Sq : forall C, (q | a ^ (e + 2) * C - a * a - (b ^ (e + 2) * C - b * b))).
    { intro C. pose proof (pow_cong q b a (e + 2) ltac:(lia) Bq) as P. pose proof (pow_cong q b a 2 ltac:(lia) Bq) as P2.
      rewrite !Z.pow_2_r in P2.
      replace (a ^ (e + 2) * C - a * a - (b ^ (e + 2) * C - b * b)) with ((b * b - a * a) - (b ^ (e + 2) - a ^ (e + 2)) * C) by ring.
      apply Z.divide_sub_r; [exact P2|apply Z.divide_mul_l, P]. }
    destruct (D b) as [F|F].
    - left. specialize (Sq 1). rewrite !Z.mul_1_r in Sq.
      replace (a ^ (e + 2) - a * a) with (a ^ (e + 2) - a * a - (b ^ (e + 2) - b * b) + (b ^ (e + 2) - b * b)) by ring.
      apply Z.divide_add_r; [exact Sq|]. apply Z.divide_trans with n; [exists m; lia|exact F].
    - right. split.
      + pose proof (pow_cong m b 1 (e + 2) ltac:(lia) Bm) as P. pose proof (pow_cong m b 1 2 ltac:(lia) Bm) as P2.
        rewrite Z.pow_1_l in P by lia. rewrite Z.pow_1_l, Z.pow_2_r in P2 by lia.
        replace (c * c - 1) with ((b ^ (e + 2) * (c * c) - b * b) - (b ^ (e + 2) - 1) * (c * c) + (b * b - 1)) by ring.
        apply Z.divide_add_r; [|exact P2]. apply Z.divide_sub_r; [|apply Z.divide_mul_l, P].
        apply Z.divide_trans with n; [exists q; lia|exact F].
      + replace (a ^ (e + 2) * (c * c) - a * a)
          with (a ^ (e + 2) * (c * c) - a * a - (b ^ (e + 2) * (c * c) - b * b) + (b ^ (e + 2) * (c * c) - b * b)) by ring.
        apply Z.divide_add_r; [apply Sq|]. apply Z.divide_trans with n; [exists m; lia|exact F].
  Qed.

  Lemma two_pow_e : 2 ^ (e + 2) - 2 * 2 = 4 * (4 * (t * t * (t * t)) - 1).
  Proof.
    replace (e + 2) with (k + k + (k + k) + 4) by ring. rewrite !Z.pow_add_r by lia. ring.
  Qed.
  Lemma prime_pow2 q j : prime q -> q <> 2 -> 0 <= j -> ~ (q | 2 ^ j).
  Proof.
    intros Q N Hj. pattern j. apply natlike_ind; [| |exact Hj].
    - intro F. pose proof (prime_gt1 _ Q). destruct (Z.divide_1_r _ F); lia.
    - intros i Hi IH. rewrite Z.pow_succ_r by lia. intro F. apply prime_mult in F; [|exact Q].
      destruct F as [F|F]; [|exact (IH F)]. pose proof (prime_gt1 _ Q).
      apply N. apply prime_div_prime in F; [lia|exact Q|exact prime_2].
  Qed.

  Lemma no_second m : (m | n) -> 1 < m -> ~ (m | c * c - 1).
  Proof.
    intros Dm Hm F. destruct (prime_divisor m Hm) as (q & Q & Dq).
    assert (Dn : (q | n)) by (apply Z.divide_trans with m; assumption).
    assert (Fq : (q | c * c - 1)) by (apply Z.divide_trans with m; assumption).
    destruct (odd_div q Q Dn) as [N2 _]. destruct (split_prime q Q Dn) as (m' & E & R & _).
    assert (G : (q | 2 ^ (e + 2) - 2 * 2)).
    { destruct (local_case q m' 2 E R) as [A|[_ A]]; [exact A|].
      replace (2 ^ (e + 2) - 2 * 2) with (2 ^ (e + 2) * (c * c) - 2 * 2 - 2 ^ (e + 2) * (c * c - 1)) by ring.
      apply Z.divide_sub_r; [exact A|apply Z.divide_mul_r, Fq]. }
    rewrite two_pow_e in G. apply prime_mult in G; [|exact Q]. destruct G as [G|G].
    - exact (prime_pow2 q 2 Q N2 ltac:(lia) G).
    - apply (prime_pow2 q (1 + (k + k)) Q N2 ltac:(lia)). rewrite !Z.pow_add_r by lia.
      replace (2 ^ 1 * (t * t)) with (c * c - 1 - (4 * (t * t * (t * t)) - 1) * (t * t + 1)) by (change (2 ^ 1) with 2; ring).
      apply Z.divide_sub_r; [exact Fq|apply Z.divide_mul_l, G].
  Qed.

  Theorem five_powers : ~ prime n -> forall b, (n | b ^ (e + 1) - b).
  Proof.
    intros NP b. apply square_free_divides; [lia|exact five_square_free|].
    intros q Q Dq. destruct (split_prime q Q Dq) as (m & E & R & Hm).
    assert (H1 : 1 < m).
    { destruct (Z.eq_dec m 1) as [->|]; [|lia]. exfalso. apply NP. rewrite E, Z.mul_1_r. exact Q. }
    destruct (local_case q m b E R) as [A|[A _]].
    - replace (e + 2) with (Z.succ (e + 1)) in A by ring. rewrite Z.pow_succ_r in A by lia.
      replace (b * b ^ (e + 1) - b * b) with (b * (b ^ (e + 1) - b)) in A by ring.
      apply prime_mult in A; [|exact Q]. destruct A as [A|A]; [|exact A].
      apply Z.divide_sub_r; [|exact A]. replace (e + 1) with (Z.succ e) by ring. rewrite Z.pow_succ_r by lia.
      apply Z.divide_mul_l, A.
    - exfalso. apply (no_second m); [exists q; exact E|exact H1|exact A].
  Qed.
End Five.
