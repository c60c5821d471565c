(** Pocklington's criterion, with a checker that evaluates it on limbs. *)
From Coq Require Import ZArith Znumtheory Zpow_facts Lia List Bool Uint63.
From Verif.Math Require Import Zp Limb.
Import ListNotations.
Open Scope Z_scope.

Lemma prime_factor n : 1 < n -> exists q, prime q /\ (q | n).
Proof.
  intro H. assert (G : forall k m, 1 < m -> m <= Z.of_nat k -> exists q, prime q /\ (q | m)).
  { induction k as [|k IH]; intros m Hm Hk; [lia|]. destruct (prime_dec m) as [P|P]; [exists m; split; [exact P|apply Z.divide_refl]|].
    destruct (not_prime_divide m Hm P) as (d & Hd & D). destruct (IH d) as (q & Pq & Dq); [lia|lia|].
    exists q. split; [exact Pq|]. eapply Z.divide_trans; eassumption. }
  apply (G (Z.to_nat n)); lia.
Qed.
Lemma small_factor n : 1 < n -> ~ prime n -> exists q, prime q /\ (q | n) /\ q * q <= n.
Proof.
  intros H NP. destruct (not_prime_divide n H NP) as (d & Hd & [c E]).
  assert (Hc : 1 < c) by nia.
  destruct (Z.le_gt_cases (d * d) n) as [L|L].
  - destruct (prime_factor d) as (q & Pq & Dq); [lia|]. exists q. split; [exact Pq|].
    assert (Hq : q <= d) by (apply Z.divide_pos_le; [lia|exact Dq]). assert (1 < q) by (destruct Pq; assumption).
    split; [eapply Z.divide_trans; [exact Dq|exists c; lia]|].
    apply Z.le_trans with (d * d); [apply Z.mul_le_mono_nonneg; lia|exact L].
  - destruct (prime_factor c Hc) as (q & Pq & Dq). exists q. split; [exact Pq|].
    assert (Hq : q <= c) by (apply Z.divide_pos_le; [lia|exact Dq]). assert (1 < q) by (destruct Pq; assumption).
    split; [eapply Z.divide_trans; [exact Dq|exists d; lia]|].
    apply Z.le_trans with (c * c); [apply Z.mul_le_mono_nonneg; lia|]. rewrite E in L |- *. apply Z.mul_le_mono_nonneg_l; [lia|].
    apply Z.lt_le_incl. apply (proj2 (Z.mul_lt_mono_pos_r d c d ltac:(lia))). lia.
Qed.
Lemma pow_one_mul P b m k : 0 <= m -> 0 <= k -> (P | b ^ m - 1) -> (P | b ^ (m * k) - 1).
Proof.
  intros Hm Hk H. rewrite Z.pow_mul_r by assumption. revert Hk. apply natlike_ind with (P := fun k => (P | (b ^ m) ^ k - 1)).
  - rewrite Z.pow_0_r. exists 0. lia.
  - intros x Hx IH. rewrite Z.pow_succ_r by exact Hx.
    replace (b ^ m * (b ^ m) ^ x - 1) with (b ^ m * ((b ^ m) ^ x - 1) + (b ^ m - 1)) by ring.
    apply Z.divide_add_r; [apply Z.divide_mul_r, IH|exact H].
Qed.
Lemma pow_one_gcd P b : forall k m n, 0 <= m -> 0 <= n <= Z.of_nat k -> (P | b ^ m - 1) -> (P | b ^ n - 1) -> (P | b ^ Z.gcd m n - 1).
Proof.
  induction k as [|k IH]; intros m n Hm Hn Dm Dn.
  - replace n with 0 by lia. rewrite Z.gcd_0_r, Z.abs_eq by lia. exact Dm.
  - destruct (Z.eq_dec n 0) as [->|N]; [rewrite Z.gcd_0_r, Z.abs_eq by lia; exact Dm|].
    rewrite Z.gcd_comm. rewrite <- Z.gcd_mod by lia. rewrite Z.gcd_comm.
    pose proof (Z.mod_pos_bound m n ltac:(lia)) as Hr. apply IH; [lia|lia|exact Dn|].
    pose proof (Z.div_mod m n N) as E. assert (Hq : 0 <= m / n) by (apply Z.div_pos; lia).
    pose proof (pow_one_mul P b n (m / n) ltac:(lia) Hq Dn) as D.
    assert (E2 : b ^ m = b ^ (n * (m / n)) * b ^ (m mod n)) by (rewrite <- Z.pow_add_r by nia; f_equal; lia).
    replace (b ^ (m mod n) - 1) with ((b ^ m - 1) - b ^ (m mod n) * (b ^ (n * (m / n)) - 1)) by (rewrite E2; ring).
    apply Z.divide_sub_r; [exact Dm|apply Z.divide_mul_r, D].
Qed.

Theorem pocklington N F b : 1 < N -> 0 < F -> F * F >= N -> (N | b ^ F - 1) ->
  (forall q, prime q -> (q | F) -> rel_prime (b ^ (F / q) - 1) N) -> prime N.
Proof.
  intros HN HF HS HB HQ. destruct (prime_dec N) as [|NP]; [assumption|exfalso].
  destruct (small_factor N HN NP) as (P & PP & DP & LP). assert (P1 : 1 < P) by (destruct PP; assumption).
  assert (BF : (P | b ^ F - 1)) by (eapply Z.divide_trans; eassumption).
  assert (NB : ~ (P | b)).
  { intro D. assert ((P | 1)) as D1.
    { replace 1 with (b ^ F - (b ^ F - 1)) by ring. apply Z.divide_sub_r; [|exact BF].
      replace F with (Z.succ (F - 1)) by lia. rewrite Z.pow_succ_r by lia. apply Z.divide_mul_l, D. }
    apply Z.divide_1_r_nonneg in D1; lia. }
  assert (BP : (P | b ^ (P - 1) - 1)).
  { pose proof (fermat P b PP NB) as E. exists (b ^ (P - 1) / P). pose proof (Z.div_mod (b ^ (P - 1)) P ltac:(lia)). lia. }
  set (d := Z.gcd F (P - 1)).
  assert (Bd : (P | b ^ d - 1)) by (apply (pow_one_gcd P b (Z.to_nat (P - 1))); try assumption; lia).
  assert (d0 : 0 < d). { pose proof (Z.gcd_nonneg F (P - 1)). assert (d <> 0) by (intro E; apply Z.gcd_eq_0_l in E; lia). lia. }
  destruct (Z.gcd_divide_l F (P - 1)) as [c Ec]. fold d in Ec.
  assert (c0 : 0 < c) by nia. destruct (Z.eq_dec c 1) as [->|C1].
  - assert ((F | P - 1)) as D by (replace F with d by lia; apply Z.gcd_divide_r).
    apply Z.divide_pos_le in D; [|lia]. nia.
  - destruct (prime_factor c ltac:(lia)) as (q & Pq & [k Ek]). assert (1 < q) by (destruct Pq; assumption).
    assert (DqF : (q | F)) by (exists (k * d); lia).
    pose proof (HQ q Pq DqF) as RP. assert (EF : F / q = d * k) by (symmetry; apply Z.div_unique_exact; lia).
    rewrite EF in RP. assert (D : (P | b ^ (d * k) - 1)) by (apply pow_one_mul; [lia|nia|exact Bd]).
    assert (D1 : (P | 1)) by (apply RP; assumption). apply Z.divide_1_r_nonneg in D1; lia.
Qed.

(** *** the checker *)
Definition pexp (qs : list (Z * positive)) : Z := fold_right (fun q r => fst q ^ Zpos (snd q) * r) 1 qs.
Section Run.
  Variable C : ctx.
  (** t * prod (b^(F/q) - 1) *)
  Fixpoint prods (F : Z) (b one k : list int) (qs : list (Z * positive)) (t : list int) : option (list int) :=
    match qs with
    | [] => Some t
    | (q, _) :: qs' => bnd (mpow C b (Z.to_pos (F / q))) (fun s => bnd (msub k s one) (fun d => bnd (mm C t d) (prods F b one k qs')))
    end.
  Definition pock_run (N F a : Z) (qs : list (Z * positive)) : option bool :=
    let one := enc C 1 in let k := limbs (nl C) (8 * N) in
    bnd (mpow C (enc C a) (Z.to_pos ((N - 1) / F))) (fun b =>
    bnd (mpow C b (Z.to_pos F)) (fun r =>
    bnd (prods F b one k qs one) (fun t =>
    Some (repr C r 1 && mult_ok C k && (Z.gcd (V t) N =? 1))))).
End Run.
Definition pock (N F a : Z) (qs : list (Z * positive)) : bool :=
  let C := make N in
  ctx_ok C && (md C =? N) && (1 <? F) && (N <=? F * F) && ((N - 1) mod F =? 0) && (pexp qs =? F) && forallb (fun q => 1 <? fst q) qs
  && match pock_run C N F a qs with Some t => t | None => false end.

Lemma pexp_prime qs : (forall q e, In (q, e) qs -> prime q) -> forall q, prime q -> (q | pexp qs) -> exists e, In (q, e) qs.
Proof.
  induction qs as [|[q0 e0] qs IH]; intros H q Pq D; cbn in D.
  - apply Z.divide_1_r_nonneg in D; destruct Pq; lia.
  - apply prime_mult in D; [|exact Pq]. destruct D as [D|D].
    + assert (Pq0 : prime q0) by (apply (H q0 e0); left; reflexivity).
      assert (E : q = q0) by (apply (prime_power_prime q q0 (Zpos e0)); try assumption; lia). subst q0. exists e0. left. reflexivity.
    + destruct (IH (fun q e I => H q e (or_intror I)) q Pq D) as [e I]. exists e. right. exact I.
Qed.
Lemma prods_R C k one F b xb : ctx_ok C = true -> mult_ok C k = true -> 0 < F -> R C b xb -> R C one 1 ->
  forall qs t xt r, (forall q e, In (q, e) qs -> 1 < q /\ (q | F)) -> R C t xt -> prods C F b one k qs t = Some r ->
  exists x, R C r x /\ (xt | x) /\ forall q e, In (q, e) qs -> (xb ^ (F / q) - 1 | x).
Proof.
  intros HC Hk HF Hb H1. induction qs as [|[q e] qs IH]; intros t xt r HQ Ht; cbn [prods].
  - intro E. injection E as <-. exists xt. split; [exact Ht|]. split; [apply Z.divide_refl|]. intros q e [].
  - destruct (mpow C b (Z.to_pos (F / q))) as [s|] eqn:Es; [|discriminate]. cbn [bnd].
    destruct (msub k s one) as [d|] eqn:Ed; [|discriminate]. cbn [bnd].
    destruct (mm C t d) as [t'|] eqn:Et; [|discriminate]. cbn [bnd]. intro E.
    destruct (HQ q e (or_introl eq_refl)) as [Q1 QF].
    pose proof (R_pow C HC _ _ _ Hb _ Es) as Hs. rewrite Z2Pos.id in Hs.
    2: { destruct QF as [c ->]. rewrite Z.div_mul by lia. nia. }
    pose proof (R_sub C HC k _ _ _ _ _ Hk Hs H1 Ed) as Hd.
    pose proof (R_mul C HC _ _ _ _ _ Ht Hd Et) as Ht'.
    destruct (IH t' _ r (fun q e I => HQ q e (or_intror I)) Ht' E) as (x & Hx & Dx & Ix).
    exists x. split; [exact Hx|]. split; [eapply Z.divide_trans; [|exact Dx]; apply Z.divide_factor_l|].
    intros q' e' [I|I]; [|exact (Ix q' e' I)]. assert (q' = q) as -> by congruence.
    eapply Z.divide_trans; [|exact Dx]. apply Z.divide_factor_r.
Qed.
Theorem pock_prime N F a qs : pock N F a qs = true -> (forall q e, In (q, e) qs -> prime q) -> prime N.
Proof.
  unfold pock. set (C := make N). rewrite !andb_true_iff. intros (((((((HC & HM) & HF) & HS) & HD) & HE) & HG) & HR) HP.
  apply Z.eqb_eq in HM, HD, HE. apply Z.ltb_lt in HF. apply Z.leb_le in HS. apply Zmod_divide in HD; [|lia].
  destruct (ctx_open C HC) as (_ & _ & _ & _ & _ & N1). rewrite HM in N1.
  unfold pock_run in HR. set (one := enc C 1) in *. set (k := limbs (nl C) (8 * N)) in *.
  destruct (mpow C (enc C a) (Z.to_pos ((N - 1) / F))) as [b|] eqn:Eb; [|discriminate]. cbn [bnd] in HR.
  destruct (mpow C b (Z.to_pos F)) as [r|] eqn:Er; [|discriminate]. cbn [bnd] in HR.
  destruct (prods C F b one k qs one) as [t|] eqn:Et; [|discriminate]. cbn [bnd] in HR.
  rewrite !andb_true_iff in HR. destruct HR as ((HR1 & HK) & HT).
  pose proof (R_pow C HC _ _ _ (enc_R C HC a) _ Eb) as Rb. set (xb := a ^ Z.pos (Z.to_pos ((N - 1) / F))) in *.
  pose proof (R_pow C HC _ _ _ Rb _ Er) as Rr. rewrite Z2Pos.id in Rr by lia.
  apply (R_iff C HC _ _ _ Rr) in HR1. rewrite HM in HR1. apply Z.eqb_eq in HT.
  assert (QF : forall q e, In (q, e) qs -> 1 < q /\ (q | F)).
  { intros q e I. split; [apply Z.ltb_lt; rewrite forallb_forall in HG; exact (HG (q, e) I)|]. rewrite <- HE. clear - I.
    induction qs as [|[q0 e0] qs IH]; [destruct I|]. change (pexp ((q0, e0) :: qs)) with (q0 ^ Zpos e0 * pexp qs). destruct I as [I|I].
    - assert (q0 = q) as -> by congruence. assert (e0 = e) as -> by congruence. apply Z.divide_mul_l.
      replace (Z.pos e) with (Z.succ (Z.pos e - 1)) by lia. rewrite Z.pow_succ_r by lia. apply Z.divide_factor_l.
    - apply Z.divide_mul_r, IH, I. }
  destruct (prods_R C k one F b xb HC HK ltac:(lia) Rb (enc_R C HC 1) qs one 1 t QF (enc_R C HC 1) Et) as (x & (_ & Dx) & _ & HX).
  apply (pocklington N F xb); try assumption; try lia.
  intros q Pq Dq. rewrite <- HE in Dq. destruct (pexp_prime qs HP q Pq Dq) as [e I].
  apply Zgcd_1_rel_prime in HT. rewrite HM in Dx. constructor; [apply Z.divide_1_l|apply Z.divide_1_l|].
  intros y D1 D2. apply HT; [|exact D2].
  replace (V t) with ((V t - x * rad C) + x * rad C) by ring. apply Z.divide_add_r; [eapply Z.divide_trans; eassumption|].
  apply Z.divide_mul_l. eapply Z.divide_trans; [exact D1|]. exact (HX q e I).
Qed.

(** *** small primes, by trial division *)
Definition trial (n k : Z) : bool :=
  (1 <? n) && (0 <=? k) && (n <? (k + 2) * (k + 2)) && forallb (fun i => negb (n mod (Z.of_nat i + 2) =? 0)) (seq 0 (Z.to_nat k)).
Lemma trial_prime n k : trial n k = true -> prime n.
Proof.
  unfold trial. rewrite !andb_true_iff. intros (((H1 & H0) & H2) & H3). apply Z.ltb_lt in H1, H2. apply Z.leb_le in H0. rewrite forallb_forall in H3.
  destruct (prime_dec n) as [|NP]; [assumption|exfalso]. destruct (small_factor n H1 NP) as (q & Pq & Dq & Lq).
  assert (Q : 1 < q) by (destruct Pq; assumption). assert (q < k + 2) by (apply Z.square_lt_simpl_nonneg; lia).
  specialize (H3 (Z.to_nat (q - 2))). rewrite negb_true_iff, Z.eqb_neq in H3. apply H3; [apply in_seq; lia|].
  replace (Z.of_nat (Z.to_nat (q - 2)) + 2) with q by lia. apply Zdivide_mod, Dq.
Qed.
Ltac in_list :=
  let q := fresh "q" in let e := fresh "e" in let I := fresh "I" in
  intros q e I; cbn [In] in I; repeat match type of I with _ \/ _ => destruct I as [I|I]; [apply (f_equal fst) in I; cbn [fst] in I; subst q|] end;
  [..|destruct I].
