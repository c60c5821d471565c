(** Checking the hypotheses of the examples on small fields by enumeration. *)
From Coq Require Import ZArith Znumtheory Lia Bool List.
Import ListNotations.
Open Scope Z_scope.

Definition upto (p : Z) : list Z := map Z.of_nat (seq 0 (Z.to_nat p)).
Lemma in_upto p x : 0 <= x < p -> In x (upto p).
Proof.
  intro H. apply in_map_iff. exists (Z.to_nat x). split; [lia|]. apply in_seq. lia.
Qed.
Lemma all_upto p f : forallb f (upto p) = true -> forall x, 0 <= x < p -> f x = true.
Proof. intros H x Hx. rewrite forallb_forall in H. apply H, in_upto, Hx. Qed.
Lemma prime_small p : (1 <? p) && forallb (fun d => (d =? 0) || (Z.gcd d p =? 1)) (upto p) = true -> prime p.
Proof.
  intro H. apply andb_true_iff in H. destruct H as [L H]. apply Z.ltb_lt in L. apply prime_intro; [lia|].
  intros n Hn. pose proof (all_upto p _ H n ltac:(lia)) as G. apply orb_true_iff in G. rewrite !Z.eqb_eq in G.
  apply Zgcd_1_rel_prime. lia.
Qed.
Lemma no_root_small p f : 0 < p -> (forall x, exists k, f x = f (x mod p) + k * p) ->
  forallb (fun x => negb (f x mod p =? 0)) (upto p) = true -> forall x, ~ (p | f x).
Proof.
  intros Hp M H x [c D]. pose proof (all_upto p _ H (x mod p) (Z.mod_pos_bound x p Hp)) as G.
  apply negb_true_iff, Z.eqb_neq in G. apply G. destruct (M x) as [k E].
  replace (f (x mod p)) with ((c - k) * p) by lia. apply Z_mod_mult.
Qed.
