(** Norms from K(i) over a field where -1 is not a square and x or -x always is. *)
From Coq Require Import Ring Field.
From Verif.Math Require Import Fld.

Definition sq {K : Fld} (x : K) : Prop := exists y : K, (y * y)%F = x.

Section Quad.
  Variable K : Fld.
  Add Field KFquad : (Fth K).
  Open Scope fld_scope.
  Hypothesis two : (2 : K) <> 0.
  Hypothesis neg1 : ~ sq (- (1) : K).
  Hypothesis either : forall x : K, sq x \/ sq (- x).

  Lemma norm_nz (a b : K) : ~ (a = 0 /\ b = 0) -> a * a + b * b <> 0.
  Proof.
    intros N E. destruct (Feqd b 0) as [->|Hb].
    - apply N. split; [|reflexivity]. apply Fsqr_zero. transitivity (a * a + 0 * 0); [ring|exact E].
    - apply neg1. exists (a / b).
      transitivity ((a * a + b * b) / (b * b) - 1); [field; fnz|]. rewrite E. field. fnz.
  Qed.

  Lemma norm_sq (a b : K) : sq (a * a + b * b) <-> exists c d : K, c * c - d * d = a /\ 2 * c * d = b.
  Proof.
    split.
    - intros [n Hn]. destruct (Feqd b 0) as [->|Hb].
      + destruct (either a) as [[c Hc]|[c Hc]].
        * exists c, 0. split; [rewrite <- Hc; ring|ring].
        * exists 0, c. split; [transitivity (- (c * c)); [ring|rewrite Hc; ring]|ring].
      + set (h := b / 2). set (u := (a + n) / 2). set (v := (a - n) / 2).
        assert (UV : u * v = - (h * h)).
        { transitivity ((a * a - n * n) / (2 * 2)); [unfold u, v; field; fnz|].
          rewrite Hn. unfold h. field. fnz. }
        assert (Hh : h <> 0).
        { intro E. apply Hb. transitivity (h * 2); [unfold h; field; fnz|]. rewrite E. ring. }
        assert (G : forall w w' : K, w + w' = a -> w * w' = - (h * h) -> sq w ->
          exists c d : K, c * c - d * d = a /\ 2 * c * d = b).
        { intros w w' S P [c Hc].
          assert (Hc0 : c <> 0).
          { intros ->. apply (Fmul_nonzero K _ _ Hh Hh).
            transitivity (- - (h * h)); [ring|]. rewrite <- P, <- Hc. ring. }
          exists c, (h / c). split.
          - rewrite <- S.
            assert (E : h / c * (h / c) = - w').
            { apply (Fcancel_l K (c * c)); [apply Fmul_nonzero; exact Hc0|].
              transitivity (h * h); [field; fnz|].
              transitivity (- - (h * h)); [ring|]. rewrite <- P, <- Hc. ring. }
            rewrite E, Hc. ring.
          - unfold h. field. fnz. }
        destruct (either u) as [Su|[s Hs]].
        * apply (G u v); auto. unfold u, v. field. fnz.
        * destruct (either v) as [Sv|[t Ht]].
          -- apply (G v u); auto; [unfold u, v; field; fnz|]. rewrite <- UV. ring.
          -- exfalso. apply neg1. exists (s * t / h).
             transitivity (s * s * (t * t) / (h * h)); [field; fnz|]. rewrite Hs, Ht.
             transitivity (u * v / (h * h)); [field; fnz|]. rewrite UV. field. fnz.
    - intros (c & d & <- & <-). exists (c * c + d * d). ring.
  Qed.

  Lemma norm_div (a b : K) : ~ (a = 0 /\ b = 0) ->
    let n := a * a + b * b in
    ((a * (a / n) - b * (b / n) = 1 /\ a * (b / n) + b * (a / n) = 0) <-> b = 0).
  Proof.
    intros N n. pose proof (norm_nz a b N) as Hn. fold n in Hn. split.
    - intros [E _].
      assert (a * a - b * b = n).
      { transitivity (n * (a * (a / n) - b * (b / n))); [field; fnz|]. rewrite E. ring. }
      apply Fsqr_zero. apply (Fcancel_l K 2); [exact two|].
      transitivity (n - (a * a - b * b)); [unfold n; ring|]. rewrite H. ring.
    - intros ->. assert (n = a * a) as Ea by (unfold n; ring). rewrite Ea in *.
      assert (a <> 0) by (intros ->; apply Hn; ring). split; field; assumption.
  Qed.
End Quad.
