(** Multiples of the base point, told apart with the operations of a curve: one proof for all kinds of curves. *)
From Coq Require Import ZArith Znumtheory Lia Bool List.
From Verif.Math Require Import FinGroup.
From Verif.Spec Require Import Arith Curve Order.
From Verif.Model Require Import Out BigInt PrimeField Scalar.
From Verif.Proofs Require Import ScalarProps ScLaw.
Import ListNotations.
Open Scope Z_scope.

Section Member.
  Context {MP S T : Type} {point : MP -> S -> Prop} {ssum : S -> S -> S -> Prop} {szero : S} {r : Z}
    {mmul : bool -> MP -> Scalar -> out MP} {madd msub : MP -> MP -> out MP} {mneg : MP -> out MP} {meqb : MP -> MP -> out bool}
    {on : T -> Prop} {add : T -> T -> T} {opp : T -> T} {zero : T} {rep : MP -> T -> Prop} {enc : T -> S}.
  Hypothesis LW : laws point ssum szero r mmul madd msub mneg meqb on add opp zero rep enc.
  Local Notation mul := (FinGroup.mul add zero).
  Local Notation zmul := (FinGroup.zmul add opp zero).
  Let HG := l_grp LW.
  Variables (MG : MP) (G : T).
  Hypothesis Grep : rep MG G.
  Hypothesis r1 : 1 < r.
  Hypothesis rG : multiple ssum szero (enc G) (Z.to_nat r) szero.
  Let OG : on G := l_on LW _ _ Grep.

  Lemma killed_of A n : on A -> 0 <= n -> (multiple ssum szero (enc A) (Z.to_nat n) szero <-> zmul n A = zero).
  Proof.
    intros OA Hn. rewrite (l_mult LW A (Z.to_nat n) szero OA). rewrite <- (l_zero LW).
    rewrite <- (FinGroup.zmul_nat add opp zero), Z2Nat.id by exact Hn. split; intro E; [symmetry; exact (l_inj LW _ _ E)|congruence].
  Qed.
  Lemma rG0 : zmul r G = zero.
  Proof. apply (killed_of G r OG); [lia|exact rG]. Qed.
  Lemma gen_iff A : on A -> (generated ssum szero (enc G) r (enc A) <-> exists z, A = zmul z G).
  Proof.
    intro OA. split.
    - intros (j & Hj & M). apply (l_mult LW _ _ _ OG) in M. apply (l_inj LW) in M. exists j. rewrite M, <- (FinGroup.zmul_nat add opp zero), Z2Nat.id by lia. reflexivity.
    - intros (z & E). exists (z mod r). split; [apply Z.mod_pos_bound; lia|]. apply (l_mult LW _ _ _ OG).
      rewrite <- (FinGroup.zmul_nat add opp zero), Z2Nat.id by (apply Z.mod_pos_bound; lia). f_equal. rewrite E.
      symmetry. apply (kill_res on add opp zero HG r G z); [exact OG|exact rG0|].
      split; [apply Z.mod_pos_bound; lia|]. exists (z / r). rewrite (Z.div_mod z r) at 1 by lia. lia.
  Qed.
  Lemma gen_killed A : on A -> generated ssum szero (enc G) r (enc A) -> zmul r A = zero.
  Proof.
    intros OA H. apply (gen_iff A OA) in H. destruct H as (z & ->). rewrite (zmul_comm _ _ _ _ HG) by exact OG. rewrite rG0. apply (zmul_zero _ _ _ _ HG).
  Qed.
  Lemma bezout a b A : on A -> Z.gcd a b = 1 -> exists u v, A = add (zmul u (zmul a A)) (zmul v (zmul b A)).
  Proof.
    intros OA Hg. destruct (Z.gcd_bezout a b 1 Hg) as (u & v & E). exists u, v.
    rewrite <- !(zmul_mul _ _ _ _ HG), <- (zmul_add _ _ _ _ HG) by exact OA. rewrite E. symmetry. apply (zmul_1 _ _ _ _ HG), OA.
  Qed.
  (** the test *)
  Lemma member_test h : 0 <= h -> Z.gcd h r = 1 -> forall oc P A, point P A ->
    (exists C, multiple ssum szero A (Z.to_nat h) C /\ generated ssum szero (enc G) r C) ->
    exists U V b, mmul oc P (mkScalar (r - 1) r) = Ret U /\ mneg P = Ret V /\ meqb U V = Ret b
    /\ (b = true <-> generated ssum szero (enc G) r A).
  Proof.
    intros h0 Hg oc P A0 HP (C & MC & GC). apply (l_point LW) in HP. destruct HP as (A & -> & HP). pose proof (l_on LW _ _ HP) as OA.
    assert (V1 : valid_scalar r (mkScalar (r - 1) r)) by (split; cbn [sk sr]; [reflexivity|lia]).
    destruct (law_mul add opp zero rep r mmul (l_mul LW) oc P A _ HP V1) as (U & EU & HU); [cbn [sk]; lia|]. cbn [sk] in HU.
    destruct (l_neg LW _ _ HP) as (V & EV & HV). destruct (l_eqb LW _ _ _ _ HU HV) as (b & Eb & Hb).
    exists U, V, b. split; [exact EU|]. split; [exact EV|]. split; [exact Eb|]. rewrite Hb.
    assert (K : zmul (r - 1) A = opp A <-> zmul r A = zero).
    { assert (E : zmul (r - 1) A = add (zmul r A) (opp A)).
      { change (r - 1) with (r + Z.opp 1). rewrite (zmul_add _ _ _ _ HG) by exact OA. f_equal. rewrite (zmul_opp _ _ _ _ HG) by exact OA. f_equal. apply (zmul_1 _ _ _ _ HG), OA. }
      rewrite E. pose proof (on_zmul _ _ _ _ HG r A OA) as Or. pose proof (g_opp _ _ _ _ HG A OA) as OO. split; intro Q.
      - assert (Q' : add (add (zmul r A) (opp A)) A = add (opp A) A) by (rewrite Q; reflexivity).
        rewrite (g_assoc _ _ _ _ HG) in Q' by assumption. rewrite (g_comm _ _ _ _ HG (opp A) A) in Q' by assumption. rewrite (g_inv _ _ _ _ HG) in Q' by assumption.
        rewrite (g_id _ _ _ _ HG) in Q' by assumption. exact Q'.
      - rewrite Q. apply (idl _ _ _ _ HG), OO. }
    rewrite K. split; [|apply gen_killed, OA]. intro Z0. apply (gen_iff A OA).
    apply (l_mult LW _ _ _ OA) in MC. subst C.
    assert (OM : on (mul (Z.to_nat h) A)) by (apply (on_mul _ _ _ _ HG), OA).
    apply (gen_iff _ OM) in GC. destruct GC as (j & Ej). rewrite <- (FinGroup.zmul_nat add opp zero), Z2Nat.id in Ej by exact h0.
    destruct (bezout h r A OA Hg) as (u & v & EA). exists (u * j). rewrite EA, Ej, Z0, (zmul_zero _ _ _ _ HG). rewrite (zmul_mul _ _ _ _ HG) by exact OG.
    apply (g_id _ _ _ _ HG). repeat apply (on_zmul _ _ _ _ HG). exact OG.
  Qed.
  (** the order itself, as a scalar *)
  Lemma order_scalar P A : point P A -> exists Z0, mmul false P (mkScalar 0 r) = Ret Z0 /\ point Z0 szero.
  Proof.
    intros HP. apply (l_point LW) in HP. destruct HP as (A' & -> & HP).
    destruct (l_mul LW false P A' (mkScalar 0 r) HP) as (Z0 & E & HZ); [split; cbn [sk sr]; [reflexivity|lia]|discriminate|].
    exists Z0. split; [exact E|]. apply (l_point LW). exists zero. split; [symmetry; apply (l_zero LW)|exact HZ].
  Qed.
  (** a point of order prime to r is not a multiple of the base point *)
  Lemma not_generated P A q : point P A -> 0 <= q -> Z.gcd q r = 1 -> multiple ssum szero A (Z.to_nat q) szero -> A <> szero ->
    ~ generated ssum szero (enc G) r A.
  Proof.
    intros HP Hq Hg M NZ H. apply (l_point LW) in HP. destruct HP as (A' & -> & HP). pose proof (l_on LW _ _ HP) as OA.
    apply (killed_of A' q OA Hq) in M. apply (gen_killed A' OA) in H. apply NZ. rewrite <- (l_zero LW). f_equal.
    destruct (bezout q r A' OA Hg) as (u & v & ->). rewrite M, H, !(zmul_zero _ _ _ _ HG). apply (g_id _ _ _ _ HG), (g_zero _ _ _ _ HG).
  Qed.
End Member.
