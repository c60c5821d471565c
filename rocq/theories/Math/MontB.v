(** Doubling on b y^2 = x^3 + a x^2 + x by the formulas of the curves with b = 1: for y <> 0 it is right only when b = 1. *)
From Coq Require Import Ring Field.
From Verif.Math Require Import Fld.

Section MontB.
  Variable K : Fld.
  Add Field KF : (Fth K).
  Open Scope fld_scope.
  Variables a b x y : K.
  Hypothesis two : (2 : K) <> 0.
  Hypothesis b_nz : b <> 0.
  Hypothesis y_nz : y <> 0.
  Hypothesis on : b * (y * y) = x * x * x + a * (x * x) + x.

  Definition dx : K := 2 * y * ((1 + 2) * (x * x) + a * (x * x * x) - 1 - x * (y * y)).
  Definition dy : K := (2 * x + a * (x * x)) * (2 * x + a * (x * x)) - y * y * (y * y)
    - ((1 + 2) * (x * x) + 2 * a * x + 1) * (x * x - 1).
  Definition dz : K := - (2 * y * (y * y) * ((1 + 2) * b + 1)).
  Definition psi : K := (1 + 2) * (x * x * (x * x)) + 2 * 2 * a * (x * x * x) + 2 * (1 + 2) * (x * x) - 1.

  Lemma double_b l u v : l * (2 * b * y) = (1 + 2) * (x * x) + 2 * a * x + 1 ->
    u = b * (l * l) - a - 2 * x -> v = l * (x - u) - y ->
    dz <> 0 -> dx = u * dz -> dy = v * dz -> b = 1 \/ ((1 + 2 : K) = 0 /\ a * (x * x * x) = 1).
  Proof.
    intros Hl Hu Hv Nz Ex Ey.
    assert (U : 2 * 2 * b * (y * y) * u = (x * x - 1) * (x * x - 1)).
    { rewrite Hu. transitivity ((l * (2 * b * y)) * (l * (2 * b * y)) - 2 * 2 * (b * (y * y)) * (a + 2 * x)); [ring|].
      rewrite Hl, on. ring. }
    assert (P : (b - 1) * psi = 0).
    { assert (E : 2 * (y * (y * y)) * ((b - 1) * psi) = 0).
      { transitivity (2 * 2 * b * (y * y) * dx - dz * ((x * x - 1) * (x * x - 1))
          + (2 * 2 * (2 * y)) * (y * y) * x * (b * (y * y) - (x * x * x + a * (x * x) + x))).
        - unfold psi, dx, dz. ring.
        - rewrite <- U, Ex, on. ring. }
      apply Fmul_integral in E. destruct E as [E|E]; [|exact E]. exfalso.
      apply Fmul_integral in E. destruct E as [E|E]; [exact (two E)|].
      apply Fmul_integral in E. destruct E as [E|E]; [exact (y_nz E)|]. apply Fmul_integral in E. destruct E; exact (y_nz H). }
    destruct (Feqd b 1) as [|Nb]; [left; assumption|right].
    apply Fmul_integral in P. destruct P as [P|P]; [exfalso; apply Nb; apply (Fsub_zero K b 1); exact P|].
    assert (Ux : u = x).
    { assert (E : 2 * (2 * (b * (y * (y * (u - x))))) = 0).
      { transitivity (2 * 2 * b * (y * y) * u - 2 * 2 * (b * (y * y)) * x); [ring|]. rewrite U, on.
        transitivity (- psi); [unfold psi; ring|rewrite P; ring]. }
      apply Fmul_integral in E. destruct E as [E|E]; [destruct (two E)|].
      apply Fmul_integral in E. destruct E as [E|E]; [destruct (two E)|].
      apply Fmul_integral in E. destruct E as [E|E]; [destruct (b_nz E)|].
      apply Fmul_integral in E. destruct E as [E|E]; [destruct (y_nz E)|].
      apply Fmul_integral in E. destruct E as [E|E]; [destruct (y_nz E)|]. apply (Fsub_zero K u x). exact E. }
    assert (E : y * (y * (y * (y * (((1 + 2) * b + 1) * ((1 + 2) * (b - 1)))))) = 0).
    { transitivity (dy + y * dz - (psi * (- ((1 + 2) * (x * x) + 2 * a * x + 1))
        + (1 + 2) * (1 + 2) * ((x * x * x + a * (x * x) + x) * (x * x * x + a * (x * x) + x)))
        + (1 + 2) * (1 + 2) * ((b * (y * y)) * (b * (y * y)))).
      - unfold dy, dz, psi. ring.
      - rewrite P, on, Ey, Hv, Ux. ring. }
    do 4 (apply Fmul_integral in E; destruct E as [E|E]; [destruct (y_nz E)|]).
    apply Fmul_integral in E. destruct E as [E|E]; [exfalso; apply Nz; unfold dz; rewrite E; ring|].
    apply Fmul_integral in E. destruct E as [E|E]; [|exfalso; apply Nb; apply (Fsub_zero K b 1); exact E].
    split; [exact E|]. apply (Fsub_zero K). rewrite <- P. unfold psi.
    transitivity ((1 + 2) * (- (x * x * (x * x)) - a * (x * x * x) - 2 * (x * x))
      + ((1 + 2) * (x * x * (x * x)) + 2 * 2 * a * (x * x * x) + 2 * (1 + 2) * (x * x) - 1)); [ring|rewrite E; ring].
  Qed.
End MontB.
