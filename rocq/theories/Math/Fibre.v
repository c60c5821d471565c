(** How many field elements the maps of [MapAlg] send to one point, over any field with a sign. *)
From Coq Require Import Arith Lia List Bool Ring Field.
From Verif.Math Require Import Fld Pow MapAlg.
From Verif.Spec Require Import Counting.
Import ListNotations.

Section Count.
  Context {T : Type}.
  Lemma at_most_weak (n m : nat) (P Q : T -> Prop) : n <= m -> (forall x, P x -> Q x) -> at_most n Q -> at_most m P.
  Proof. intros L I H l N A. apply (Nat.le_trans _ n); [|exact L]. apply H; [exact N|]. intros x Hx. apply I, A, Hx. Qed.
  Lemma split_list (P Q : T -> Prop) l : NoDup l -> (forall x, In x l -> P x \/ Q x) ->
    exists l1 l2, NoDup l1 /\ NoDup l2 /\ (forall x, In x l1 -> P x) /\ (forall x, In x l2 -> Q x)
      /\ length l = length l1 + length l2 /\ incl l1 l /\ incl l2 l.
  Proof.
    induction l as [|a l IH]; intros N A.
    - exists [], []. repeat split; try constructor; intros x [].
    - inversion N as [|? ? Na N']; subst. destruct IH as (l1 & l2 & N1 & N2 & A1 & A2 & L & I1 & I2); [exact N'|intros x Hx; apply A; right; exact Hx|].
      destruct (A a (or_introl eq_refl)) as [H|H].
      + exists (a :: l1), l2. split; [constructor; [intro Hx; apply Na, I1, Hx|exact N1]|]. split; [exact N2|].
        split; [intros x [<-|Hx]; [exact H|apply A1, Hx]|]. split; [exact A2|]. split; [cbn; lia|].
        split; [intros x [<-|Hx]; [left; reflexivity|right; apply I1, Hx]|intros x Hx; right; apply I2, Hx].
      + exists l1, (a :: l2). split; [exact N1|]. split; [constructor; [intro Hx; apply Na, I2, Hx|exact N2]|].
        split; [exact A1|]. split; [intros x [<-|Hx]; [exact H|apply A2, Hx]|]. split; [cbn; lia|].
        split; [intros x Hx; right; apply I1, Hx|intros x [<-|Hx]; [left; reflexivity|right; apply I2, Hx]].
  Qed.
  Lemma at_most_or (n m : nat) (P Q : T -> Prop) : at_most n P -> at_most m Q -> at_most (n + m) (fun x => P x \/ Q x).
  Proof.
    intros HP HQ l N A. destruct (split_list P Q l N A) as (l1 & l2 & N1 & N2 & A1 & A2 & -> & _).
    pose proof (HP l1 N1 A1). pose proof (HQ l2 N2 A2). lia.
  Qed.
  Lemma at_most_one (a : T) : at_most 1 (fun x => x = a).
  Proof.
    intros [|x [|y l]] N A; cbn; try lia. exfalso. inversion N as [|? ? H _]; subst. apply H. left.
    rewrite (A x), (A y); [reflexivity|right; left; reflexivity|left; reflexivity].
  Qed.
  Lemma at_most_none (P : T -> Prop) : (forall x, ~ P x) -> at_most 0 P.
  Proof. intros H [|x l] _ A; [cbn; lia|]. destruct (H x (A x (or_introl eq_refl))). Qed.
End Count.
Lemma at_most_inj {T U : Type} (f : T -> U) (n : nat) (P : T -> Prop) (Q : U -> Prop) :
  (forall x y, P x -> P y -> f x = f y -> x = y) -> (forall x, P x -> Q (f x)) -> at_most n Q -> at_most n P.
Proof.
  intros I F H l N A. rewrite <- (map_length f l). apply H.
  - clear H. induction N as [|a l Na N IH]; [constructor|]. cbn. constructor.
    + intro Hx. apply in_map_iff in Hx. destruct Hx as (b & E & Hb). apply Na.
      rewrite <- (I b a); [exact Hb|apply A; right; exact Hb|apply A; left; reflexivity|exact E].
    + apply IH. intros x Hx. apply A. right. exact Hx.
  - intros y Hy. apply in_map_iff in Hy. destruct Hy as (x & <- & Hx). apply F, A, Hx.
Qed.
(** small fibres: the image is not small *)
Lemma image_size {T U : Type} (U_dec : forall x y : U, {x = y} + {x <> y}) (f : T -> U) (n : nat) (l : list T) : NoDup l ->
  (forall y, at_most n (fun x => In x l /\ f x = y)) ->
  exists im, NoDup im /\ (forall y, In y im -> exists x, In x l /\ f x = y) /\ length l <= n * length im.
Proof.
  intros N H. exists (nodup U_dec (map f l)). split; [apply NoDup_nodup|]. split.
  { intros y Hy. apply nodup_In, in_map_iff in Hy. destruct Hy as (x & E & Hx). exists x. auto. }
  assert (G : forall (im : list U) l', NoDup im -> NoDup l' -> incl l' l -> (forall x, In x l' -> In (f x) im) -> length l' <= n * length im).
  { induction im as [|y im IH]; intros l' Nim N' I F.
    - destruct l' as [|x l']; [cbn; lia|]. destruct (F x (or_introl eq_refl)).
    - inversion Nim as [|? ? Ny Nim']; subst.
      destruct (split_list (fun x => f x = y) (fun x => In (f x) im) l' N') as (l1 & l2 & N1 & N2 & A1 & A2 & L & I1 & I2).
      { intros x Hx. destruct (F x Hx) as [E|E]; [left; symmetry; exact E|right; exact E]. }
      pose proof (IH l2 Nim' N2 (fun x Hx => I x (I2 x Hx)) A2) as G1.
      assert (A1' : forall x, In x l1 -> In x l /\ f x = y) by (intros x Hx; split; [apply I, I1, Hx|apply A1, Hx]).
      pose proof (H y l1 N1 A1'). cbn [length]. nia. }
  apply (G _ l); [apply NoDup_nodup|exact N|apply incl_refl|]. intros x Hx. apply nodup_In, in_map, Hx.
Qed.

Section Fibre.
  Variable K : Fld.
  Add Field KFfib : (Fth K).
  Open Scope fld_scope.
  Local Notation sq := (sq K).
  Hypothesis sq_dec : forall x, {sq x} + {~ sq x}.
  (** a sign, as the parity of the residue is *)
  Variable par : K -> bool.
  Hypothesis par_opp : forall x, x <> 0 -> par (- x) = negb (par x).
  Definition follows (u y : K) : Prop := y = 0 \/ par y = par u.

  Lemma roots (c : list K) (a : K) : In a c -> a <> 0 -> at_most (pred (length c)) (fun r => peval c r = 0).
  Proof.
    intros I N l D A. destruct (Nat.le_gt_cases (length l) (pred (length c))) as [|G]; [assumption|exfalso].
    apply N, (root_bound K l c D A); [lia|exact I].
  Qed.
  Lemma sqr_pm (u v : K) : u * u = v * v -> u = v \/ u = - v.
  Proof.
    intro E. destruct (Fmul_integral K (u - v) (u + v)) as [H|H]; [transitivity (u * u - v * v); [ring|rewrite E; ring]| |].
    - left. apply (proj1 (Fsub_zero K _ _)), H.
    - right. transitivity (u + v - v); [ring|]. rewrite H. ring.
  Qed.
  Lemma opp_0 (u : K) : - u = 0 -> u = 0. Proof. intro E. transitivity (- - u); [ring|]. rewrite E. ring. Qed.
  Lemma same_sign (u v y : K) : y <> 0 -> follows u y -> follows v y -> u * u = v * v -> u = v.
  Proof.
    intros N [H|H] [H'|H'] E; try contradiction. destruct (sqr_pm u v E) as [?|E']; [assumption|].
    destruct (Feqd v 0) as [->|Nv]; [rewrite E'; ring|]. exfalso. pose proof (par_opp v Nv) as P.
    rewrite <- E', <- H, <- H' in P. destruct (par y); discriminate P.
  Qed.

  Variables A B : K.
  Local Notation g := (g K A B).

  (** *** simplified SWU *)
  Section Sswu.
    Variable Z : K.
    Hypotheses (A_nz : A <> 0) (B_nz : B <> 0) (Z_nonsq : ~ sq Z).
    Local Notation x1 := (sw_x1 K A B Z).
    Local Notation t := (sw_t K Z).
    Definition sw_hits (x y u : K) : Prop :=
      y * y = g x /\ follows u y /\ (sq (g (x1 u)) -> x = x1 u) /\ (~ sq (g (x1 u)) -> x = t u * x1 u).
    (** the three ways of reaching x *)
    Definition q0 (s : K) : Prop := peval [0; 1; 1] s = 0.
    Definition q1 (x s : K) : Prop := peval [B; A * x + B; A * x + B] s = 0.
    Definition q2 (x s : K) : Prop := peval [B + A * x; B + A * x; B] s = 0.
    Lemma q0_form (s : K) : peval [0; 1; 1] s = s * (s + 1). Proof. cbn. ring. Qed.
    Hypothesis exc_sq : forall x, x * Z * A = B -> sq (g x).
    Lemma sw_ways x y u : sw_hits x y u -> (q0 (t u) /\ x * Z * A = B) \/ q1 x (t u) \/ (y <> 0 /\ q2 x (t u)).
    Proof.
      intros (E & F & H1 & H2). destruct (Feqd (sw_n K Z u) 0) as [N|N].
      - left. pose proof (sw_x1_exc K A B Z A_nz Z_nonsq u N) as X. rewrite (H1 (exc_sq _ X)). split; [|exact X].
        unfold q0. cbn. transitivity (sw_n K Z u); [unfold sw_n; ring|exact N].
      - right. pose proof (sw_x1_gen K A B Z A_nz u N) as X. destruct (sq_dec (g (x1 u))) as [S|S].
        + left. unfold q1. rewrite (H1 S). cbn. transitivity (x1 u * A * sw_n K Z u + B * (sw_n K Z u + 1)); [unfold sw_n; ring|]. rewrite X. ring.
        + right. assert (T0 : t u <> 0). { intro T0. apply N. unfold sw_n. rewrite T0. ring. }
          specialize (H2 S). pose proof (sw_second K A B (t u) (x1 u) T0 X) as G. rewrite <- H2 in G. split.
          * intros ->. apply S. replace (g (x1 u)) with (0 : K); [apply sq_0|].
            destruct (Fmul_integral K (g (x1 u)) (t u * (t u * t u))) as [O|O]; [rewrite <- G; transitivity (0 * 0 : K); [symmetry; exact E|ring]|symmetry; exact O|].
            exfalso. revert O. apply (Fmul_nonzero K); [exact T0|]. apply (Fmul_nonzero K); exact T0.
          * unfold q2. apply (Fcancel_l K (t u) _ _ T0). rewrite H2. cbn.
            transitivity (x1 u * A * sw_n K Z u * t u + B * (sw_n K Z u + 1) * t u); [unfold sw_n; ring|]. rewrite X. ring.
    Qed.
    Lemma t_sq u v : t u = t v -> u * u = v * v.
    Proof. unfold sw_t. apply (Fcancel_l K Z). apply (Z_nz K Z Z_nonsq). Qed.
    Definition sw_exc (u : K) : Prop := q0 (t u).
    Lemma sw_exc_x x y u : sw_hits x y u -> sw_exc u -> x * Z * A = B.
    Proof.
      intros (E & F & H1 & H2) Q. assert (N : sw_n K Z u = 0) by (transitivity (peval [0; 1; 1] (t u)); [unfold sw_n; cbn; ring|exact Q]).
      pose proof (sw_x1_exc K A B Z A_nz Z_nonsq u N) as X. rewrite (H1 (exc_sq _ X)). exact X.
    Qed.
    Theorem sswu_exceptions : at_most 3 sw_exc.
    Proof.
      apply (at_most_weak 3 3 _ (fun u => peval [0; 1; 0; Z] u = 0)); [lia| |].
      - intros u H. assert (E : Z * u * peval [0; 1; 0; Z] u = 0) by (transitivity (peval [0; 1; 1] (t u)); [unfold sw_t; cbn; ring|exact H]).
        destruct (Fmul_integral K _ _ E) as [O|O]; [|exact O].
        destruct (Fmul_integral K _ _ O) as [O'|O']; [destruct (Z_nz K Z Z_nonsq O')|rewrite O'; cbn; ring].
      - apply (roots [0; 1; 0; Z] 1); [right; left; reflexivity|apply F_1_neq_0].
    Qed.
    Theorem sswu_fibre x y : at_most 4 (fun u => sw_hits x y u /\ ~ sw_exc u).
    Proof.
      assert (R1 : at_most 2 (q1 x)) by (apply (roots [B; A * x + B; A * x + B] B); [left; reflexivity|exact B_nz]).
      assert (R2 : at_most 2 (q2 x)) by (apply (roots [B + A * x; B + A * x; B] B); [right; right; left; reflexivity|exact B_nz]).
      destruct (Feqd y 0) as [Y|Y].
      - (* y = 0: both square roots of t count *)
        apply (at_most_weak 4 4 _ (fun u => peval [B; 0; (A * x + B) * Z; 0; (A * x + B) * Z * Z] u = 0)); [lia| |].
        + intros u [H N]. destruct (sw_ways x y u H) as [[? _]|[Q|[? _]]]; [contradiction| |contradiction].
          transitivity (peval [B; A * x + B; A * x + B] (t u)); [unfold sw_t; cbn; ring|exact Q].
        + apply (roots [B; 0; (A * x + B) * Z; 0; (A * x + B) * Z * Z] B); [left; reflexivity|exact B_nz].
      - (* y <> 0: t determines u *)
        apply (at_most_inj t 4 _ (fun s => q1 x s \/ q2 x s)).
        + intros u v [(_ & F & _) _] [(_ & F' & _) _] E. apply (same_sign u v y Y F F'), t_sq, E.
        + intros u [H N]. destruct (sw_ways x y u H) as [[? _]|[?|[_ ?]]]; [contradiction|auto|auto].
        + apply (at_most_or 2 2); assumption.
    Qed.
  End Sswu.

  (** *** Shallue-van de Woestijne *)
  Section Svdw.
    Variables (Z c3 : K).
    Hypotheses (two : (1 + 1 : K) <> 0).
    Local Notation h := (sv_h K A Z).
    Hypotheses (gZ : g Z <> 0) (h_nz : h <> 0) (c3_sq : c3 * c3 = - g Z * h).
    Local Notation x1 := (sv_x1 K A B Z c3).
    Local Notation x2 := (sv_x2 K A B Z c3).
    Local Notation x3 := (sv_x3 K A B Z).
    Local Notation t := (sv_t K A B Z).
    Local Notation d := (sv_d K A B Z).
    Definition sv_hits (x y u : K) : Prop :=
      y * y = g x /\ follows u y /\ (sq (g (x1 u)) -> x = x1 u)
      /\ (~ sq (g (x1 u)) -> sq (g (x2 u)) -> x = x2 u) /\ (~ sq (g (x1 u)) -> ~ sq (g (x2 u)) -> x = x3 u).
    Definition v1 (x s : K) : Prop := peval [2 * x + Z; 2 * c3; (2 * x + Z) * g Z] s = 0.
    Definition v3 (x s : K) : Prop := peval [(x - Z) * h + 2 * 2 * g Z; 2 * (2 * 2 * g Z - (x - Z) * h); (x - Z) * h + 2 * 2 * g Z] s = 0.
    Definition v0 (s : K) : Prop := peval [- (1); 0; 1] s = 0.
    Lemma d0 u : d u = 0 <-> v0 (t u).
    Proof.
      unfold v0. split; intro H; [transitivity (- d u); [unfold sv_d; cbn; ring|rewrite H; ring]|].
      transitivity (- peval [- (1); 0; 1] (t u)); [unfold sv_d; cbn; ring|]. rewrite H. ring.
    Qed.
    Lemma sv_ways x y u : sv_hits x y u ->
      (v0 (t u) /\ 2 * x = - Z) \/ (v0 (t u) /\ x = Z) \/ v1 x u \/ v1 x (- u) \/ (x <> Z /\ v3 x (t u)).
    Proof.
      intros (E & F & H1 & H2 & H3). destruct (Feqd (d u) 0) as [N|N].
      - pose proof (sv_x1_exc K A B Z c3 two u N) as X1. pose proof (sv_x2_x1 K A B Z c3 two u) as X2.
        pose proof (sv_x3_exc K A B Z u N) as X3. apply d0 in N.
        destruct (sq_dec (g (x1 u))) as [S1|S1]; [left; split; [exact N|rewrite (H1 S1); exact X1]|].
        destruct (sq_dec (g (x2 u))) as [S2|S2].
        + left. split; [exact N|]. rewrite (H2 S1 S2), X2. transitivity (- (2 * Z) - 2 * x1 u); [ring|]. rewrite X1. ring.
        + right. left. split; [exact N|]. rewrite (H3 S1 S2). exact X3.
      - right. right. pose proof (sv_x1_gen K A B Z c3 two u N) as X1. pose proof (sv_x2_x1 K A B Z c3 two u) as X2.
        pose proof (sv_x3_gen K A B Z h_nz u N) as X3.
        destruct (sq_dec (g (x1 u))) as [S1|S1].
        + left. unfold v1. rewrite (H1 S1). cbn.
          transitivity (2 * x1 u * (1 + t u) + Z * (1 + t u) + 2 * u * c3); [unfold sv_t; ring|]. rewrite X1. ring.
        + destruct (sq_dec (g (x2 u))) as [S2|S2].
          * right. left. unfold v1. rewrite (H2 S1 S2), X2. cbn.
            transitivity (- (2 * x1 u * (1 + t u)) - Z * (1 + t u) - 2 * u * c3); [unfold sv_t; ring|]. rewrite X1. ring.
          * right. right. rewrite (H3 S1 S2). split.
            -- intro O. destruct (sv_d_nz K A B Z u N) as [_ N2]. rewrite O in X3.
               assert (X : 2 * 2 * g Z * ((1 + t u) * (1 + t u)) = 0).
               { transitivity (- (- (2 * 2) * g Z * ((1 + t u) * (1 + t u)))); [ring|]. rewrite <- X3. ring. }
               revert X. apply (Fmul_nonzero K); [|apply (Fmul_nonzero K); exact N2].
               apply (Fmul_nonzero K); [|exact gZ]. apply (Fmul_nonzero K); exact two.
            -- unfold v3. cbn. transitivity ((x3 u - Z) * h * ((1 - t u) * (1 - t u)) + 2 * 2 * g Z * ((1 + t u) * (1 + t u))); [ring|].
               rewrite X3. ring.
    Qed.
    Lemma st_sq u v : t u = t v -> u * u = v * v.
    Proof.
      unfold sv_t. intro E. apply (Fcancel_l K (g Z) _ _ gZ). transitivity (u * u * g Z); [ring|]. rewrite E. ring.
    Qed.
    Lemma eight : 2 * (2 * 2) * g Z <> 0.
    Proof. apply (Fmul_nonzero K); [|exact gZ]. apply (Fmul_nonzero K); [exact two|]. apply (Fmul_nonzero K); exact two. Qed.
    Lemma c3_nz : c3 <> 0.
    Proof.
      intro O. assert (X : g Z * h = 0) by (transitivity (- (- g Z * h)); [ring|]; rewrite <- c3_sq, O; ring).
      revert X. apply (Fmul_nonzero K); assumption.
    Qed.
    (** the two polynomials agree on a root of the cubic *)
    Lemma v3_at_root x u : 0 * 0 = g x -> v3 x (t u) ->
      peval [(2 * x + Z) * (2 * x + Z); 0; 2 * (g Z * ((2 * x + Z) * (2 * x + Z)) + 2 * (h * g Z)); 0; g Z * g Z * ((2 * x + Z) * (2 * x + Z))] u = 0.
    Proof.
      intros E V. unfold v3 in V. cbn in V. apply (Fcancel_l K (g Z) _ _ gZ).
      set (N := x * x + x * Z + Z * Z + A). assert (EN : (x - Z) * N = - g Z).
      { transitivity (g x - g Z); [unfold N, MapAlg.g; ring|]. rewrite <- E. ring. }
      assert (E4 : 2 * 2 * N = (2 * x + Z) * (2 * x + Z) + h) by (unfold N, sv_h; ring).
      transitivity (N * ((x - Z) * h * ((1 - t u) * (1 - t u)) + 2 * 2 * g Z * ((1 + t u) * (1 + t u)))).
      - transitivity ((x - Z) * N * h * ((1 - t u) * (1 - t u)) + 2 * 2 * N * g Z * ((1 + t u) * (1 + t u))); [|ring].
        rewrite EN, E4. unfold sv_t. cbn. ring.
      - match type of V with ?v = 0 => transitivity (N * v); [ring|rewrite V; ring] end.
    Qed.
    Lemma v1_prod x s : v1 x s \/ v1 x (- s) ->
      peval [(2 * x + Z) * (2 * x + Z); 0; 2 * (g Z * ((2 * x + Z) * (2 * x + Z)) + 2 * (h * g Z)); 0; g Z * g Z * ((2 * x + Z) * (2 * x + Z))] s = 0.
    Proof.
      intro H. transitivity (peval [2 * x + Z; 2 * c3; (2 * x + Z) * g Z] s * peval [2 * x + Z; 2 * c3; (2 * x + Z) * g Z] (- s)).
      - cbn. transitivity ((2 * x + Z) * (2 * x + Z) * (1 + s * s * g Z) * (1 + s * s * g Z) - 2 * 2 * (s * s) * (c3 * c3)); [rewrite c3_sq|]; ring.
      - destruct H as [H|H]; unfold v1 in H; rewrite H; ring.
    Qed.
    Lemma half x : 2 * x = - Z <-> 2 * x + Z = 0.
    Proof. split; intro H; [rewrite H; ring|]. transitivity (2 * x + Z - Z); [ring|]. rewrite H. ring. Qed.
    Lemma zero_v1 x s : 2 * x = - Z -> v1 x s -> s = 0.
    Proof.
      intros X H. apply half in X. unfold v1 in H. rewrite X in H. cbn in H.
      apply (Fcancel_l K (2 * c3)); [apply (Fmul_nonzero K); [exact two|exact c3_nz]|].
      match type of H with ?v = _ => transitivity v; [ring|rewrite H; ring] end.
    Qed.
    Theorem svdw_fibre x y : at_most 4 (fun u => sv_hits x y u /\ (2 * x = - Z -> u <> 0)).
    Proof.
      assert (R0 : at_most 2 v0) by (apply (roots [- (1); 0; 1] 1); [right; right; left; reflexivity|apply F_1_neq_0]).
      assert (R1 : at_most 2 (v1 x)).
      { apply (roots [2 * x + Z; 2 * c3; (2 * x + Z) * g Z] (2 * c3)); [right; left; reflexivity|]. apply (Fmul_nonzero K); [exact two|exact c3_nz]. }
      assert (R3 : at_most 2 (v3 x)).
      { unfold v3. set (k := (x - Z) * h). destruct (Feqd (k + 2 * 2 * g Z) 0) as [O|O].
        - apply (roots [k + 2 * 2 * g Z; 2 * (2 * 2 * g Z - k); k + 2 * 2 * g Z] (2 * (2 * 2 * g Z - k))); [right; left; reflexivity|]. intro O'.
          apply (Fmul_nonzero K 2 _ two eight). transitivity (2 * (k + 2 * 2 * g Z) + 2 * (2 * 2 * g Z - k)); [ring|]. rewrite O, O'. ring.
        - exact (roots [k + 2 * 2 * g Z; 2 * (2 * 2 * g Z - k); k + 2 * 2 * g Z] _ (or_introl eq_refl) O). }
      assert (HY : forall u, sv_hits x y u -> y * y = g x) by (intros u H; apply H).
      destruct (Feqd y 0) as [Y|Y].
      - subst y.
        assert (NZ : forall u, sv_hits x 0 u -> x <> Z).
        { intros u H O. apply gZ. rewrite <- O, <- (HY u H). ring. }
        destruct (Feqd (2 * x) (- Z)) as [X|X].
        + apply (at_most_weak 4 4 _ (fun u => v0 (t u))); [lia| |].
          * intros u [H N0]. specialize (N0 X). destruct (sv_ways x 0 u H) as [[V _]|[[V _]|[V|[V|[_ V]]]]]; [exact V|exact V| | |]; destruct N0.
            -- exact (zero_v1 x u X V).
            -- apply opp_0, (zero_v1 x (- u) X V).
            -- apply (v3_at_root x u (HY u H)) in V. apply half in X. rewrite X in V. cbn in V.
               assert (V' : 2 * 2 * (h * g Z) * (u * u) = 0) by (match type of V with ?v = _ => transitivity v; [ring|exact V] end).
               destruct (Fmul_integral K _ _ V') as [O|O]; [|destruct (Fmul_integral K _ _ O); assumption].
               exfalso. revert O. apply (Fmul_nonzero K); [apply (Fmul_nonzero K); exact two|apply (Fmul_nonzero K); assumption].
          * apply (at_most_weak 4 4 _ (fun u => peval [- (1); 0; 0; 0; g Z * g Z] u = 0)); [lia| |].
            -- intros u H. unfold v0 in H. transitivity (peval [- (1); 0; 1] (t u)); [unfold sv_t; cbn; ring|exact H].
            -- apply (roots [- (1); 0; 0; 0; g Z * g Z] (g Z * g Z)); [do 4 right; left; reflexivity|apply (Fmul_nonzero K); exact gZ].
        + set (w := [(2 * x + Z) * (2 * x + Z); 0; 2 * (g Z * ((2 * x + Z) * (2 * x + Z)) + 2 * (h * g Z)); 0; g Z * g Z * ((2 * x + Z) * (2 * x + Z))]).
          apply (at_most_weak 4 4 _ (fun u => peval w u = 0)); [lia| |].
          * intros u [H _]. destruct (sv_ways x 0 u H) as [[_ V]|[[_ V]|[V|[V|[_ V]]]]].
            -- contradiction.
            -- destruct (NZ u H V).
            -- apply (v1_prod x u). left. exact V.
            -- apply (v1_prod x u). right. exact V.
            -- apply (v3_at_root x u (HY u H) V).
          * apply (roots w ((2 * x + Z) * (2 * x + Z))); [left; reflexivity|].
            apply (Fmul_nonzero K); intro O; apply X, half, O.
      - (* y <> 0 *)
        assert (PI : forall u v, sv_hits x y u -> sv_hits x y v -> u * u = v * v -> u = v).
        { intros u v (_ & F & _) (_ & F' & _) E. apply (same_sign u v y Y F F' E). }
        assert (HI : forall (n : nat) Q, at_most n Q -> at_most n (fun u => sv_hits x y u /\ Q (t u))).
        { intros n Q H. apply (at_most_inj t n _ Q); [|intros u Hu; apply Hu|exact H].
          intros u v [Hu _] [Hv _] E. apply PI; [assumption|assumption|apply st_sq, E]. }
        destruct (Feqd (2 * x) (- Z)) as [X|X].
        + apply (at_most_weak (2 + 2) 4 _ (fun u => (sv_hits x y u /\ v0 (t u)) \/ (sv_hits x y u /\ v3 x (t u)))); [lia| |].
          * intros u [H N0]. specialize (N0 X). destruct (sv_ways x y u H) as [[V _]|[[V _]|[V|[V|[_ V]]]]]; auto; destruct N0.
            -- exact (zero_v1 x u X V).
            -- apply opp_0, (zero_v1 x (- u) X V).
          * apply at_most_or; [apply HI, R0|apply HI, R3].
        + assert (V13 : at_most 2 (fun u => sv_hits x y u /\ (v1 x u \/ v1 x (- u)))).
          { assert (D1 : forall s, {v1 x s} + {~ v1 x s}) by (intro s; apply Feqd).
            apply (at_most_inj (fun u => if D1 u then u else - u) 2 _ (v1 x)); [| |exact R1].
            - intros u v [Hu _] [Hv _]. destruct (D1 u), (D1 v); intro E; apply PI; try assumption.
              + rewrite E. reflexivity.
              + rewrite E. ring.
              + rewrite <- E. ring.
              + transitivity (- u * - u); [ring|]. rewrite E. ring.
            - intros u [_ H]. destruct (D1 u) as [|N]; [assumption|]. destruct H; [contradiction|assumption]. }
          destruct (Feqd x Z) as [XZ|XZ].
          * apply (at_most_weak (2 + 2) 4 _ (fun u => (sv_hits x y u /\ (v1 x u \/ v1 x (- u))) \/ (sv_hits x y u /\ v0 (t u)))); [lia| |].
            -- intros u [H _]. destruct (sv_ways x y u H) as [[_ V]|[[V _]|[V|[V|[V _]]]]]; [contradiction|right; auto|left; auto|left; auto|contradiction].
            -- apply at_most_or; [exact V13|apply HI, R0].
          * apply (at_most_weak (2 + 2) 4 _ (fun u => (sv_hits x y u /\ (v1 x u \/ v1 x (- u))) \/ (sv_hits x y u /\ v3 x (t u)))); [lia| |].
            -- intros u [H _]. destruct (sv_ways x y u H) as [[_ V]|[[_ V]|[V|[V|[_ V]]]]]; [contradiction|contradiction|left; auto|left; auto|right; auto].
            -- apply at_most_or; [exact V13|apply HI, R3].
    Qed.
  End Svdw.

  (** *** Elligator 2 *)
  Section Ell.
    Variables (J L Z : K).
    Hypotheses (J_nz : J <> 0) (Z_nonsq : ~ sq Z) (par_0 : par 0 = true).
    Local Notation x1 := (el_x1 K J Z).
    Local Notation eg := (el_g K J L).
    Local Notation t := (el_t K Z).
    Definition el_hits (x w u : K) : Prop :=
      w * w = eg x /\ (sq (eg (x1 u)) -> x = x1 u /\ (w = 0 \/ par w = false))
      /\ (~ sq (eg (x1 u)) -> x = - x1 u - J /\ par w = true).
    Definition el_exc (u : K) : Prop := Z * (u * u) * (Z * (u * u) + 1) = 0.
    Lemma x1_t u : x1 u * (t u + 1) = - J.
    Proof. unfold el_x1. field. apply el_nz. Qed.
    Lemma x1_nz u : x1 u <> 0.
    Proof. intro O. apply J_nz. transitivity (- (x1 u * (t u + 1))); [rewrite x1_t; ring|]. rewrite O. ring. Qed.
    Lemma t_exc u : t u = 0 <-> el_exc u.
    Proof.
      unfold el_t, el_exc. destruct (Feqd (Z * (u * u)) (- (1))) as [E|E]; split; intro H.
      - rewrite E. ring.
      - reflexivity.
      - rewrite H. ring.
      - destruct (Fmul_integral K _ _ H) as [O|O]; [exact O|]. destruct E. transitivity (Z * (u * u) + 1 - 1); [ring|]. rewrite O. ring.
    Qed.
    Lemma t_reg u : t u <> 0 -> t u = Z * (u * u).
    Proof. unfold el_t. destruct (Feqd (Z * (u * u)) (- (1))); [intro N; destruct N|]; reflexivity. Qed.
    Lemma x1_inj u v : x1 u = x1 v <-> t u = t v.
    Proof.
      split; intro E; [|unfold el_x1; rewrite E; reflexivity].
      assert (E1 : t u + 1 = t v + 1) by (apply (Fcancel_l K (x1 u) _ _ (x1_nz u)); rewrite x1_t, E, x1_t; reflexivity).
      transitivity (t u + 1 - 1); [ring|]. rewrite E1. ring.
    Qed.
    Lemma t_same u v : t u = t v <-> u * u = v * v \/ (el_exc u /\ el_exc v).
    Proof.
      split.
      - intro E. destruct (Feqd (t u) 0) as [O|O].
        + right. rewrite <- !t_exc. rewrite <- E. auto.
        + left. apply (Fcancel_l K Z _ _ (Z_nz K Z Z_nonsq)). rewrite <- !t_reg; [exact E|rewrite <- E; exact O|exact O].
      - intros [E|[E E']]; [unfold el_t; rewrite E; reflexivity|]. apply t_exc in E, E'. congruence.
    Qed.
    Lemma mixed x w u v : el_hits x w u -> el_hits x w v -> sq (eg (x1 u)) -> ~ sq (eg (x1 v)) -> False.
    Proof.
      intros (E & H1 & _) (_ & _ & H2) S N. destruct (H1 S) as [X [W|W]], (H2 N) as [X' W']; [|congruence].
      pose proof (el_second K J L Z v) as G. rewrite <- X', <- E, W in G.
      destruct (Fmul_integral K (t v) (eg (x1 v))) as [O|O]; [rewrite <- G; ring| |apply N; rewrite O; apply sq_0].
      apply (x1_nz u). rewrite <- X, X'. pose proof (x1_t v) as T. rewrite O in T. transitivity (- (x1 v * (0 + 1)) - J); [ring|]. rewrite T. ring.
    Qed.
    Theorem ell2_same x w u v : el_hits x w u -> (el_hits x w v <-> u * u = v * v \/ (el_exc u /\ el_exc v)).
    Proof.
      intro Hu. rewrite <- t_same, <- x1_inj. split.
      - intro Hv. destruct (sq_dec (eg (x1 u))) as [S|S], (sq_dec (eg (x1 v))) as [S'|S'].
        + destruct Hu as (_ & H & _), Hv as (_ & H' & _). rewrite <- (proj1 (H S)), <- (proj1 (H' S')). reflexivity.
        + destruct (mixed x w u v Hu Hv S S').
        + destruct (mixed x w v u Hv Hu S' S).
        + destruct Hu as (_ & _ & H), Hv as (_ & _ & H'). pose proof (proj1 (H S)) as X. pose proof (proj1 (H' S')) as X'.
          transitivity (- (- x1 u - J) - J); [ring|]. rewrite <- X, X'. ring.
      - intro E. unfold el_hits in *. rewrite <- E. exact Hu.
    Qed.
    Theorem ell2_fibre x w : at_most 2 (fun u => el_hits x w u /\ u <> 0).
    Proof.
      intros [|u l] N H; [cbn; lia|]. apply (roots [- (u * u); 0; 1] 1); [right; right; left; reflexivity|apply F_1_neq_0|exact N|].
      destruct (H u (or_introl eq_refl)) as [Hu U0]. intros v Hv. destruct (H v Hv) as [Hv' V0]. cbn.
      assert (E : u * u = v * v); [|rewrite E; ring].
      assert (X : forall s, s <> 0 -> el_exc s -> Z * (s * s) = - (1)).
      { intros s S D. unfold el_exc in D. destruct (Fmul_integral K _ _ D) as [O|O].
        - exfalso. destruct (Fmul_integral K _ _ O) as [O'|O']; [exact (Z_nz K Z Z_nonsq O')|]. destruct (Fmul_integral K _ _ O'); contradiction.
        - transitivity (Z * (s * s) + 1 - 1); [ring|]. rewrite O. ring. }
      destruct (proj1 (ell2_same x w u v Hu) Hv') as [E|[D D']]; [exact E|].
      apply (Fcancel_l K Z _ _ (Z_nz K Z Z_nonsq)). rewrite (X u U0 D), (X v V0 D'). reflexivity.
    Qed.
    Theorem ell2_reached x w : w * w = eg x -> ((exists u, el_hits x w u) <->
      sq (- (Z * (x * (x + J)))) /\ (x = 0 -> ~ sq (- (J * L))) /\ (x = - J -> w = 0 \/ par w = false)).
    Proof.
      intro E. assert (GJ : eg (- J) = - (J * L)) by (unfold el_g; ring). split.
      - intros (u & _ & H1 & H2).
        assert (Q : sq (- (Z * (x1 u * (x1 u + J))))).
        { assert (T : - (Z * (x1 u * (x1 u + J))) = Z * (x1 u * x1 u) * t u).
          { transitivity (- (Z * (x1 u * (x1 u - x1 u * (t u + 1))))); [rewrite x1_t; ring|ring]. }
          rewrite T. destruct (Feqd (t u) 0) as [O|O]; [rewrite O; exists 0; ring|]. rewrite (t_reg u O). exists (Z * x1 u * u). ring. }
        destruct (sq_dec (eg (x1 u))) as [S|S].
        + destruct (H1 S) as [X W]. rewrite X. split; [exact Q|]. split; [intro O; destruct (x1_nz u O)|intros _; exact W].
        + destruct (H2 S) as [X W]. rewrite X. split.
          { replace (- x1 u - J + J) with (- x1 u) by ring. replace ((- x1 u - J) * - x1 u) with (x1 u * (x1 u + J)) by ring. exact Q. }
          split; intro O.
          * replace (x1 u) with (- J) in S; [rewrite GJ in S; exact S|]. transitivity (- x1 u - J + x1 u); [ring|rewrite O; ring].
          * destruct (x1_nz u). transitivity (- (- x1 u - J) - J); [ring|]. rewrite O. ring.
      - intros ([s Q] & H0 & HJ). pose proof (Z_nz K Z Z_nonsq) as Zn.
        assert (C : (w = 0 \/ par w = false) \/ (w <> 0 /\ par w = true)).
        { destruct (Feqd w 0); [auto|]. destruct (par w); auto. }
        destruct C as [W|[Wn W]].
        + destruct (Feqd x 0) as [X|X].
          * specialize (H0 X). assert (Wz : w = 0).
            { assert (WW : w * w = 0) by (rewrite E, X; unfold el_g; ring). destruct (Fmul_integral K _ _ WW); assumption. }
            exists 0. assert (X1 : x1 0 = - J).
            { assert (T : t 0 = 0) by (apply t_exc; unfold el_exc; ring). transitivity (x1 0 * (t 0 + 1)); [rewrite T; ring|apply x1_t]. }
            split; [exact E|]. rewrite X1, GJ, X, Wz. split; intro S; [contradiction|]. split; [ring|exact par_0].
          * exists (s / (Z * x)). assert (T : t (s / (Z * x)) = - (x + J) / x).
            { assert (T0 : Z * (s / (Z * x) * (s / (Z * x))) = - (x + J) / x).
              { transitivity (s * s / (Z * (x * x))); [field; auto|]. rewrite Q. field; auto. }
              unfold el_t. rewrite T0. destruct (Feqd (- (x + J) / x) (- (1))) as [O|O]; [|reflexivity]. exfalso.
              apply J_nz. transitivity (- (x * (- (x + J) / x)) - x); [field; exact X|]. rewrite O. ring. }
            assert (X1 : x1 (s / (Z * x)) = x).
            { apply (Fcancel_l K (- J)); [intro O; apply J_nz, opp_0, O|]. pose proof (x1_t (s / (Z * x))) as XT. rewrite T in XT.
              transitivity (x * (x1 (s / (Z * x)) * (- (x + J) / x + 1))); [field; exact X|]. rewrite XT. ring. }
            split; [exact E|]. rewrite X1. split; intro S; [auto|]. destruct S. exists w. exact E.
        + assert (X : x <> 0). { intro O. apply Wn. assert (WW : w * w = 0) by (rewrite E, O; unfold el_g; ring). destruct (Fmul_integral K _ _ WW); assumption. }
          assert (XJ : x + J <> 0).
          { intro O. assert (O' : x = - J) by (transitivity (x + J - J); [ring|]; rewrite O; ring). destruct (HJ O'); congruence. }
          exists (s / (Z * (x + J))).
          assert (T0 : Z * (s / (Z * (x + J)) * (s / (Z * (x + J)))) = - x / (x + J)).
          { transitivity (s * s / (Z * ((x + J) * (x + J)))); [field; auto|]. rewrite Q. field; auto. }
          assert (T : t (s / (Z * (x + J))) = - x / (x + J)).
          { unfold el_t. rewrite T0. destruct (Feqd (- x / (x + J)) (- (1))) as [O|O]; [|reflexivity]. exfalso.
            apply J_nz. transitivity ((x + J) * (- x / (x + J)) + (x + J)); [field; exact XJ|]. rewrite O. ring. }
          assert (X1 : x1 (s / (Z * (x + J))) = - (x + J)).
          { apply (Fcancel_l K J _ _ J_nz). pose proof (x1_t (s / (Z * (x + J)))) as XT. rewrite T in XT.
            transitivity ((x + J) * (x1 (s / (Z * (x + J))) * (- x / (x + J) + 1))); [field; exact XJ|]. rewrite XT. ring. }
          pose proof (el_second K J L Z (s / (Z * (x + J)))) as G. rewrite X1 in G. replace (- - (x + J) - J) with x in G by ring.
          split; [exact E|]. rewrite X1. split; intro S; [exfalso|split; [ring|exact W]].
          destruct S as [r R]. rewrite T, <- T0, <- E, <- R in G.
          assert (S0 : s <> 0).
          { intro O. apply Wn. assert (WW : w * w = 0) by (rewrite G, O; field; auto). destruct (Fmul_integral K _ _ WW); assumption. }
          assert (R0 : r <> 0).
          { intro O. apply Wn. assert (WW : w * w = 0) by (rewrite G, O; ring). destruct (Fmul_integral K _ _ WW); assumption. }
          apply Z_nonsq. exists (w / (s / (Z * (x + J)) * r)). 
          transitivity (w * w / ((s / (Z * (x + J)) * r) * (s / (Z * (x + J)) * r))); [field; auto|]. rewrite G. field; auto.
    Qed.
  End Ell.
End Fibre.

Section Forms.
  Variable K : Fld.
  Add Field KFff : (Fth K).
  Open Scope fld_scope.
  Lemma unit_scale (b X : K) : b * b = 1 -> b * (b * X) = X.
  Proof. intro B. transitivity (b * b * X); [ring|]. rewrite B. ring. Qed.
  Lemma add_zero_iff (X a : K) : X + a = 0 <-> X = - a.
  Proof. split; intro H; [transitivity (X + a - a); [ring|]; rewrite H; ring|rewrite H; ring]. Qed.
  Lemma only_zero (z w : K) : ~ sq K z -> sq K (- (1)) -> el_exc K z w -> w = 0.
  Proof.
    intros N [i I] H. unfold el_exc in H. destruct (Feqd w 0) as [|W]; [assumption|exfalso].
    destruct (Fmul_integral K _ _ H) as [O|O].
    - destruct (Fmul_integral K _ _ O) as [O'|O']; [apply N; rewrite O'; apply sq_0|].
      destruct (Fmul_integral K _ _ O'); contradiction.
    - apply N. exists (i / w). transitivity (i * i / (w * w)); [field; exact W|]. rewrite I.
      apply add_zero_iff in O. rewrite <- O. field. exact W.
  Qed.
  Lemma image_forms (a b z X : K) : b * b = 1 ->
    (sq K (- (z * (b * X * (b * X + a * b)))) <-> sq K (- (z * (X * (X + a)))))
    /\ (b * X = 0 <-> X = 0)
    /\ (sq K (- (a * b * (Finv b * Finv b))) <-> sq K (- (a * b)))
    /\ (b * X = - (a * b) <-> X = - a).
  Proof.
    intro B. assert (Nb : b <> 0) by (intros ->; apply (F_1_neq_0 K); rewrite <- B; ring).
    split; [|split; [|split]].
    - replace (- (z * (b * X * (b * X + a * b)))) with (b * b * - (z * (X * (X + a)))) by ring. rewrite B.
      replace (1 * - (z * (X * (X + a)))) with (- (z * (X * (X + a)))) by ring. reflexivity.
    - split; [|intros ->; ring]. intro H. destruct (Fmul_integral K _ _ H); [contradiction|assumption].
    - replace (- (a * b * (Finv b * Finv b))) with (- (a * b)); [reflexivity|].
      transitivity (- (a * b * (Finv b * Finv b)) * (b * b)); [field; exact Nb|]. rewrite B. ring.
    - split; [|intros ->; ring]. intro H. apply (Fcancel_l K b _ _ Nb). rewrite H. ring.
  Qed.
End Forms.
