(** Counting the points of curves: bridge from Math.FinGroup to the specification, and checks on limbs. *)
From Coq Require Import ZArith Znumtheory Lia Bool List Ring Field.
From Verif.Math Require Import Fld Zp Pow Residue RCB MontAdd Edwards Limb LimbF FinGroup OrderAlg.
From Verif.Spec Require Import Arith Curve Order.
From Verif.Proofs Require Import CurveP InstP.
From Verif.Proofs Require WeierP EdwP.
From Verif.Math Require Import ECGroup.
Import ListNotations.
Open Scope Z_scope.

(** *** consequences in an abstract group *)
Section Grp.
  Context {T : Type} (on : T -> Prop) (add : T -> T -> T) (opp : T -> T) (zero : T).
  Hypothesis HG : group on add opp zero.
  Local Notation zmul := (zmul add opp zero).
  Local Notation ord := (ord add opp zero).
  Local Notation mul := (mul add zero).
  Local Notation cyc := (cyc add zero).
  Variables (G : T) (r : Z) (M : list T) (h : Z).
  Hypothesis HGo : on G.
  Hypothesis OG : ord G r.
  Hypothesis HM : sub on add opp zero M.
  Hypothesis KM : killed add opp zero h M.
  Hypothesis full : forall A, on A -> In A (lsum add (cyc G r) M).
  Lemma clear_zmul A : on A -> exists k, zmul h A = zmul k G.
  Proof.
    intro H. apply full, lsum_in in H. destruct H as (B & C & HB & HC & ->).
    apply (cyc_in _ _ _ _ HG) in HB; [|assumption..]. destruct HB as [k ->]. exists (h * k)%Z.
    assert (OC : on C) by (apply (s_on _ _ _ _ _ HM), HC). assert (OK := fun j => on_zmul _ _ _ _ HG j G HGo).
    rewrite (zmul_plus _ _ _ _ HG _ _ _ (OK k) OC), (KM _ HC), (g_id _ _ _ _ HG) by (apply (on_zmul _ _ _ _ HG), OK).
    symmetry. apply (zmul_mul _ _ _ _ HG), HGo.
  Qed.
  Lemma kill_zmul A : on A -> zmul (h * r) A = zero.
  Proof.
    intro H. rewrite Z.mul_comm, (zmul_mul _ _ _ _ HG) by exact H. destruct (clear_zmul A H) as [k ->].
    rewrite (zmul_comm _ _ _ _ HG) by exact HGo. rewrite (proj2 (proj2 OG r) (Z.divide_refl r)). apply (zmul_zero _ _ _ _ HG).
  Qed.

  Context {S : Type} (son : S -> Prop) (ssum : S -> S -> S -> Prop) (szero : S) (m : T -> S).
  Hypothesis m_inj : forall A B, m A = m B -> A = B.
  Hypothesis m_on : forall A, son A <-> exists A', A = m A' /\ on A'.
  Hypothesis m_mul : forall A n C, on A -> (multiple ssum szero (m A) n C <-> C = m (mul n A)).
  Hypothesis CM : meet zero (cyc G r) M.
  Lemma spec_counted : counted son (r * Z.of_nat (length M)).
  Proof.
    pose proof (lsum_sub _ _ _ _ HG _ _ (cyc_sub _ _ _ _ HG G r HGo OG) HM CM) as SL.
    exists (map m (lsum add (cyc G r) M)). split; [|split].
    - apply nodup_map_in; [intros x y _ _; apply m_inj|apply SL].
    - intro A. rewrite in_map_iff, m_on. split.
      + intros (B & <- & I). exists B. split; [reflexivity|apply (s_on _ _ _ _ _ SL), I].
      + intros (B & -> & O). exists B. split; [reflexivity|apply full, O].
    - rewrite map_length, lsum_len, (cyc_len _ _ _ _ _ OG). reflexivity.
  Qed.
  Lemma spec_generated C : (exists k, C = zmul k G) -> generated ssum szero (m G) r (m C).
  Proof.
    intros [k ->]. assert (P : 0 < r) by apply OG. exists (k mod r). split; [apply Z.mod_pos_bound; lia|]. apply m_mul; [exact HGo|]. f_equal.
    rewrite <- (zmul_nat _ opp), Z2Nat.id by (apply Z.mod_pos_bound; lia). symmetry. apply (ord_mod _ _ _ _ HG); assumption.
  Qed.
  Lemma spec_clears : 0 <= h -> clears son ssum szero (m G) h r.
  Proof.
    intros H0 A OA. apply m_on in OA. destruct OA as (B & -> & OB). exists (m (mul (Z.to_nat h) B)). split; [apply m_mul; [exact OB|reflexivity]|].
    apply spec_generated. destruct (clear_zmul B OB) as [k Ek]. exists k. rewrite <- Ek, <- (zmul_nat _ opp), Z2Nat.id by lia. reflexivity.
  Qed.
  Hypothesis m_zero : m zero = szero.
  Lemma spec_exponent : 0 <= h -> exponent son ssum szero (h * r).
  Proof.
    intros H0 A OA. apply m_on in OA. destruct OA as (B & -> & OB). apply m_mul; [exact OB|].
    assert (0 < r) by apply OG. rewrite <- (zmul_nat _ opp), Z2Nat.id, kill_zmul, m_zero by (exact OB || lia). reflexivity.
  Qed.
End Grp.

(** the subgroup with one element *)
Lemma sub_trivial {T} (on : T -> Prop) add opp zero : group on add opp zero -> sub on add opp zero [zero].
Proof.
  intro HG. split.
  - constructor; [intros []|constructor].
  - left; reflexivity.
  - intros A [<-|[]]. apply HG.
  - intros A B [<-|[]] [<-|[]]. left. symmetry. apply (g_id _ _ _ _ HG), HG.
  - intros A [<-|[]]. left. symmetry. apply (opp_zero _ _ _ _ HG).
Qed.
Lemma lsum_trivial {T} (on : T -> Prop) add opp zero L A : group on add opp zero -> sub on add opp zero L -> In A L -> In A (lsum add L [zero]).
Proof.
  intros HG SL I. apply lsum_in. exists A, zero. split; [exact I|]. split; [left; reflexivity|]. symmetry. apply (g_id _ _ _ _ HG), (s_on _ _ _ _ _ SL), I.
Qed.

Section P.
  Variable p : Z.
  Hypothesis Hp : prime p.
  Hypothesis Hp2 : 2 < p.
  Local Notation K := (ZpF p Hp).
  Lemma p_odd : p mod 2 = 1.
  Proof.
    pose proof (Z.mod_pos_bound p 2 ltac:(lia)). assert (p mod 2 <> 0); [|lia]. intro Z0. apply Zmod_divide in Z0; [|lia].
    apply prime_divisors in Z0; [lia|exact Hp].
  Qed.
  (** y and -y have different parities *)
  Lemma parity (y y' : K) : y = y' \/ y = Fopp y' -> zv y mod 2 = zv y' mod 2 -> y = y'.
  Proof.
    intros [E|E] M; [exact E|]. destruct (Z.eq_dec (zv y') 0) as [Z0|Z0].
    - apply Zp_eq. rewrite E. change ((- zv y') mod p = zv y'). rewrite Z0. reflexivity.
    - exfalso. assert (R : 0 <= zv y' < p) by (apply zv_range; lia). assert (Ey : zv y = p - zv y').
      { rewrite E. change ((- zv y') mod p = p - zv y'). rewrite Z.mod_opp_l_nz, Z.mod_small; rewrite ?Z.mod_small; lia. }
      pose proof p_odd as O. rewrite Ey in M. rewrite Zminus_mod, O in M. pose proof (Z.mod_pos_bound (zv y') 2 ltac:(lia)).
      assert (C : zv y' mod 2 = 0 \/ zv y' mod 2 = 1) by lia. destruct C as [C|C]; rewrite C in M; discriminate M.
  Qed.

  (** *** cubic curves *)
  Section Cubic.
    Variables a2 a4 a6 : K.
    Hypothesis NS : forall x, cubic K a2 a4 a6 x = F0 -> dcubic K a2 a4 x <> F0.
    Definition cgroup := cubic_group K (two_K p Hp Hp2) a2 a4 a6 NS.
    Definition penc (A : pt K) : Z := match A with Inf _ => 2 * p | Aff _ x y => 2 * zv x + zv y mod 2 end.
    Lemma penc_bound A : 0 <= penc A < 2 * p + 1.
    Proof.
      destruct A as [|x y]; cbn [penc]; [lia|]. assert (0 <= zv x < p) by (apply zv_range; lia). pose proof (Z.mod_pos_bound (zv y) 2 ltac:(lia)). lia.
    Qed.
    Lemma penc_inj A B : on K a2 a4 a6 A -> on K a2 a4 a6 B -> penc A = penc B -> A = B.
    Proof.
      destruct A as [|x y], B as [|x' y']; cbn [penc]; intros OA OB E.
      - reflexivity.
      - exfalso. assert (0 <= zv x' < p) by (apply zv_range; lia). pose proof (Z.mod_pos_bound (zv y') 2 ltac:(lia)). lia.
      - exfalso. assert (0 <= zv x < p) by (apply zv_range; lia). pose proof (Z.mod_pos_bound (zv y) 2 ltac:(lia)). lia.
      - pose proof (Z.mod_pos_bound (zv y) 2 ltac:(lia)). pose proof (Z.mod_pos_bound (zv y') 2 ltac:(lia)).
        assert (Ex : x = x') by (apply Zp_eq; lia). subst x'. f_equal. apply parity; [|lia]. exact (same_x K a2 a4 a6 x y y' OA OB).
    Qed.
    Lemma mul_nmul n A : mul (padd K a2 a4) (Inf K) n A = nmul p Hp a2 a4 n A.
    Proof. induction n as [|n IH]; [reflexivity|]. cbn [mul nmul]. rewrite IH. reflexivity. Qed.
    Lemma cubic_all L : sub (on K a2 a4 a6) (padd K a2 a4) (popp K) (Inf K) L -> 2 * p + 1 < 3 * Z.of_nat (length L) ->
      (forall A, on K a2 a4 a6 A -> In (padd K a2 a4 A A) L -> In A L) -> forall A, on K a2 a4 a6 A -> In A L.
    Proof.
      intros SL B HF. apply (all_in _ _ _ _ cgroup penc (2 * p + 1) penc_inj (fun A _ => penc_bound A) L SL B HF (pt_eqd K)).
    Qed.
    Lemma ord_of q A : on K a2 a4 a6 A -> 0 < q -> (forall n, nmul p Hp a2 a4 n A = Inf K <-> (q | Z.of_nat n)) ->
      ord (padd K a2 a4) (popp K) (Inf K) A q.
    Proof.
      intros OA Q H. split; [exact Q|]. intro k. rewrite <- (Z.divide_abs_r q k), <- (Z2Nat.id (Z.abs k)) by lia. rewrite <- H, <- mul_nmul, <- (zmul_nat _ (popp K)), Z2Nat.id by lia.
      destruct (Z.abs_eq_or_opp k) as [-> | ->]; [reflexivity|]. rewrite (zmul_opp _ _ _ _ cgroup) by exact OA. split.
      - intros ->. reflexivity.
      - intro E. rewrite <- (opp_opp _ _ _ _ cgroup (zmul _ _ _ k A)), E by (apply (on_zmul _ _ _ _ cgroup), OA). reflexivity.
    Qed.
  End Cubic.

  (** *** Edwards curves *)
  Section Edw.
    Variables a d : K.
    Hypothesis AS : exists s : K, Fmul s s = a.
    Hypothesis AN : a <> F0.
    Hypothesis DN : forall s : K, Fmul s s <> d.
    Definition egrp := edw_group K a d (two_K p Hp Hp2) AS DN.
    Definition eenc (A : K * K) : Z := 2 * zv (snd A) + zv (fst A) mod 2.
    Lemma eenc_bound A : 0 <= eenc A < 2 * p.
    Proof.
      destruct A as [x y]. unfold eenc. cbn [fst snd]. assert (0 <= zv y < p) by (apply zv_range; lia). pose proof (Z.mod_pos_bound (zv x) 2 ltac:(lia)). lia.
    Qed.
    Lemma eenc_inj A B : Edwards.eon K a d A -> Edwards.eon K a d B -> eenc A = eenc B -> A = B.
    Proof.
      destruct A as [x y], B as [x' y']. unfold eenc. cbn [fst snd]. intros OA OB E.
      pose proof (Z.mod_pos_bound (zv x) 2 ltac:(lia)). pose proof (Z.mod_pos_bound (zv x') 2 ltac:(lia)).
      assert (Ey : y = y') by (apply Zp_eq; lia). subst y'. f_equal. apply parity; [|lia].
      exact (edw_same_y K a d AS AN DN x x' y OA OB).
    Qed.
    Lemma mul_enmul n A : mul (eadd K a d) (ezero K) n A = EdwP.enmul p Hp a d n A.
    Proof. induction n as [|n IH]; [reflexivity|]. cbn [mul EdwP.enmul]. rewrite IH. reflexivity. Qed.
    Lemma ept_dec (A B : K * K) : {A = B} + {A <> B}.
    Proof. destruct A as [x y], B as [x' y']. destruct (Feqd x x') as [->|N]; [|right; congruence]. destruct (Feqd y y') as [->|N]; [left; reflexivity|right; congruence]. Qed.
    Lemma edw_all L : sub (Edwards.eon K a d) (eadd K a d) (eopp K) (ezero K) L -> 2 * p < 3 * Z.of_nat (length L) ->
      (forall A, Edwards.eon K a d A -> In (eadd K a d A A) L -> In A L) -> forall A, Edwards.eon K a d A -> In A L.
    Proof.
      intros SL B HF. apply (all_in _ _ _ _ egrp eenc (2 * p) eenc_inj (fun A _ => eenc_bound A) L SL B HF ept_dec).
    Qed.
    Lemma ord_ofe q A : Edwards.eon K a d A -> 0 < q -> (forall n, EdwP.enmul p Hp a d n A = ezero K <-> (q | Z.of_nat n)) ->
      ord (eadd K a d) (eopp K) (ezero K) A q.
    Proof.
      intros OA Q H. split; [exact Q|]. intro k. rewrite <- (Z.divide_abs_r q k), <- (Z2Nat.id (Z.abs k)) by lia. rewrite <- H, <- mul_enmul, <- (zmul_nat _ (eopp K)), Z2Nat.id by lia.
      destruct (Z.abs_eq_or_opp k) as [-> | ->]; [reflexivity|]. rewrite (zmul_opp _ _ _ _ egrp) by exact OA. split.
      - intros ->. apply (opp_zero _ _ _ _ egrp).
      - intro E. rewrite <- (opp_opp _ _ _ _ egrp (zmul _ _ _ k A)), E by (apply (on_zmul _ _ _ _ egrp), OA). apply (opp_zero _ _ _ _ egrp).
    Qed.
  End Edw.

  (** *** checked doublings *)
  Local Notation O := (of_Z p).
  Fixpoint mdch (a x y : Z) (l : list (Z * Z * Z)) : bool :=
    match l with
    | [] => (x mod p =? 0) && (y mod p =? 0)
    | (s, x3, y3) :: t => negb (y mod p =? 0) && ((s * (y + y) - ((x * x + x * x + x * x) + (a * x + a * x) + 1)) mod p =? 0)
        && ((x3 - (s * s - a - x - x)) mod p =? 0) && ((y3 - (s * (x - x3) - y)) mod p =? 0) && mdch a x3 y3 t
    end.
  Lemma mod_O u v : (u - v) mod p = 0 -> O u = O v.
  Proof. intro H. apply of_Z_div; [lia|]. apply Zmod_divide; [lia|exact H]. Qed.
  Lemma mdch_ok a l : forall x y, (forall x, cubic K (O a) F1 F0 x = F0 -> dcubic K (O a) F1 x <> F0) ->
    on K (O a) F1 F0 (Aff K (O x) (O y)) -> mdch a x y l = true ->
    zmul (padd K (O a) F1) (popp K) (Inf K) (2 ^ Z.of_nat (length l)) (Aff K (O x) (O y)) = Aff K F0 F0.
  Proof.
    intros x y NS. revert x y. pose proof (cgroup (O a) F1 F0 NS) as HG. induction l as [|[[s x3] y3] t IH]; intros x y OA H.
    - cbn [mdch length] in *. rewrite andb_true_iff, !Z.eqb_eq in H. change (2 ^ Z.of_nat 0) with 1. rewrite (zmul_1 _ _ _ _ HG) by exact OA.
      f_equal; apply Zp_eq; apply H.
    - cbn [mdch] in H. rewrite !andb_true_iff, negb_true_iff, Z.eqb_neq, !Z.eqb_eq in H. destruct H as ((((Ny & E1) & E2) & E3) & H).
      assert (ED : padd K (O a) F1 (Aff K (O x) (O y)) (Aff K (O x) (O y)) = Aff K (O x3) (O y3)).
      { apply (dbl_slope K (two_K p Hp Hp2) (O a) F1 (O s)).
        - intro Z0. apply Ny. apply of_Z_zero in Z0; [|lia]. apply Zdivide_mod, Z0.
        - apply mod_O in E1. revert E1. pushZ. exact (fun h => h).
        - apply mod_O in E2. revert E2. pushZ. exact (fun h => h).
        - apply mod_O in E3. revert E3. pushZ. exact (fun h => h). }
      replace (2 ^ Z.of_nat (length ((s, x3, y3) :: t))) with (2 ^ Z.of_nat (length t) * 2)
        by (cbn [length]; rewrite Nat2Z.inj_succ, Z.pow_succ_r by lia; lia).
      rewrite (zmul_mul _ _ _ _ HG), (zmul_2 _ _ _ _ HG) by exact OA. rewrite ED. apply IH; [|exact H]. rewrite <- ED. apply HG; exact OA.
  Qed.
  Fixpoint edch (a d x y : Z) (l : list (Z * Z)) : bool :=
    match l with
    | [] => (x mod p =? 0) && ((y + 1) mod p =? 0)
    | (x3, y3) :: t => ((x3 * (1 + d * (x * x * (y * y))) - (x * y + y * x)) mod p =? 0)
        && ((y3 * (1 - d * (x * x * (y * y))) - (y * y - a * (x * x))) mod p =? 0) && edch a d x3 y3 t
    end.
  Lemma edch_ok a d l : (exists s : K, Fmul s s = O a) -> (forall s : K, Fmul s s <> O d) -> forall x y,
    Edwards.eon K (O a) (O d) (O x, O y) -> edch a d x y l = true ->
    zmul (eadd K (O a) (O d)) (eopp K) (ezero K) (2 ^ Z.of_nat (length l)) (O x, O y) = (F0, Fopp F1).
  Proof.
    intros AS DN. pose proof (egrp (O a) (O d) AS DN) as HG. induction l as [|[x3 y3] t IH]; intros x y OA H.
    - cbn [edch length] in *. rewrite andb_true_iff, !Z.eqb_eq in H. change (2 ^ Z.of_nat 0) with 1. rewrite (zmul_1 _ _ _ _ HG) by exact OA.
      f_equal; [apply Zp_eq, H|]. change (Fopp F1 : K) with (Zp.zopp (O 1)). rewrite <- of_Z_opp. apply mod_O. replace (y - -1) with (y + 1) by lia. apply H.
    - cbn [edch] in H. rewrite !andb_true_iff, !Z.eqb_eq in H. destruct H as ((E1 & E2) & H).
      assert (ED : eadd K (O a) (O d) (O x, O y) (O x, O y) = (O x3, O y3)).
      { apply (edw_sum K (O a) (O d) (two_K p Hp Hp2) AS DN); [exact OA|exact OA|..].
        - apply mod_O in E1. revert E1. pushZ. exact (fun h => h).
        - apply mod_O in E2. revert E2. pushZ. exact (fun h => h). }
      replace (2 ^ Z.of_nat (length ((x3, y3) :: t))) with (2 ^ Z.of_nat (length t) * 2)
        by (cbn [length]; rewrite Nat2Z.inj_succ, Z.pow_succ_r by lia; lia).
      rewrite (zmul_mul _ _ _ _ HG), (zmul_2 _ _ _ _ HG) by exact OA. rewrite ED. apply IH; [|exact H]. rewrite <- ED. apply HG; exact OA.
  Qed.
End P.
