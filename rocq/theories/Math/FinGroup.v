(** Abelian groups on a subset of a type: integer multiples, orders, finite subgroups as lists,
    and a subgroup too big to be proper. *)
From Coq Require Import ZArith Znumtheory Zpow_facts Lia Bool List.
From Verif.Math Require Import Zp.
Import ListNotations.
Open Scope Z_scope.

Lemma nodup_map_in {A B} (f : A -> B) (l : list A) : (forall x y, In x l -> In y l -> f x = f y -> x = y) -> NoDup l -> NoDup (map f l).
Proof.
  intros H N. induction N as [|x l NI N IH]; cbn [map]; constructor.
  - intro I. apply in_map_iff in I. destruct I as (y & E & Iy). apply NI. rewrite (H x y); [exact Iy|left; reflexivity|right; exact Iy|symmetry; exact E].
  - apply IH. intros u v Iu Iv. apply H; right; assumption.
Qed.
Lemma nodup_bound (l : list Z) n : 0 <= n -> NoDup l -> (forall x, In x l -> 0 <= x < n) -> Z.of_nat (length l) <= n.
Proof.
  intros Hn H I. assert (L : (length (map Z.to_nat l) <= length (seq 0 (Z.to_nat n)))%nat).
  { apply NoDup_incl_length.
    - apply nodup_map_in; [|exact H]. intros x y Ix Iy E. apply I in Ix, Iy. lia.
    - intros x Hx. apply in_map_iff in Hx. destruct Hx as (y & <- & Iy). apply I in Iy. apply in_seq. lia. }
  rewrite map_length, seq_length in L. lia.
Qed.
Lemma nodup_app {A} (l m : list A) : NoDup l -> NoDup m -> (forall x, In x l -> In x m -> False) -> NoDup (l ++ m).
Proof.
  intros Hl Hm D. induction Hl as [|x l NI Hl IH]; [exact Hm|]. cbn [app]. constructor.
  - rewrite in_app_iff. intros [I|I]; [exact (NI I)|]. apply (D x); [left; reflexivity|exact I].
  - apply IH. intros y I. apply D. right. exact I.
Qed.
Lemma nodup_prod {A B} (l : list A) (m : list B) : NoDup l -> NoDup m -> NoDup (list_prod l m).
Proof.
  intros Hl Hm. induction Hl as [|x l NI Hl IH]; [constructor|]. cbn [list_prod]. apply nodup_app.
  - apply nodup_map_in; [|exact Hm]. intros u v _ _ E. injection E as E. exact E.
  - exact IH.
  - intros [u v] I J. apply in_map_iff in I. destruct I as (w & E & _). injection E as <- <-. apply in_prod_iff in J. destruct J. contradiction.
Qed.

Record group {T : Type} (on : T -> Prop) (add : T -> T -> T) (opp : T -> T) (zero : T) : Prop := mkGroup {
  g_zero : on zero;
  g_add : forall A B, on A -> on B -> on (add A B);
  g_opp : forall A, on A -> on (opp A);
  g_comm : forall A B, on A -> on B -> add A B = add B A;
  g_assoc : forall A B C, on A -> on B -> on C -> add (add A B) C = add A (add B C);
  g_id : forall A, on A -> add A zero = A;
  g_inv : forall A, on A -> add A (opp A) = zero }.

Section Grp.
  Context {T : Type} (on : T -> Prop) (add : T -> T -> T) (opp : T -> T) (zero : T).
  Hypothesis HG : group on add opp zero.
  Declare Scope grp.
  Local Notation "A + B" := (add A B) : grp.
  Local Open Scope grp.
  Let on0 := g_zero _ _ _ _ HG.
  Let onA := g_add _ _ _ _ HG.
  Let onO := g_opp _ _ _ _ HG.
  Let comm := g_comm _ _ _ _ HG.
  Let assoc := g_assoc _ _ _ _ HG.
  Let idr := g_id _ _ _ _ HG.
  Let inv := g_inv _ _ _ _ HG.
  Hint Resolve on0 onA onO : grp.

  Lemma idl A : on A -> zero + A = A.
  Proof. intro H. rewrite comm by auto with grp. apply idr, H. Qed.
  Lemma invl A : on A -> opp A + A = zero.
  Proof. intro H. rewrite comm by auto with grp. apply inv, H. Qed.
  Lemma cancel A B C : on A -> on B -> on C -> A + C = B + C -> A = B.
  Proof.
    intros HA HB HC E. rewrite <- (idr A HA), <- (idr B HB), <- (inv C HC), <- !assoc by auto with grp. rewrite E. reflexivity.
  Qed.
  Lemma opp_unique A B : on A -> on B -> A + B = zero -> B = opp A.
  Proof. intros HA HB E. apply (cancel _ _ A); auto with grp. rewrite comm, E, invl by auto with grp. reflexivity. Qed.
  Lemma opp_opp A : on A -> opp (opp A) = A.
  Proof. intro H. symmetry. apply opp_unique; auto with grp. apply invl, H. Qed.
  Lemma opp_zero : opp zero = zero.
  Proof. symmetry. apply opp_unique; auto with grp. Qed.
  Lemma opp_add A B : on A -> on B -> opp (A + B) = opp A + opp B.
  Proof.
    intros HA HB. symmetry. apply opp_unique; auto with grp.
    rewrite (comm (opp A)), assoc, <- (assoc B) by auto with grp. rewrite inv, idl, inv by auto with grp. reflexivity.
  Qed.
  Lemma swap A B C D : on A -> on B -> on C -> on D -> (A + B) + (C + D) = (A + C) + (B + D).
  Proof.
    intros HA HB HC HD. rewrite !assoc by auto with grp. f_equal. rewrite <- !assoc by auto with grp. f_equal. apply comm; assumption.
  Qed.
  Lemma sub_zero A B : on A -> on B -> A + opp B = zero -> A = B.
  Proof. intros HA HB E. apply (cancel _ _ (opp B)); auto with grp. rewrite E, inv by exact HB. reflexivity. Qed.
  Lemma add_sub A B : on A -> on B -> (A + B) + opp B = A.
  Proof. intros HA HB. rewrite assoc, inv, idr by auto with grp. reflexivity. Qed.
  Lemma sub_add A B : on A -> on B -> (A + opp B) + B = A.
  Proof. intros HA HB. rewrite assoc, invl, idr by auto with grp. reflexivity. Qed.
  Lemma tele A B C : on A -> on B -> on C -> (A + opp B) + (B + C) = A + C.
  Proof. intros HA HB HC. rewrite assoc, <- (assoc (opp B)), invl, idl by auto with grp. reflexivity. Qed.

  (** *** multiples *)
  Fixpoint mul (n : nat) (A : T) : T := match n with O => zero | S m => mul m A + A end.
  Lemma on_mul n A : on A -> on (mul n A).
  Proof. intro H. induction n; cbn [mul]; auto with grp. Qed.
  Definition zmul (z : Z) (A : T) : T := match z with Z0 => zero | Zpos p => mul (Pos.to_nat p) A | Zneg p => opp (mul (Pos.to_nat p) A) end.
  Lemma on_zmul z A : on A -> on (zmul z A).
  Proof. intro H. destruct z; cbn [zmul]; auto using on_mul with grp. Qed.
  Hint Resolve on_mul on_zmul : grp.
  Lemma zmul_nat n A : zmul (Z.of_nat n) A = mul n A.
  Proof. destruct n as [|n]; [reflexivity|]. cbn [Z.of_nat zmul]. rewrite SuccNat2Pos.id_succ. reflexivity. Qed.
  Lemma zmul_succ z A : on A -> zmul (Z.succ z) A = zmul z A + A.
  Proof.
    intro H. destruct (Z_lt_le_dec z 0) as [L|L].
    - assert (E : exists n, z = - Z.of_nat (S n)) by (exists (Z.to_nat (- z - 1)); lia). destruct E as [n ->].
      assert (E : forall m, zmul (- Z.of_nat m) A = opp (mul m A)).
      { intro m. destruct m as [|m]; [symmetry; exact opp_zero|]. change (- Z.of_nat (S m)) with (Zneg (Pos.of_succ_nat m)). cbn [zmul]. rewrite SuccNat2Pos.id_succ. reflexivity. }
      replace (Z.succ (- Z.of_nat (S n))) with (- Z.of_nat n) by lia. rewrite !E. cbn [mul].
      rewrite opp_add by auto using on_mul with grp. rewrite sub_add by auto using on_mul with grp. reflexivity.
    - rewrite <- (Z2Nat.id z L), <- Nat2Z.inj_succ, !zmul_nat. reflexivity.
  Qed.
  Lemma zmul_pred z A : on A -> zmul (Z.pred z) A + A = zmul z A.
  Proof. intro H. rewrite <- zmul_succ, Z.succ_pred by exact H. reflexivity. Qed.
  Lemma zmul_add a b A : on A -> zmul (a + b) A = zmul a A + zmul b A.
  Proof.
    intro H. revert b. apply Z.bi_induction.
    - intros ? ? ->. reflexivity.
    - rewrite Z.add_0_r. cbn [zmul]. rewrite idr by auto with grp. reflexivity.
    - intro b. rewrite Z.add_succ_r, !zmul_succ by exact H. split; intro E.
      + rewrite E, assoc by auto with grp. reflexivity.
      + apply (cancel _ _ A); auto with grp. rewrite E, assoc by auto with grp. reflexivity.
  Qed.
  Lemma zmul_1 A : on A -> zmul 1 A = A.
  Proof. intro H. cbn. apply idl, H. Qed.
  Lemma zmul_2 A : on A -> zmul 2 A = A + A.
  Proof. intro H. change 2 with (1 + 1)%Z. rewrite zmul_add, zmul_1 by exact H. reflexivity. Qed.
  Lemma zmul_0 A : zmul 0 A = zero. Proof. reflexivity. Qed.
  Lemma zmul_opp a A : on A -> zmul (- a) A = opp (zmul a A).
  Proof.
    intro H. apply opp_unique; auto with grp. rewrite <- zmul_add by exact H. rewrite Z.add_opp_diag_r. reflexivity.
  Qed.
  Lemma zmul_zero a : zmul a zero = zero.
  Proof.
    assert (E : forall n, mul n zero = zero) by (induction n; cbn [mul]; [reflexivity|rewrite IHn; auto with grp]).
    destruct a; cbn [zmul]; rewrite ?E, ?opp_zero; reflexivity.
  Qed.
  Lemma zmul_mul a b A : on A -> zmul (a * b) A = zmul a (zmul b A).
  Proof.
    intro H. revert a. apply Z.bi_induction.
    - intros ? ? ->. reflexivity.
    - reflexivity.
    - intro a. rewrite Z.mul_succ_l, zmul_add, zmul_succ by auto with grp. split; intro E; [rewrite E; reflexivity|].
      apply (cancel _ _ (zmul b A)); auto with grp.
  Qed.
  Lemma zmul_comm a b A : on A -> zmul a (zmul b A) = zmul b (zmul a A).
  Proof. intro H. rewrite <- !zmul_mul, Z.mul_comm by exact H. reflexivity. Qed.
  Lemma zmul_plus a A B : on A -> on B -> zmul a (A + B) = zmul a A + zmul a B.
  Proof.
    intros HA HB. revert a. apply Z.bi_induction.
    - intros ? ? ->. reflexivity.
    - cbn [zmul]. symmetry. auto with grp.
    - intro a. rewrite !zmul_succ by auto with grp. split; intro E.
      + rewrite E, swap by auto with grp. reflexivity.
      + apply (cancel _ _ (A + B)); auto with grp. rewrite E, swap by auto with grp. reflexivity.
  Qed.
  Lemma zmul_neg a A : on A -> zmul a (opp A) = opp (zmul a A).
  Proof. intro H. apply opp_unique; auto with grp. rewrite <- zmul_plus, inv, zmul_zero by auto with grp. reflexivity. Qed.

  (** *** orders *)
  Lemma killed_gcd a b A : on A -> zmul a A = zero -> zmul b A = zero -> zmul (Z.gcd a b) A = zero.
  Proof.
    intros H Ha Hb. destruct (Z.gcd_bezout a b (Z.gcd a b) eq_refl) as (u & v & E). rewrite <- E, zmul_add, !zmul_mul, Ha, Hb, !zmul_zero by exact H. auto with grp.
  Qed.
  Lemma killed_div a b A : on A -> zmul a A = zero -> (a | b) -> zmul b A = zero.
  Proof. intros H Ha [c ->]. rewrite zmul_mul, Ha by exact H. apply zmul_zero. Qed.
  Lemma killed_coprime a b A : on A -> zmul a A = zero -> zmul b A = zero -> Z.gcd a b = 1 -> A = zero.
  Proof. intros H Ha Hb G. rewrite <- (zmul_1 A H), <- G. apply killed_gcd; assumption. Qed.
  Definition ord (A : T) (n : Z) : Prop := 0 < n /\ forall k, zmul k A = zero <-> (n | k).
  Lemma ord_power q k A : on A -> prime q -> 0 <= k -> zmul (q ^ (k + 1)) A = zero -> zmul (q ^ k) A <> zero -> ord A (q ^ (k + 1)).
  Proof.
    intros H Hq Hk Z0 N. assert (q1 : 1 < q) by (destruct Hq; assumption).
    split; [apply Z.pow_pos_nonneg; lia|]. intro j. split; [|intro D; apply (killed_div (q ^ (k + 1))); assumption].
    intro E. pose proof (killed_gcd _ _ _ H Z0 E) as EG. set (g := Z.gcd (q ^ (k + 1)) j) in *.
    assert (Dg : (g | q ^ (k + 1))) by apply Z.gcd_divide_l. assert (Dj : (g | j)) by apply Z.gcd_divide_r.
    destruct (Zdivide_power_2 g q (k + 1) ltac:(lia) ltac:(apply Z.gcd_nonneg) Hq Dg) as [m Em].
    assert (g0 : g <> 0). { intro G0. rewrite G0 in Dg. destruct Dg as [c Ec]. assert (0 < q ^ (k + 1)) by (apply Z.pow_pos_nonneg; lia). lia. }
    assert (m0 : 0 <= m). { destruct (Z_lt_le_dec m 0); [|assumption]. rewrite Z.pow_neg_r in Em by assumption. contradiction. }
    destruct (Z_lt_le_dec m (k + 1)) as [L|L].
    - exfalso. apply N. apply (killed_div g); [assumption..|]. rewrite Em. exists (q ^ (k - m)). rewrite <- Z.pow_add_r by lia. f_equal. lia.
    - apply Z.divide_trans with g; [|exact Dj]. rewrite Em. exists (q ^ (m - (k + 1))). rewrite <- Z.pow_add_r by lia. f_equal. lia.
  Qed.
  Lemma ord_prime q A : on A -> prime q -> zmul q A = zero -> A <> zero -> ord A q.
  Proof.
    intros H Hq Z0 N. replace q with (q ^ (0 + 1)) by (rewrite Z.add_0_l; apply Z.pow_1_r). apply ord_power; [assumption..|lia| |].
    - rewrite Z.add_0_l, Z.pow_1_r. exact Z0.
    - rewrite Z.pow_0_r, zmul_1 by exact H. exact N.
  Qed.
  Lemma ord_eq A n j k : on A -> ord A n -> zmul j A = zmul k A -> (n | j - k).
  Proof. intros H (_ & O) E. apply O. unfold Z.sub. rewrite zmul_add, zmul_opp, E by exact H. apply inv. auto with grp. Qed.
  Lemma ord_mod A n k : on A -> ord A n -> zmul (k mod n) A = zmul k A.
  Proof.
    intros H (P & O). rewrite (Z.div_mod k n) at 2 by lia. rewrite zmul_add, Z.mul_comm, zmul_mul by exact H.
    rewrite (proj2 (O n) (Z.divide_refl n)), zmul_zero, idl by auto with grp. reflexivity.
  Qed.

  (** *** finite subgroups *)
  Record sub (L : list T) : Prop := mkSub {
    s_nodup : NoDup L; s_zero : In zero L; s_on : forall A, In A L -> on A;
    s_add : forall A B, In A L -> In B L -> In (A + B) L; s_opp : forall A, In A L -> In (opp A) L }.
  Lemma s_zmul L k A : sub L -> In A L -> In (zmul k A) L.
  Proof.
    intros S I. assert (E : forall n, In (mul n A) L) by (induction n; cbn [mul]; [apply s_zero, S|apply s_add; assumption]).
    destruct k; cbn [zmul]; [apply s_zero, S|apply E|apply s_opp; [exact S|apply E]].
  Qed.
  Definition cyc (A : T) (n : Z) : list T := map (fun k => mul k A) (seq 0 (Z.to_nat n)).
  Lemma cyc_in A n B : on A -> ord A n -> (In B (cyc A n) <-> exists k, B = zmul k A).
  Proof.
    intros H O. unfold cyc. rewrite in_map_iff. split.
    - intros (k & <- & _). exists (Z.of_nat k). symmetry. apply zmul_nat.
    - intros (k & ->). assert (P : 0 < n) by apply O. pose proof (Z.mod_pos_bound k n P). exists (Z.to_nat (k mod n)). split.
      + rewrite <- zmul_nat, Z2Nat.id by lia. apply ord_mod; assumption.
      + apply in_seq. lia.
  Qed.
  Lemma cyc_len A n : ord A n -> Z.of_nat (length (cyc A n)) = n.
  Proof. intros (P & _). unfold cyc. rewrite map_length, seq_length. lia. Qed.
  Lemma cyc_sub A n : on A -> ord A n -> sub (cyc A n).
  Proof.
    intros H O. assert (I := cyc_in A n). assert (P : 0 < n) by apply O. split.
    - unfold cyc. apply nodup_map_in; [|apply seq_NoDup]. intros i j Hi Hj E. apply in_seq in Hi, Hj. rewrite <- !zmul_nat in E.
      apply (ord_eq _ _ _ _ H O) in E. destruct (Nat.eq_dec i j) as [|N]; [assumption|exfalso].
      destruct E as [c Ec]. assert (c = 0) by nia. subst c. lia.
    - apply I; [assumption..|]. exists 0. reflexivity.
    - intros B HB. apply I in HB; [|assumption..]. destruct HB as [k ->]. auto with grp.
    - intros B C HB HC. apply I in HB; [|assumption..]. apply I in HC; [|assumption..]. destruct HB as [k ->], HC as [l ->].
      apply I; [assumption..|]. exists (k + l)%Z. symmetry. apply zmul_add, H.
    - intros B HB. apply I in HB; [|assumption..]. destruct HB as [k ->]. apply I; [assumption..|]. exists (- k). symmetry. apply zmul_opp, H.
  Qed.
  Definition killed (n : Z) (L : list T) : Prop := forall A, In A L -> zmul n A = zero.
  Lemma cyc_killed A n : on A -> ord A n -> killed n (cyc A n).
  Proof.
    intros H O B HB. apply cyc_in in HB; [|assumption..]. destruct HB as [k ->]. rewrite zmul_comm by exact H.
    rewrite (proj2 (proj2 O n) (Z.divide_refl n)). apply zmul_zero.
  Qed.
  Lemma killed_more n m L : sub L -> killed n L -> (n | m) -> killed m L.
  Proof. intros S K D A I. apply (killed_div n); [apply (s_on _ S), I|apply K, I|exact D]. Qed.

  Definition lsum (L M : list T) : list T := map (fun ab => fst ab + snd ab) (list_prod L M).
  Definition meet (L M : list T) : Prop := forall A, In A L -> In A M -> A = zero.
  Lemma lsum_in L M A : In A (lsum L M) <-> exists B C, In B L /\ In C M /\ A = B + C.
  Proof.
    unfold lsum. rewrite in_map_iff. split.
    - intros ([B C] & <- & I). apply in_prod_iff in I. exists B, C. cbn. tauto.
    - intros (B & C & I & J & ->). exists (B, C). split; [reflexivity|]. apply in_prod_iff. tauto.
  Qed.
  Lemma lsum_len L M : Z.of_nat (length (lsum L M)) = (Z.of_nat (length L) * Z.of_nat (length M))%Z.
  Proof. unfold lsum. rewrite map_length, prod_length. apply Nat2Z.inj_mul. Qed.
  Lemma lsum_sub L M : sub L -> sub M -> meet L M -> sub (lsum L M).
  Proof.
    intros SL SM D. pose proof (s_on _ SL) as oL. pose proof (s_on _ SM) as oM. split.
    - unfold lsum. apply nodup_map_in; [|apply nodup_prod; [apply SL|apply SM]].
      intros [A B] [C E] I J Q. apply in_prod_iff in I, J. cbn [fst snd] in Q. destruct I as [IA IB], J as [IC IE].
      assert (Q' : A + opp C = E + opp B).
      { apply (cancel _ _ (C + B)); auto 6 with grp.
        rewrite tele, (comm C B), tele, Q by auto. apply comm; auto. }
      assert (Z1 : A + opp C = zero) by (apply D; [apply (s_add _ SL); [exact IA|apply (s_opp _ SL), IC]|rewrite Q'; apply (s_add _ SM); [exact IE|apply (s_opp _ SM), IB]]).
      f_equal; [apply sub_zero; auto|]. symmetry. apply sub_zero; auto. rewrite <- Q'. exact Z1.
    - apply lsum_in. exists zero, zero. split; [apply SL|]. split; [apply SM|]. symmetry. auto with grp.
    - intros A I. apply lsum_in in I. destruct I as (B & C & I & J & ->). auto with grp.
    - intros A A' I I'. apply lsum_in in I, I'. destruct I as (B & C & I & J & ->), I' as (B' & C' & I' & J' & ->).
      apply lsum_in. exists (B + B'), (C + C'). split; [apply (s_add _ SL); assumption|]. split; [apply (s_add _ SM); assumption|].
      apply swap; auto.
    - intros A I. apply lsum_in in I. destruct I as (B & C & I & J & ->). apply lsum_in. exists (opp B), (opp C).
      split; [apply (s_opp _ SL), I|]. split; [apply (s_opp _ SM), J|]. apply opp_add; auto.
  Qed.
  Lemma lsum_killed n L M : sub L -> sub M -> killed n L -> killed n M -> killed n (lsum L M).
  Proof.
    intros SL SM KL KM A I. apply lsum_in in I. destruct I as (B & C & I & J & ->).
    rewrite zmul_plus, (KL _ I), (KM _ J) by (apply (s_on _ SL), I || apply (s_on _ SM), J). auto with grp.
  Qed.
  Lemma meet_coprime m n L M : sub L -> killed m L -> killed n M -> Z.gcd m n = 1 -> meet L M.
  Proof. intros SL KL KM G A I J. apply (killed_coprime m n); [apply (s_on _ SL), I|apply KL, I|apply KM, J|exact G]. Qed.
  (** two points of the same prime order either generate the same subgroup or meet trivially *)
  Lemma meet_prime q A B : on A -> on B -> prime q -> ord A q -> ord B q -> (forall k, B <> zmul k A) -> meet (cyc A q) (cyc B q).
  Proof.
    intros HA HB Hq OA OB N C I J. apply cyc_in in I; [|assumption..]. apply cyc_in in J; [|assumption..].
    destruct I as [i Ei], J as [j Ej]. destruct (Zdivide_dec q j) as [D|D]; [rewrite Ej; apply OB, D|exfalso].
    assert (G : rel_prime q j) by (apply prime_rel_prime; assumption). apply rel_prime_sym, rel_prime_bezout in G. destruct G as [u v E].
    apply (N (u * i)%Z). rewrite zmul_mul, <- Ei, Ej, <- zmul_mul by assumption.
    rewrite <- (zmul_1 B HB) at 1. rewrite <- E, zmul_add, (zmul_mul v q) by exact HB. rewrite (proj2 (proj2 OB q) (Z.divide_refl q)), zmul_zero. auto with grp.
  Qed.

  (** *** when a subgroup is everything *)
  Section All.
    Variables (enc : T -> Z) (N : Z).
    Hypothesis enc_inj : forall A B, on A -> on B -> enc A = enc B -> A = B.
    Hypothesis enc_bound : forall A, on A -> 0 <= enc A < N.
    Variable L : list T.
    Hypothesis SL : sub L.
    Hypothesis big : N < 3 * Z.of_nat (length L).
    Hypothesis half : forall A, on A -> In (A + A) L -> In A L.
    Variable dec : forall A B : T, {A = B} + {A <> B}.
    Lemma all_in A : on A -> In A L.
    Proof.
      intro HA. destruct (in_dec dec A L) as [|NI]; [assumption|exfalso]. pose proof (s_on _ SL) as oL.
      set (M := L ++ (map (add A) L ++ map (add (opp A)) L)).
      assert (oM : forall B, In B M -> on B).
      { intros B I. unfold M in I. rewrite !in_app_iff, !in_map_iff in I. destruct I as [I|[(C & <- & I)|(C & <- & I)]]; auto with grp. }
      assert (ND : NoDup M).
      { assert (inj : forall C, on C -> NoDup (map (add C) L)).
        { intros C HC. apply nodup_map_in; [|apply SL]. intros x y Ix Iy E. rewrite !(comm C) in E by auto. apply (cancel _ _ C); auto. }
        apply nodup_app; [apply SL| |].
        - apply nodup_app; [apply inj; exact HA|apply inj; auto with grp|].
          intros x I J. apply in_map_iff in I, J. destruct I as (B & <- & I), J as (C & E & J). apply NI, half; [exact HA|].
          assert (E' : A + A = C + opp B).
          { replace C with ((A + A) + B); [symmetry; apply add_sub; auto with grp|].
            rewrite assoc, <- E, <- assoc, inv, idl by auto with grp. reflexivity. }
          rewrite E'. apply (s_add _ SL); [exact J|apply (s_opp _ SL), I].
        - intros x I J. rewrite in_app_iff, !in_map_iff in J. apply NI. destruct J as [(B & E & J)|(B & E & J)].
          + replace A with (x + opp B) by (rewrite <- E; apply add_sub; auto). apply (s_add _ SL); [exact I|apply (s_opp _ SL), J].
          + replace A with (B + opp x). { apply (s_add _ SL); [exact J|apply (s_opp _ SL), I]. }
            rewrite <- E, opp_add, opp_opp, (comm A), <- assoc, inv, idl by auto with grp. reflexivity. }
      assert (B : Z.of_nat (length (map enc M)) <= N).
      { apply nodup_bound.
        - specialize (enc_bound zero on0). lia.
        - apply nodup_map_in; [|exact ND]. intros x y Ix Iy. apply enc_inj; auto.
        - intros x I. apply in_map_iff in I. destruct I as (C & <- & I). auto. }
      unfold M in B. rewrite map_length, !app_length, !map_length in B. lia.
    Qed.
  End All.
  (** halving, subgroup of odd exponent without points of order 2 *)
  Lemma half_odd n L A : sub L -> killed n L -> Z.odd n = true -> (forall B, on B -> B + B = zero -> B = zero) ->
    on A -> In (A + A) L -> In A L.
  Proof.
    intros SL KL O N2 HA I. apply Z.odd_spec in O. destruct O as [m Em].
    assert (E : A + opp (zmul (m + 1) (A + A)) = zero).
    { apply N2; [auto with grp|]. rewrite <- zmul_2, zmul_plus, zmul_neg, <- zmul_mul by auto with grp.
      replace (2 * (m + 1)) with (n + 1)%Z by lia. rewrite zmul_2, (zmul_add n), (KL _ I), zmul_1, idl by auto with grp. apply inv. auto with grp. }
    apply sub_zero in E; [|auto with grp..]. rewrite E. apply s_zmul; assumption.
  Qed.
  (** halving, odd part plus a cyclic 2-group whose generator is not a double *)
  Lemma half_even n m L P A : sub L -> killed n L -> Z.odd n = true -> on P -> ord P (2 * m) ->
    (forall B, on B -> B + B = zero -> B = zero \/ B = zmul m P) -> (forall B, on B -> B + B <> P) ->
    on A -> In (A + A) (lsum L (cyc P (2 * m))) -> In A (lsum L (cyc P (2 * m))).
  Proof.
    intros SL KL O HP OP N2 ND HA I. apply lsum_in in I. destruct I as (C & D & I & J & E).
    pose proof (s_on _ SL _ I) as HC. apply cyc_in in J; [|assumption..]. destruct J as [j ->].
    apply Z.odd_spec in O. destruct O as [h Eh].
    assert (EC : zmul 2 (zmul (h + 1) C) = C).
    { rewrite <- zmul_mul by exact HC. replace (2 * (h + 1)) with (n + 1)%Z by lia. rewrite zmul_add, (KL _ I), zmul_1, idl by auto with grp. reflexivity. }
    set (B := A + opp (zmul (h + 1) C)). assert (HB : on B) by (unfold B; auto with grp).
    assert (EB : B + B = zmul j P).
    { unfold B. rewrite <- zmul_2, zmul_plus, zmul_neg, EC, zmul_2, E by auto with grp. rewrite (comm C), add_sub by auto with grp. reflexivity. }
    assert (EA : A = zmul (h + 1) C + B). { unfold B. rewrite comm, sub_add by auto with grp. reflexivity. }
    enough (exists k, B = zmul k P) as [k Ek].
    { apply lsum_in. exists (zmul (h + 1) C), B. split; [apply s_zmul; assumption|]. split; [apply cyc_in; [assumption..|]; exists k; exact Ek|exact EA]. }
    destruct (Z.Even_or_Odd j) as [[i Ei]|[i Ei]].
    - assert (Z2 : (B + opp (zmul i P)) + (B + opp (zmul i P)) = zero).
      { rewrite <- zmul_2, zmul_plus, zmul_neg, <- zmul_mul, zmul_2, EB, <- Ei by auto with grp. apply inv. auto with grp. }
      apply N2 in Z2; [|auto with grp]. destruct Z2 as [Z2|Z2].
      + exists i. apply sub_zero in Z2; auto with grp.
      + exists (m + i)%Z. rewrite zmul_add, <- Z2, sub_add by auto with grp. reflexivity.
    - exfalso. apply (ND (B + opp (zmul i P))); [auto with grp|].
      rewrite <- zmul_2, zmul_plus, zmul_neg, <- zmul_mul, zmul_2, EB, Ei by auto with grp.
      rewrite zmul_add, zmul_1, (comm (zmul _ P) P), add_sub by auto with grp. reflexivity.
  Qed.
End Grp.

Section Hom.
  Context {T U : Type} (on : T -> Prop) (add : T -> T -> T) (opp : T -> T) (zero : T).
  Context (on' : U -> Prop) (add' : U -> U -> U) (opp' : U -> U) (zero' : U).
  Hypothesis HG : group on add opp zero.
  Hypothesis HG' : group on' add' opp' zero'.
  Variable f : T -> U.
  Hypothesis f_on : forall A, on A -> on' (f A).
  Hypothesis f_add : forall A B, on A -> on B -> f (add A B) = add' (f A) (f B).
  Lemma hom_zero : f zero = zero'.
  Proof.
    pose proof (g_zero _ _ _ _ HG) as Z. apply (cancel _ _ _ _ HG' _ _ (f zero)); [auto|apply HG'|auto|].
    rewrite <- f_add, (g_id _ _ _ _ HG), (idl _ _ _ _ HG') by auto. reflexivity.
  Qed.
  Lemma hom_opp A : on A -> f (opp A) = opp' (f A).
  Proof.
    intro H. pose proof (g_opp _ _ _ _ HG A H). apply (opp_unique _ _ _ _ HG'); [auto..|].
    rewrite <- f_add, (g_inv _ _ _ _ HG) by assumption. apply hom_zero.
  Qed.
  Lemma hom_mul n A : on A -> f (mul add zero n A) = mul add' zero' n (f A).
  Proof.
    intro H. induction n as [|n IH]; cbn [mul]; [apply hom_zero|]. rewrite f_add, IH by (exact H || apply (on_mul _ _ _ _ HG), H). reflexivity.
  Qed.
  Lemma hom_zmul k A : on A -> f (zmul add opp zero k A) = zmul add' opp' zero' k (f A).
  Proof.
    intro H. destruct k; cbn [zmul]; [apply hom_zero|apply hom_mul, H|].
    rewrite hom_opp, hom_mul by (exact H || apply (on_mul _ _ _ _ HG), H). reflexivity.
  Qed.
End Hom.

Section Endo.
  Context {T : Type} (on : T -> Prop) (add : T -> T -> T) (opp : T -> T) (zero : T).
  Hypothesis HG : group on add opp zero.
  Variable f : T -> T.
  Hypothesis f_on : forall A, on A -> on (f A).
  Hypothesis f_add : forall A B, on A -> on B -> f (add A B) = add (f A) (f B).
  Local Notation zmul := (zmul add opp zero).
  Local Notation ord := (ord add opp zero).
  (** eigenvectors of different eigenvalues *)
  Lemma indep_eigen q A B c c' : on A -> on B -> ord B q -> f A = zmul c A -> f B = zmul c' B -> ~ (q | c' - c) -> forall k, B <> zmul k A.
  Proof.
    intros HA HB OB EA EB N k E. apply N. apply (ord_eq _ _ _ _ HG B); [assumption..|].
    rewrite <- EB. rewrite E at 1. rewrite (hom_zmul _ _ _ _ _ _ _ _ HG HG f f_on f_add), EA, (zmul_comm _ _ _ _ HG), <- E by assumption. reflexivity.
  Qed.
  (** f^2 + f + 1 = 0 *)
  Lemma indep_rot q A : on A -> ord A q -> add (add (f (f A)) (f A)) A = zero -> (forall i, ~ (q | i * i + i + 1)) -> forall k, f A <> zmul k A.
  Proof.
    intros HA OA E N k Ek. apply (N k). apply OA. rewrite !(zmul_add _ _ _ _ HG), (zmul_mul _ _ _ _ HG), (zmul_1 _ _ _ _ HG) by exact HA.
    transitivity (add (add (f (f A)) (f A)) A); [|exact E]. rewrite Ek at 1. rewrite (hom_zmul _ _ _ _ _ _ _ _ HG HG f f_on f_add), !Ek by exact HA. reflexivity.
  Qed.
End Endo.

(** -3 is not a square modulo a prime that leaves 2 modulo 3 *)
Lemma no_cube_root q i : prime q -> q mod 3 = 2 -> 3 < q -> ~ (q | i * i + i + 1).
Proof.
  intros Hq Q3 Q D.
  assert (ND : ~ (q | i)).
  { intro Di. assert (D1 : (q | 1)) by (replace 1 with ((i * i + i + 1) - i * (i + 1)) by ring; apply Z.divide_sub_r; [exact D|apply Z.divide_mul_l, Di]). apply Z.divide_1_r_nonneg in D1; lia. }
  assert (C : (q | i ^ 3 - 1)). { replace (i ^ 3 - 1) with ((i - 1) * (i * i + i + 1)) by ring. apply Z.divide_mul_r, D. }
  assert (P : forall n, (q | (i ^ 3) ^ Z.of_nat n - 1)).
  { induction n as [|n IH]; [cbn; apply Z.divide_0_r|]. rewrite Nat2Z.inj_succ, Z.pow_succ_r by lia.
    replace (i ^ 3 * (i ^ 3) ^ Z.of_nat n - 1) with (i ^ 3 * ((i ^ 3) ^ Z.of_nat n - 1) + (i ^ 3 - 1)) by ring. apply Z.divide_add_r; [apply Z.divide_mul_r, IH|exact C]. }
  set (m := q / 3). assert (Em : q - 1 = 3 * m + 1) by (pose proof (Z.div_mod q 3 ltac:(lia)); unfold m; lia).
  assert (m0 : 0 <= m) by (apply Z.div_pos; lia).
  specialize (P (Z.to_nat m)). rewrite Z2Nat.id, <- Z.pow_mul_r in P by lia.
  assert (F : (q | i ^ (q - 1) - 1)).
  { pose proof (fermat q i Hq ND) as F. exists (i ^ (q - 1) / q). pose proof (Z.div_mod (i ^ (q - 1)) q ltac:(lia)). lia. }
  rewrite Em, Z.pow_add_r, Z.pow_1_r in F by lia.
  assert (D1 : (q | i - 1)). { replace (i - 1) with ((i ^ (3 * m) * i - 1) - i * (i ^ (3 * m) - 1)) by ring. apply Z.divide_sub_r; [exact F|apply Z.divide_mul_r, P]. }
  assert (D3 : (q | 3)). { replace 3 with ((i * i + i + 1) - (i - 1) * (i + 2)) by ring. apply Z.divide_sub_r; [exact D|apply Z.divide_mul_l, D1]. }
  apply Z.divide_pos_le in D3; lia.
Qed.
