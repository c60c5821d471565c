(** Lists that count. *)
From Coq Require Import ZArith Lia List.
From Verif.Spec Require Import Arith Curve Order.
Import ListNotations.
Open Scope Z_scope.

Definition apoint_dec (A B : apoint) : {A = B} + {A <> B}.
Proof. decide equality; apply Z.eq_dec. Defined.
Lemma nodup_app {T : Type} (l k : list T) : NoDup l -> NoDup k -> (forall x, In x l -> In x k -> False) -> NoDup (l ++ k)%list.
Proof.
  intros N Nk D. induction N as [|x l NI N IH]; [exact Nk|]. cbn. constructor.
  - intro H. apply in_app_or in H. destruct H as [H|H]; [contradiction|]. exact (D x (or_introl eq_refl) H).
  - apply IH. intros y Hy Hk. exact (D y (or_intror Hy) Hk).
Qed.
Lemma counted_ext {T : Type} (P Q : T -> Prop) n : (forall x, P x <-> Q x) -> counted P n -> counted Q n.
Proof. intros E (l & N & H & L). exists l. split; [exact N|]. split; [|exact L]. intro x. rewrite H. apply E. Qed.
(** each A in L has n things of its own *)
Lemma count_pairs {A B : Type} (R : A -> B -> Prop) (n : A -> Z) (L : list A) : NoDup L -> (forall a, In a L -> counted (R a) (n a)) ->
  (forall a a' b, In a L -> In a' L -> R a b -> R a' b -> a = a') ->
  counted (fun b => exists a, In a L /\ R a b) (fold_right Z.add 0 (map n L)).
Proof.
  intros N C D. induction N as [|a L NI N IH].
  - exists []. split; [constructor|]. split; [|reflexivity]. intro b. split; [intros []|intros (a & [] & _)].
  - destruct IH as (l & Nl & Hl & El); [intros a' H; apply C; right; exact H|intros a1 a2 b H1 H2; apply D; right; assumption|].
    destruct (C a (or_introl eq_refl)) as (k & Nk & Hk & Ek). exists (k ++ l)%list. split; [|split].
    + apply nodup_app; [exact Nk|exact Nl|]. intros b Hb Hb'. apply Hk in Hb. apply Hl in Hb'. destruct Hb' as (a' & I & H).
      apply NI. rewrite (D a a' b (or_introl eq_refl) (or_intror I) Hb H). exact I.
    + intro b. rewrite in_app_iff, Hk, Hl. split.
      * intros [H|(a' & I & H)]; [exists a; split; [left; reflexivity|exact H]|exists a'; split; [right; exact I|exact H]].
      * intros (a' & [<-|I] & H); [left; exact H|right; exists a'; split; assumption].
    + rewrite app_length, Nat2Z.inj_add, Ek, El. reflexivity.
Qed.
Lemma sum_const {A : Type} (c : Z) (L : list A) : fold_right Z.add 0 (map (fun _ => c) L) = c * Z.of_nat (List.length L).
Proof. induction L as [|a L IH]; [cbn; lia|]. cbn [map fold_right List.length]. rewrite IH. lia. Qed.
Lemma counted_two {T : Type} (x y : T) (P : T -> Prop) : x <> y -> (forall z, P z <-> z = x \/ z = y) -> counted P 2.
Proof.
  intros N H. exists [x; y]. split; [|split; [|reflexivity]].
  - constructor; [intros [E|[]]; apply N; symmetry; exact E|]. constructor; [intros []|constructor].
  - intro z. rewrite H. cbn. split; [intros [E|[E|[]]]; [left|right]; symmetry; exact E|intros [-> | ->]; [left|right; left]; reflexivity].
Qed.
(** the list of the points other than one *)
Lemma counted_less {T : Type} (dec : forall x y : T, {x = y} + {x <> y}) (P : T -> Prop) n x : counted P n -> P x -> counted (fun y => P y /\ y <> x) (n - 1).
Proof.
  intros (l & N & H & L) Hx. apply H in Hx. apply in_split in Hx. destruct Hx as (l1 & l2 & ->). exists (l1 ++ l2)%list. pose proof (NoDup_remove _ _ _ N) as (N1 & N2).
  split; [exact N1|]. split.
  - intro y. rewrite <- H, !in_app_iff. cbn. split.
    + intros I. split; [tauto|]. intros ->. apply N2. apply in_or_app. exact I.
    + intros ([I|[I|I]] & E); [left; exact I|destruct E; symmetry; exact I|right; exact I].
  - rewrite app_length in *. cbn [List.length] in L. lia.
Qed.

Lemma counted_le {T : Type} (P Q : T -> Prop) n m : counted P n -> counted Q m -> (forall x, P x -> Q x) -> n <= m.
Proof. intros (l & N & H & E) (k & Nk & Hk & Ek) I. pose proof (NoDup_incl_length N (l' := k)) as L. assert (Z.of_nat (List.length l) <= Z.of_nat (List.length k)); [|lia]. apply inj_le. apply L. intros x Hx. apply Hk, I, H, Hx. Qed.
Lemma counted_unique {T : Type} (P : T -> Prop) n m : counted P n -> counted P m -> n = m.
Proof. intros C D. pose proof (counted_le P P n m C D (fun x H => H)). pose proof (counted_le P P m n D C (fun x H => H)). lia. Qed.
(** an injection cannot shrink *)
Lemma counted_inj {A B : Type} (P : A -> Prop) (Q : B -> Prop) (f : A -> B) n m : counted P n -> counted Q m ->
  (forall x, P x -> Q (f x)) -> (forall x y, P x -> P y -> f x = f y -> x = y) -> n <= m.
Proof.
  intros (l & N & H & E) (k & Nk & Hk & Ek) I J. assert (L : (List.length (map f l) <= List.length k)%nat).
  { apply NoDup_incl_length.
    - assert (J' : forall x y, In x l -> In y l -> f x = f y -> x = y) by (intros x y Hx Hy; apply J; apply H; assumption).
      clear H E J. induction N as [|x l NI N IH]; [constructor|]. cbn. constructor.
      + intro F. apply in_map_iff in F. destruct F as (y & Ey & Hy). apply NI. rewrite <- (J' y x (or_intror Hy) (or_introl eq_refl) Ey). exact Hy.
      + apply IH. intros y z Hy Hz. apply J'; right; assumption.
    - intros y Hy. apply in_map_iff in Hy. destruct Hy as (x & <- & Hx). apply Hk, I, H, Hx. }
  rewrite map_length in L. lia.
Qed.
