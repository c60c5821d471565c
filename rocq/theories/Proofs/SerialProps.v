(** C11-C13: bytes and texts of prime field elements. *)
From Coq Require Import ZArith Znumtheory Lia String Ascii Bool List.
From Verif.Math Require Import Zp.
From Verif.Spec Require Import Arith.
From Verif.Model Require Import Out BigInt PrimeField.
From Verif.Proofs Require Import FieldP FieldProps BytesP.
Import ListNotations.
Open Scope Z_scope.

(** *** C11 *)
Lemma to_bytes_spec p x : valid p x ->
  exists b, elt_to_bytes_be x = Ret b /\ elt_to_bytes_le x = Ret (rev b)
    /\ Z.of_nat (length b) = size_bytes (fp_new p) /\ Forall is_byte b /\ be_value b = val x.
Proof.
  intros V. destruct V as [F V]. assert (Hp : 0 < p) by lia.
  pose proof (size_pos p Hp) as S. pose proof (size_fits p Hp) as T.
  unfold elt_to_bytes_le, elt_to_bytes_be, size_bytes. rewrite F. cbn [modulus fp_new].
  unfold fp_new. cbn [modulus].
  destruct (Z.ltb_spec (val x) 0); [lia|].
  destruct (pad_left_spec (val x) (Z.to_nat ((bits p + 7) / 8))) as (b & E & L & B & Ev); [|lia|].
  { rewrite Z2Nat.id by lia. lia. }
  rewrite Z2Nat.id in E by lia. exists b. rewrite E. cbn [bind]. repeat split; auto. rewrite L.
  apply Z2Nat.id. lia.
Qed.
(** size_bytes() bytes, never a panic, the base-256 digits of the residue; _le is the reverse *)
Lemma c11_to_bytes : forall p x, valid p x ->
  exists b, elt_to_bytes_be x = Ret b /\ elt_to_bytes_le x = Ret (rev b)
    /\ Z.of_nat (length b) = size_bytes (fp_new p) /\ Forall is_byte b /\ be_value b = val x
    /\ le_value (rev b) = val x.
Proof.
  intros p x V. destruct (to_bytes_spec p x V) as (b & E1 & E2 & L & B & Ev).
  exists b. repeat split; auto. rewrite le_value_rev. exact Ev.
Qed.
(** size_bytes is the number of bytes the residues modulo p need *)
Lemma c11_size_bytes : forall p, 0 < p -> byte_size p (size_bytes (fp_new p)).
Proof. intros p Hp. apply size_byte_size, Hp. Qed.
Lemma c11_round_trip : forall p x b, valid p x ->
  (elt_to_bytes_be x = Ret b -> fp_from_bytes_be (fp_new p) b = Ret (Ok x))
  /\ (elt_to_bytes_le x = Ret b -> fp_from_bytes_le (fp_new p) b = Ret (Ok x)).
Proof.
  intros p x b V. pose proof (valid_pos _ _ V) as Hp.
  destruct (to_bytes_spec p x V) as (b' & E1 & E2 & L & B & Ev). rewrite E1, E2.
  unfold fp_from_bytes_be, fp_from_bytes_le, fp_new. split; intro E; injection E as <-.
  - rewrite from_bytes_be_value, Ev, elt_fe by lia. cbn [bind]. rewrite <- (valid_inv _ _ V). reflexivity.
  - rewrite from_bytes_le_value, le_value_rev, Ev, elt_fe by lia. cbn [bind].
    rewrite <- (valid_inv _ _ V). reflexivity.
Qed.
Lemma c11_injective : forall p x y, valid p x -> valid p y ->
  (elt_to_bytes_be x = elt_to_bytes_be y -> x = y) /\ (elt_to_bytes_le x = elt_to_bytes_le y -> x = y).
Proof.
  intros p x y Vx Vy. pose proof (c11_round_trip p x) as Rx. pose proof (c11_round_trip p y) as Ry.
  destruct (to_bytes_spec p x Vx) as (b & E1 & E2 & _). split; intro E.
  - destruct (Rx b Vx) as [R1 _], (Ry b Vy) as [R2 _]. rewrite <- E in R2. specialize (R1 E1). specialize (R2 E1).
    rewrite R1 in R2. injection R2 as R2. exact R2.
  - destruct (Rx (rev b) Vx) as [_ R1], (Ry (rev b) Vy) as [_ R2]. rewrite <- E in R2. specialize (R1 E2). specialize (R2 E2).
    rewrite R1 in R2. injection R2 as R2. exact R2.
Qed.
Example c11_ex : elt_to_bytes_be (mkFpElt 258 (mkFp 65537)) = Ret [0; 1; 2]
  /\ elt_to_bytes_le (mkFpElt 258 (mkFp 65537)) = Ret [2; 1; 0]
  /\ size_bytes (mkFp 65537) = 3 /\ valid 65537 (mkFpElt 258 (mkFp 65537)).
Proof. vm_compute. repeat split; congruence. Qed.

(** *** C12 *)
Lemma c12_from_bytes_total : forall p l, 0 < p ->
  (exists x, fp_from_bytes_be (fp_new p) l = Ret (Ok x) /\ fld x = fp_new p /\ residue p (be_value l) (val x))
  /\ (exists x, fp_from_bytes_le (fp_new p) l = Ret (Ok x) /\ fld x = fp_new p /\ residue p (le_value l) (val x)).
Proof.
  intros p l Hp. unfold fp_from_bytes_be, fp_from_bytes_le, fp_new.
  rewrite from_bytes_be_value, from_bytes_le_value, !elt_fe by lia. cbn [bind].
  split; eexists; (split; [reflexivity|split; [reflexivity|apply mod_residue, Hp]]).
Qed.
Example c12_ex : fp_from_bytes_be (fp_new 53) [255; 1; 7] = Ret (Ok (mkFpElt 36 (mkFp 53)))
  /\ fp_from_bytes_le (fp_new 53) [] = Ret (Ok (mkFpElt 0 (mkFp 53)))
  /\ be_value [255; 1; 7] = 65536 * 255 + 256 + 7.
Proof. repeat split. Qed.

(** *** C13 *)
Lemma digit_val_of c r : r <= 16 ->
  (digit_val c <? r) = match digit_of c with Some d => d <? r | None => false end
  /\ (forall d, digit_of c = Some d -> digit_val c = d /\ 0 <= d).
Proof.
  intro Hr. unfold digit_val, digit_of. pose proof (Nat2Z.is_nonneg (nat_of_ascii c)).
  set (b := Z.of_nat (nat_of_ascii c)) in *.
  destruct (Z.leb_spec 48 b), (Z.leb_spec b 57); cbn [andb]; try (split; [reflexivity|intros d E; injection E as <-; lia]);
  destruct (Z.leb_spec 97 b), (Z.leb_spec b 122), (Z.leb_spec b 102); cbn [andb]; try lia;
  destruct (Z.leb_spec 65 b), (Z.leb_spec b 90), (Z.leb_spec b 70); cbn [andb]; try lia;
  (split; [try reflexivity|try discriminate; try (intros d E; injection E as <-; lia)]);
  try (f_equal; lia); apply Z.ltb_ge; lia.
Qed.

Lemma str_app_assoc (a b c : string) : ((a ++ b) ++ c = a ++ (b ++ c))%string.
Proof. induction a as [|x a IH]; [reflexivity|]. cbn. rewrite IH. reflexivity. Qed.
Lemma str_app_nil (a : string) : (a ++ "" = a)%string.
Proof. induction a as [|x a IH]; [reflexivity|]. cbn. rewrite IH. reflexivity. Qed.

Lemma str_rev_ind (P : string -> Prop) : P EmptyString ->
  (forall s c, P s -> P (s ++ String c EmptyString)%string) -> forall s, P s.
Proof.
  intros H0 HS s.
  assert (G : forall t a, P a -> P (a ++ t)%string).
  { induction t as [|c t IH]; intros a Ha; [rewrite str_app_nil; exact Ha|].
    change (String c t) with (String c EmptyString ++ t)%string. rewrite <- str_app_assoc. apply IH, HS, Ha. }
  exact (G s EmptyString H0).
Qed.

Lemma parse_digits_app r s t acc : parse_digits r acc (s ++ t) =
  match parse_digits r acc s with Some a => parse_digits r a t | None => None end.
Proof.
  revert acc. induction s as [|c s IH]; intro acc; [reflexivity|]. cbn [parse_digits append].
  destruct (Ascii.eqb c "_"); [apply IH|]. destruct (digit_val c <? r); [apply IH|reflexivity].
Qed.

Lemma digit_not_special c d : digit_of c = Some d ->
  Ascii.eqb c "_" = false /\ Ascii.eqb c "+" = false /\ Ascii.eqb c "-" = false
  /\ is_continuation c = false /\ Ascii.eqb c "o" = false /\ Ascii.eqb c "x" = false.
Proof.
  destruct c as [[|] [|] [|] [|] [|] [|] [|] [|]]; vm_compute; intro E; try discriminate E; repeat split.
Qed.

Lemma body_parse r s n : r <= 16 -> body r s n -> parse_digits r 0 s = Some n.
Proof.
  intros Hr. induction 1 as [c d E L|s n c d B IH E L|s n B IH].
  - destruct (digit_not_special c d E) as (N & _). cbn [parse_digits]. rewrite N.
    destruct (digit_val_of c r Hr) as [A B]. rewrite A, E. apply Z.ltb_lt in L. rewrite L.
    destruct (B d E) as [-> _]. f_equal.
  - destruct (digit_not_special c d E) as (N & _). rewrite parse_digits_app, IH. cbn [parse_digits]. rewrite N.
    destruct (digit_val_of c r Hr) as [A B']. rewrite A, E. apply Z.ltb_lt in L. rewrite L.
    destruct (B' d E) as [-> _]. reflexivity.
  - rewrite parse_digits_app, IH. reflexivity.
Qed.

Lemma body_head r s n : body r s n -> exists c d t, s = String c t /\ digit_of c = Some d /\ d < r.
Proof.
  induction 1 as [c d E L|s n c d B IH E L|s n B IH].
  - exists c, d, EmptyString. auto.
  - destruct IH as (c0 & d0 & t & -> & E0 & L0). exists c0, d0, (t ++ String c EmptyString)%string. auto.
  - destruct IH as (c0 & d0 & t & -> & E0 & L0). exists c0, d0, (t ++ "_")%string. auto.
Qed.

Lemma parse_body r s n : r <= 16 -> starts_with "_" s = false -> s <> EmptyString ->
  parse_digits r 0 s = Some n -> body r s n.
Proof.
  intros Hr. revert n. induction s as [|s c IH] using str_rev_ind; intros n H Ne E; [contradiction|].
  rewrite parse_digits_app in E. destruct s as [|c0 s].
  - cbn [append parse_digits starts_with] in *. rewrite H in E.
    destruct (digit_val_of c r Hr) as [A B]. rewrite A in E. destruct (digit_of c) as [d|] eqn:D; [|discriminate].
    destruct (Z.ltb_spec d r) as [L|]; [|discriminate]. injection E as <-. destruct (B d eq_refl) as [-> _].
    apply body_one; assumption.
  - destruct (parse_digits r 0 (String c0 s)) as [m|] eqn:M; [|discriminate].
    specialize (IH m H ltac:(discriminate) eq_refl).
    cbn [parse_digits] in E. destruct (Ascii.eqb_spec c "_") as [->|U].
    + injection E as <-. apply body_under. exact IH.
    + destruct (digit_val_of c r Hr) as [A B]. rewrite A in E. destruct (digit_of c) as [d|] eqn:D; [|discriminate].
      destruct (Z.ltb_spec d r) as [L|]; [|discriminate]. injection E as <-. destruct (B d eq_refl) as [-> _].
      apply body_snoc; assumption.
Qed.

Lemma biguint_body r s n : r <= 16 -> body r s n -> biguint_from_str_radix s r = Some n.
Proof.
  intros Hr B. pose proof (body_parse r s n Hr B) as P. destruct (body_head r s n B) as (c & d & t & -> & E & L).
  destruct (digit_not_special c d E) as (N1 & N2 & N3 & _). unfold biguint_from_str_radix. cbn [starts_with tail1].
  rewrite N2. cbn [andb]. rewrite N1. exact P.
Qed.

Lemma signed_parse r s n : r <= 16 -> signed r s n -> bigint_from_str_radix s r = Some n.
Proof.
  intros Hr. intros [s0 n0 B|s0 n0 B|s0 n0 B]; pose proof (biguint_body r s0 n0 Hr B) as P;
  destruct (body_head r s0 n0 B) as (c & d & t & -> & E & L);
  destruct (digit_not_special c d E) as (N1 & N2 & N3 & _).
  - unfold bigint_from_str_radix. cbn [starts_with]. rewrite N3. exact P.
  - unfold bigint_from_str_radix. cbn [append starts_with Ascii.eqb].
    change (Ascii.eqb "+" "-") with false. cbn [andb]. unfold biguint_from_str_radix in *.
    cbn [starts_with tail1] in *. rewrite N2 in *. cbn [andb negb] in *.
    change (Ascii.eqb "+" "+") with true. cbn [andb]. rewrite N1 in *. exact P.
  - unfold bigint_from_str_radix. cbn [append starts_with tail1].
    change (Ascii.eqb "-" "-") with true. cbv iota. rewrite N2. rewrite P. reflexivity.
Qed.

Lemma parse_signed r s n : r <= 16 -> bigint_from_str_radix s r = Some n -> signed r s n.
Proof.
  intros Hr E.
  assert (G : forall t m, biguint_from_str_radix t r = Some m -> body r t m \/ exists u, t = String "+" u /\ body r u m).
  { intros t m H. unfold biguint_from_str_radix in H.
    destruct (starts_with "+" t && negb (starts_with "+" (tail1 t))) eqn:C.
    - right. destruct t as [|c t]; [discriminate C|]. cbn [starts_with tail1] in *.
      apply andb_true_iff in C. destruct C as [C _]. apply Ascii.eqb_eq in C. subst c.
      exists t. split; [reflexivity|]. destruct t as [|c t]; [discriminate H|].
      destruct (Ascii.eqb c "_") eqn:U; [discriminate H|]. apply parse_body; auto. discriminate.
    - left. destruct t as [|c t]; [discriminate H|].
      destruct (Ascii.eqb c "_") eqn:U; [discriminate H|]. apply parse_body; auto. discriminate. }
  unfold bigint_from_str_radix in E. destruct (starts_with "-" s) eqn:M.
  - destruct s as [|c s]; [discriminate M|]. cbn [starts_with tail1] in *. apply Ascii.eqb_eq in M. subst c.
    destruct (starts_with "+" s) eqn:Pl.
    + destruct (biguint_from_str_radix (String "-" s) r) as [m|] eqn:Q; [|discriminate E].
      apply G in Q. destruct Q as [Q|(u & Q & _)]; [|discriminate Q].
      apply body_head in Q. destruct Q as (c & d & t & Q & D & _). injection Q as <- _. discriminate D.
    + destruct (biguint_from_str_radix s r) as [m|] eqn:Q; [|discriminate E]. injection E as <-.
      apply G in Q. destruct Q as [Q|(u & Q & _)]; [exact (signed_minus r s m Q)|].
      subst s. discriminate Pl.
  - apply G in E. destruct E as [E|(u & -> & E)]; [apply signed_none; exact E|exact (signed_plus r u n E)].
Qed.

(** what follows an optional '-' *)
Definition number (t : string) (n : Z) : Prop :=
  exists r pre s, radix_text r pre /\ t = (pre ++ s)%string /\ signed r s n.

Definition parse_number (sl : string) : out Z :=
  bind (radix_prefix sl) (fun rp => unwrap (bigint_from_str_radix (snd rp) (fst rp))).

Lemma signed_no_prefix s n : signed 10 s n ->
  match s with
  | String c0 (String c1 rest) =>
      (match rest with String c2 _ => is_continuation c2 | _ => false end) = false
      /\ Ascii.eqb c1 "o" = false /\ Ascii.eqb c1 "x" = false /\ (Ascii.eqb c0 "0" = true -> Ascii.eqb c1 "b" = false)
  | _ => True
  end.
Proof.
  assert (NB : forall c d, digit_of c = Some d -> d < 10 -> Ascii.eqb c "b" = false).
  { intros c d. destruct c as [[|] [|] [|] [|] [|] [|] [|] [|]]; vm_compute; intro E; try discriminate E; auto; intro L; exfalso; injection E as <-; discriminate L. }
  assert (A : forall t m, body 10 t m -> forall c t', t = String c t' ->
     is_continuation c = false /\ Ascii.eqb c "o" = false /\ Ascii.eqb c "x" = false /\ Ascii.eqb c "b" = false).
  { intros t m B c t' ->. apply body_head in B. destruct B as (c0 & d & t0 & Q & D & L). injection Q as <- _.
    destruct (digit_not_special c d D) as (_ & _ & _ & K1 & K2 & K3). repeat split; auto. eapply NB; eauto. }
  assert (A2 : forall t m, body 10 t m -> forall c0 c t', t = String c0 (String c t') ->
     is_continuation c = false /\ Ascii.eqb c "o" = false /\ Ascii.eqb c "x" = false /\ Ascii.eqb c "b" = false
     /\ (match t' with String c2 _ => is_continuation c2 | _ => false end) = false).
  { assert (G : forall t m, body 10 t m -> forall c, In c (list_ascii_of_string t) ->
      is_continuation c = false /\ Ascii.eqb c "o" = false /\ Ascii.eqb c "x" = false /\ Ascii.eqb c "b" = false).
    { assert (LA : forall a b, list_ascii_of_string (a ++ b) = (list_ascii_of_string a ++ list_ascii_of_string b)%list).
      { induction a as [|x a IH]; intro b; [reflexivity|]. cbn. rewrite IH. reflexivity. }
      induction 1 as [c d E L|s0 n0 c d B IH E L|s0 n0 B IH]; intros c' H.
      - destruct H as [<-|[]]. destruct (digit_not_special c d E) as (_ & _ & _ & K1 & K2 & K3). repeat split; auto. eapply NB; eauto.
      - rewrite LA in H. apply in_app_or in H. destruct H as [H|[<-|[]]]; [apply IH, H|].
        destruct (digit_not_special c d E) as (_ & _ & _ & K1 & K2 & K3). repeat split; auto. eapply NB; eauto.
      - rewrite LA in H. apply in_app_or in H. destruct H as [H|[<-|[]]]; [apply IH, H|]. repeat split. }
    intros t m B c0 c t' ->. destruct (G _ _ B c) as (K1 & K2 & K3 & K4); [cbn; auto|]. repeat split; auto.
    destruct t' as [|c2 t']; [reflexivity|]. apply (G _ _ B c2). cbn; auto. }
  intros [s0 n0 B|s0 n0 B|s0 n0 B].
  - destruct s0 as [|c0 [|c1 rest]]; auto.
    destruct (A2 _ _ B _ _ _ eq_refl) as (K1 & K2 & K3 & K4 & K5). auto.
  - destruct s0 as [|c1 rest]; cbn; auto. destruct (A _ _ B _ _ eq_refl) as (K1 & K2 & K3 & K4).
    repeat split; auto. destruct rest as [|c2 rest]; auto. apply (A2 _ _ B _ _ _ eq_refl).
  - destruct s0 as [|c1 rest]; cbn; auto. destruct (A _ _ B _ _ eq_refl) as (K1 & K2 & K3 & K4).
    repeat split; auto. destruct rest as [|c2 rest]; auto. apply (A2 _ _ B _ _ _ eq_refl).
Qed.

Lemma signed_first r s n : r <= 16 -> signed r s n ->
  match s with String c2 _ => is_continuation c2 | _ => false end = false.
Proof.
  intros Hr [s0 n0 B|s0 n0 B|s0 n0 B]; try reflexivity.
  apply body_head in B. destruct B as (c0 & d & t0 & -> & D & L). apply (digit_not_special c0 d D).
Qed.

Lemma number_parse t n : number t n <-> parse_number t = Ret n.
Proof.
  unfold parse_number. split.
  - intros (r & pre & s & R & -> & S).
    destruct R as [[-> ->]|[[-> ->]|[[-> ->]|[-> ->]]]].
    + pose proof (signed_no_prefix s n S) as H. apply signed_parse in S; [|lia].
      cbn [append]. destruct s as [|c0 [|c1 rest]]; try (cbn [radix_prefix bind fst snd]; rewrite S; reflexivity).
      destruct H as (H1 & H2 & H3 & H4). unfold radix_prefix. rewrite H1. cbn [negb].
      rewrite H2, H3, !andb_false_r. destruct (Ascii.eqb c0 "0") eqn:Q.
      * rewrite H4 by reflexivity. cbn [andb bind fst snd]. rewrite S. reflexivity.
      * cbn [andb bind fst snd]. rewrite S. reflexivity.
    + pose proof (signed_first 16 s n ltac:(lia) S) as H. apply signed_parse in S; [|lia].
      unfold radix_prefix. cbn [append]. rewrite H. cbn. rewrite S. reflexivity.
    + pose proof (signed_first 8 s n ltac:(lia) S) as H. apply signed_parse in S; [|lia].
      unfold radix_prefix. cbn [append]. rewrite H. cbn. rewrite S. reflexivity.
    + pose proof (signed_first 2 s n ltac:(lia) S) as H. apply signed_parse in S; [|lia].
      unfold radix_prefix. cbn [append]. rewrite H. cbn. rewrite S. reflexivity.
  - intro E. assert (U : forall r s, unwrap (bigint_from_str_radix s r) = Ret n -> bigint_from_str_radix s r = Some n).
    { intros r s H. unfold unwrap in H. destruct (bigint_from_str_radix s r); [injection H as ->; reflexivity|discriminate]. }
    assert (D10 : forall s, unwrap (bigint_from_str_radix s 10) = Ret n -> number s n).
    { intros s H. apply U, parse_signed in H; [|lia]. exists 10, ""%string, s. split; [left; auto|]. auto. }
    destruct t as [|c0 [|c1 rest]]; try (apply D10; exact E).
    unfold radix_prefix in E.
    destruct (negb match rest with String c2 _ => is_continuation c2 | _ => false end); [|discriminate E].
    destruct (Ascii.eqb_spec c0 "0") as [->|]; cbn [andb] in E; [|apply D10; exact E].
    destruct (Ascii.eqb_spec c1 "o") as [->|].
    { apply U, parse_signed in E; [|cbn; lia]. exists 8, "0o"%string, rest. split; [right; right; left; auto|]. auto. }
    destruct (Ascii.eqb_spec c1 "x") as [->|].
    { apply U, parse_signed in E; [|cbn; lia]. exists 16, "0x"%string, rest. split; [right; left; auto|]. auto. }
    destruct (Ascii.eqb_spec c1 "b") as [->|].
    { apply U, parse_signed in E; [|cbn; lia]. exists 2, "0b"%string, rest. split; [right; right; right; auto|]. auto. }
    apply D10. exact E.
Qed.

Lemma number_minus t n : number (String "-" t) n -> number t (- n).
Proof.
  intros (r & pre & s & R & E & S).
  destruct R as [[-> ->]|[[-> ->]|[[-> ->]|[-> ->]]]]; try discriminate E. cbn [append] in E. subst s.
  inversion S as [s0 n0 B|s0 n0 B E1|s0 n0 B E1]; subst.
  - apply body_head in B. destruct B as (c0 & d & t0 & Q & D & L). injection Q as <- _. discriminate D.
  - exists 10, ""%string, t. split; [left; auto|]. split; [reflexivity|]. rewrite Z.opp_involutive.
    apply signed_none. assumption.
Qed.

Lemma from_str_spec p s : p <> 0 ->
  match s with
  | EmptyString => from_str (fp_new p) s = Ret (fe (of_Z p 0))
  | String c t => from_str (fp_new p) s =
      if Ascii.eqb c "-" then bind (parse_number t) (fun n => Ret (fe (of_Z p (- n))))
      else bind (parse_number s) (fun n => Ret (fe (of_Z p n)))
  end.
Proof.
  intro Hp. destruct s as [|c t]; [apply zero_fe, Hp|].
  unfold from_str, parse_number, fp_new. cbn [starts_with tail1].
  destruct (Ascii.eqb c "-").
  - destruct (radix_prefix t) as [rp|]; cbn [bind]; [|reflexivity].
    destruct (unwrap (bigint_from_str_radix (snd rp) (fst rp))) as [k|]; cbn [bind]; [|reflexivity].
    rewrite elt_fe by exact Hp. do 3 f_equal; lia.
  - destruct (radix_prefix (String c t)) as [rp|]; cbn [bind]; [|reflexivity].
    destruct (unwrap (bigint_from_str_radix (snd rp) (fst rp))) as [k|]; cbn [bind]; [|reflexivity].
    rewrite elt_fe by exact Hp. do 3 f_equal; lia.
Qed.

Lemma from_str_iff p s n : p <> 0 -> literal s n -> from_str (fp_new p) s = Ret (fe (of_Z p n)).
Proof.
  intros Hp L. pose proof (from_str_spec p s Hp) as F.
  inversion L as [E1 E2|r pre s0 n0 R S E1 E2|r pre s0 n0 R S E1 E2]; subst; try exact F.
  - assert (N : number (pre ++ s0) n) by (exists r, pre, s0; auto).
    destruct (pre ++ s0)%string as [|c t] eqn:Q.
    + apply number_parse in N. discriminate N.
    + destruct (Ascii.eqb_spec c "-") as [->|]; rewrite F.
      * apply number_minus, number_parse in N. rewrite N. cbn [bind]. rewrite Z.opp_involutive. reflexivity.
      * apply number_parse in N. rewrite N. reflexivity.
  - assert (N : number (pre ++ s0) n0) by (exists r, pre, s0; auto).
    apply number_parse in N. cbn [append] in F |- *. rewrite F. cbn. rewrite N. reflexivity.
Qed.

Lemma from_str_only p s x : p <> 0 -> from_str (fp_new p) s = Ret x -> exists n, literal s n.
Proof.
  intros Hp E. pose proof (from_str_spec p s Hp) as F. destruct s as [|c t].
  - exists 0. constructor.
  - rewrite E in F. destruct (Ascii.eqb_spec c "-") as [->|Nc].
    + destruct (parse_number t) as [n|] eqn:P; [|discriminate F]. apply number_parse in P.
      destruct P as (r & pre & s & R & -> & S). exists (- n). exact (literal_neg r pre s n R S).
    + destruct (parse_number (String c t)) as [n|] eqn:P; [|discriminate F]. apply number_parse in P.
      destruct P as (r & pre & s & R & -> & S). exists n. exact (literal_pos r pre s n R S).
Qed.

(** the texts accepted are exactly the literals of the grammar, with the residue of their value;
    every other text panics *)
Lemma c13_from_str : forall p s, 0 < p ->
  (forall n, literal s n -> exists x, from_str (fp_new p) s = Ret x /\ fld x = fp_new p /\ residue p n (val x))
  /\ ((forall n, ~ literal s n) -> exists msg, from_str (fp_new p) s = Panic msg).
Proof.
  intros p s Hp. split.
  - intros n L. apply (from_str_iff p) in L; [|lia]. eexists. split; [exact L|]. split; [reflexivity|].
    apply mod_residue, Hp.
  - intro N. destruct (from_str (fp_new p) s) as [x|msg] eqn:E; [|eexists; reflexivity].
    apply from_str_only in E; [|lia]. destruct E as [n L]. destruct (N n L).
Qed.

Lemma numeral_body r s n : numeral r s n -> body r s n.
Proof. induction 1; [apply body_one|apply body_snoc]; assumption. Qed.

(** the plain cases: digits, 0x/0o/0b digits, and each with a leading '-' *)
Lemma c13_plain_numbers : forall p r pre s n, 0 < p -> radix_text r pre -> numeral r s n ->
  (exists x, from_str (fp_new p) (pre ++ s) = Ret x /\ fld x = fp_new p /\ residue p n (val x))
  /\ (exists x, from_str (fp_new p) ("-" ++ pre ++ s) = Ret x /\ fld x = fp_new p /\ residue p (- n) (val x)).
Proof.
  intros p r pre s n Hp R N. apply numeral_body, signed_none in N. split.
  - apply (c13_from_str p (pre ++ s) Hp). exact (literal_pos r pre s n R N).
  - apply (c13_from_str p ("-" ++ pre ++ s) Hp). exact (literal_neg r pre s n R N).
Qed.
Lemma c13_empty_text : forall p, 0 < p -> exists x, from_str (fp_new p) "" = Ret x /\ val x = 0 /\ fld x = fp_new p.
Proof. intros p Hp. eexists. split; [apply zero_fe; lia|]. split; reflexivity. Qed.

Lemma digit_char_of d : 0 <= d < 10 -> digit_of (digit_char d) = Some d.
Proof.
  intro H. assert (d = 0 \/ d = 1 \/ d = 2 \/ d = 3 \/ d = 4 \/ d = 5 \/ d = 6 \/ d = 7 \/ d = 8 \/ d = 9) as D by lia.
  decompose [or] D; subst d; reflexivity.
Qed.
Lemma string_of_list_app a b : string_of_list (a ++ b) = (string_of_list a ++ string_of_list b)%string.
Proof. induction a as [|x a IH]; [reflexivity|]. cbn. rewrite IH. reflexivity. Qed.

Lemma show_numeral n : 0 <= n -> numeral 10 (show n) n.
Proof.
  intro H. unfold show. destruct (Z.ltb_spec n 0); [lia|]. unfold show_nonneg.
  destruct (Z.eqb_spec n 0) as [->|N]; [apply num_one with (d := 0); [reflexivity|lia]|].
  assert (G : forall fuel m, 0 < m < 2 ^ Z.of_nat fuel ->
    numeral 10 (string_of_list (map digit_char (rev (digits_fuel fuel 10 m)))) m).
  { induction fuel as [|k IH]; intros m Hm; [change (2 ^ Z.of_nat 0) with 1 in Hm; lia|].
    cbn [digits_fuel]. destruct (Z.eqb_spec m 0); [lia|]. cbn [rev]. rewrite map_app, string_of_list_app.
    cbn [map string_of_list]. pose proof (Z.mod_pos_bound m 10 ltac:(lia)) as B.
    pose proof (Z.div_mod m 10 ltac:(lia)) as DM. rewrite Nat2Z.inj_succ, Z.pow_succ_r in Hm by lia.
    destruct (Z.eq_dec (m / 10) 0) as [Z0|NZ].
    - assert (digits_fuel k 10 (m / 10) = []) as ->.
      { rewrite Z0. destruct k; reflexivity. }
      cbn [rev map string_of_list append]. rewrite Z0 in DM.
      replace m with (m mod 10) at 2 by lia. apply num_one; [apply digit_char_of, B|lia].
    - replace m with (m / 10 * 10 + m mod 10) at 3 by lia. apply num_snoc; [|apply digit_char_of, B|lia].
      apply IH. split; [pose proof (Z.div_pos m 10); lia|]. apply Z.div_lt_upper_bound; lia. }
  apply G. rewrite Z2Nat.id by apply bits_nonneg. split; [lia|apply bits_lt, H].
Qed.
(** parsing the Display text of an element gives it back *)
Lemma c13_display_round_trip : forall p x, valid p x ->
  exists s, elt_show x = Ret s /\ numeral 10 s (val x) /\ from_str (fp_new p) s = Ret x.
Proof.
  intros p x V. pose proof (valid_pos _ _ V) as Hp. destruct V as [F V].
  exists (show (val x)). unfold elt_show, mod_floor. rewrite F. cbn [modulus].
  destruct (Z.eqb_spec p 0); [lia|]. cbn [bind]. rewrite Z.mod_small by exact V.
  pose proof (show_numeral (val x) ltac:(lia)) as N. split; [reflexivity|]. split; [exact N|].
  rewrite (valid_inv p x) by (split; assumption). apply from_str_iff; [lia|].
  cbn [val fe]. rewrite zv_of_Z, Z.mod_small by exact V.
  apply (literal_pos 10 "" (show (val x)) (val x)); [left; auto|]. apply signed_none, numeral_body, N.
Qed.
(** "malformed text never yields a value" fails for texts with two signs: they are accepted *)
Lemma c13_double_sign_refuted : forall p, 5 < p ->
  exists x y, from_str (fp_new p) "--5" = Ret x /\ val x = 5
    /\ from_str (fp_new p) "0x-5_" = Ret y /\ val y = p - 5.
Proof.
  intros p Hp. exists (fe (of_Z p 5)), (fe (of_Z p (-5))).
  split; [|split; [|split]].
  - apply from_str_iff; [lia|]. apply (literal_neg 10 "" "-5" (-5)); [left; auto|].
    apply (signed_minus 10 "5" 5). apply body_one; [reflexivity|lia].
  - cbn. apply Z.mod_small. lia.
  - apply from_str_iff; [lia|]. apply (literal_pos 16 "0x" "-5_" (-5)); [right; left; auto|].
    apply (signed_minus 16 "5_" 5). apply (body_under 16 "5" 5). apply body_one; [reflexivity|lia].
  - cbn [val fe]. rewrite zv_of_Z. symmetry. apply Z.mod_unique with (-1); lia.
Qed.
Example c13_ex : from_str (fp_new 53) "-0x1F" = Ret (mkFpElt 22 (mkFp 53))
  /\ from_str (fp_new 53) "1234" = Ret (mkFpElt 15 (mkFp 53))
  /\ from_str (fp_new 53) "0b12" = Panic "called `unwrap()` on an error value"
  /\ numeral 16 "1F" 31 /\ (forall n, ~ literal "0b12" n).
Proof.
  do 3 (split; [reflexivity|]). split.
  - apply (num_snoc 16 "1" 1 "F" 15); [apply num_one|..]; try reflexivity; lia.
  - intros n L. apply (from_str_iff 53) in L; [discriminate L|lia].
Qed.
