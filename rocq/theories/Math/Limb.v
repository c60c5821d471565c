(** Montgomery multiplication on lists of 30-bit limbs stored in primitive 63-bit integers. Every
    function that could leave the intended range checks it and answers None, so the correctness
    theorems need no bounds on the values. Used only to evaluate facts about large constants. *)
From Coq Require Import ZArith Znumtheory Lia List Bool Uint63.
Import ListNotations.
Open Scope Z_scope.

Local Notation B := (2 ^ 30).
Local Notation "'W'" := 30%uint63.
Definition mask : int := 1073741823%uint63.
Definition bound : int := 1073741824%uint63.

Fixpoint V (l : list int) : Z := match l with [] => 0 | x :: l' => to_Z x + B * V l' end.
Fixpoint lt30 (l : list int) : bool := match l with [] => true | x :: l' => if (x <? bound)%uint63 then lt30 l' else false end.

(** t + a b + m p + c *)
Fixpoint row (a m : int) (t b p : list int) (c : int) : list int :=
  match b, p, t with
  | b0 :: b', p0 :: p', t0 :: t' =>
      let s := (t0 + a * b0 + m * p0 + c)%uint63 in (s land mask)%uint63 :: row a m t' b' p' (s >> W)%uint63
  | _, _, _ => [c]
  end.
Definition low (a ninv : int) (t b : list int) : int :=
  match t, b with t0 :: _, b0 :: _ => (((t0 + a * b0) * ninv) land mask)%uint63 | _, _ => 0%uint63 end.
Fixpoint rows (a : list int) (ninv : int) (b p t : list int) : option (list int) :=
  match a with
  | [] => if lt30 t then Some t else None
  | a0 :: a' =>
      match row a0 (low a0 ninv t b) t b p 0%uint63 with
      | h :: t' => if (h =? 0)%uint63 then rows a' ninv b p t' else None
      | [] => None
      end
  end.
(** the modulus, minus its inverse modulo 2^30, and the number of limbs in unary *)
Record ctx := mkCtx { cp : list int; cinv : int; czero : list int }.
Definition mm (C : ctx) (a b : list int) : option (list int) := rows a (cinv C) b (cp C) (czero C).

(** sum without reduction *)
Fixpoint addc (a b : list int) (c : int) : option (list int) :=
  match a, b with
  | a0 :: a', b0 :: b' => let s := (a0 + b0 + c)%uint63 in
      match addc a' b' (s >> W)%uint63 with Some r => Some ((s land mask)%uint63 :: r) | None => None end
  | [], [] => if (c =? 0)%uint63 then Some [] else None
  | _, _ => None
  end.
(** a + k - b; the carry is kept with an offset of 2 *)
Fixpoint subc (a k b : list int) (c : int) : option (list int) :=
  match a, k, b with
  | a0 :: a', k0 :: k', b0 :: b' => let s := (a0 + k0 + 2147483646 + c - b0)%uint63 in
      match subc a' k' b' (s >> W)%uint63 with Some r => Some ((s land mask)%uint63 :: r) | None => None end
  | [], [], [] => if (c =? 2)%uint63 then Some [] else None
  | _, _, _ => None
  end.

(** *** correctness *)
Definition ok (n : nat) (l : list int) : Prop := length l = n /\ Forall (fun x => to_Z x < B) l.
Lemma pos x : 0 <= to_Z x. Proof. apply to_Z_bounded. Qed.
Lemma wB_val : wB = 2 ^ 63. Proof. reflexivity. Qed.
Lemma land_mask x : to_Z (x land mask)%uint63 = to_Z x mod B.
Proof.
  rewrite land_spec'. change (to_Z mask) with (Z.ones 30). apply Z.land_ones. lia.
Qed.
Lemma lsr_W x : to_Z (x >> W)%uint63 = to_Z x / B.
Proof. rewrite lsr_spec. reflexivity. Qed.
Lemma lt30_ok l : lt30 l = true -> Forall (fun x => to_Z x < B) l.
Proof.
  induction l as [|x l IH]; cbn [lt30]; intro H; [constructor|]. destruct (x <? bound)%uint63 eqn:E; [|discriminate].
  constructor; [apply ltb_spec in E; exact E|auto].
Qed.
Lemma V_pos l : 0 <= V l.
Proof. induction l as [|x l IH]; cbn [V]; [lia|]. pose proof (pos x). lia. Qed.
Lemma split30 s : to_Z (s land mask)%uint63 + B * to_Z (s >> W)%uint63 = to_Z s.
Proof. rewrite land_mask, lsr_W. pose proof (Z.div_mod (to_Z s) B ltac:(lia)). lia. Qed.

Lemma add_small x y : to_Z x + to_Z y < 2 ^ 63 -> to_Z (x + y)%uint63 = to_Z x + to_Z y.
Proof. intro H. rewrite add_spec, wB_val. pose proof (pos x). pose proof (pos y). apply Z.mod_small. lia. Qed.
Lemma mul_small x y : to_Z x * to_Z y < 2 ^ 63 -> to_Z (x * y)%uint63 = to_Z x * to_Z y.
Proof. intro H. rewrite mul_spec, wB_val. pose proof (pos x). pose proof (pos y). apply Z.mod_small. nia. Qed.
Lemma sub_small x y : to_Z y <= to_Z x -> to_Z (x - y)%uint63 = to_Z x - to_Z y.
Proof. intro H. rewrite sub_spec, wB_val. pose proof (to_Z_bounded x) as Hx. rewrite wB_val in Hx. pose proof (pos y). apply Z.mod_small. lia. Qed.

Lemma row_spec a m : to_Z a < B -> to_Z m < B -> forall b p t c,
  length p = length b -> length t = length b ->
  Forall (fun x => to_Z x < B) b -> Forall (fun x => to_Z x < B) p ->
  Forall (fun x => to_Z x < 2 ^ 32) t -> to_Z c < 2 ^ 32 ->
  V (row a m t b p c) = V t + to_Z a * V b + to_Z m * V p + to_Z c
  /\ length (row a m t b p c) = S (length b) /\ Forall (fun x => to_Z x < 2 ^ 32) (row a m t b p c).
Proof.
  intros Ha Hm. pose proof (pos a) as Pa. pose proof (pos m) as Pm.
  induction b as [|b0 b IH]; intros [|p0 p] [|t0 t] c Lp Lt Hb Hp Ht Hc; try discriminate.
  - cbn [row V length]. split; [lia|]. split; [reflexivity|]. constructor; [exact Hc|constructor].
  - cbn [row]. inversion Hb as [|? ? Hb0 Hb']; subst. inversion Hp as [|? ? Hp0 Hp']; subst. inversion Ht as [|? ? Ht0 Ht']; subst.
    set (s := (t0 + a * b0 + m * p0 + c)%uint63).
    pose proof (pos b0) as Pb. pose proof (pos p0) as Pp. pose proof (pos t0) as Pt. pose proof (pos c) as Pc.
    assert (M1 : to_Z a * to_Z b0 <= (B - 1) * (B - 1)) by nia.
    assert (M2 : to_Z m * to_Z p0 <= (B - 1) * (B - 1)) by nia.
    assert (Q1 : 0 <= to_Z a * to_Z b0) by nia. assert (Q2 : 0 <= to_Z m * to_Z p0) by nia.
    assert (Es : to_Z s = to_Z t0 + to_Z a * to_Z b0 + to_Z m * to_Z p0 + to_Z c).
    { assert (E1 := mul_small a b0 ltac:(lia)). assert (E2 := mul_small m p0 ltac:(lia)).
      assert (E3 := add_small t0 (a * b0)%uint63 ltac:(lia)). assert (E4 := add_small (t0 + a * b0)%uint63 (m * p0)%uint63 ltac:(lia)).
      assert (E5 := add_small (t0 + a * b0 + m * p0)%uint63 c ltac:(lia)). unfold s. lia. }
    assert (Hs : to_Z s < 2 ^ 62) by (rewrite Es; lia).
    assert (Hc' : to_Z (s >> W)%uint63 < 2 ^ 32) by (rewrite lsr_W; apply Z.div_lt_upper_bound; lia).
    destruct (IH p t (s >> W)%uint63) as (E1 & E2 & E3); try assumption; try (cbn in *; lia).
    cbn [V length]. split; [|split].
    + rewrite E1. transitivity (to_Z (s land mask)%uint63 + B * to_Z (s >> W)%uint63 + B * (V t + to_Z a * V b + to_Z m * V p)); [ring|].
      rewrite split30, Es. ring.
    + rewrite E2. reflexivity.
    + constructor; [|exact E3]. rewrite land_mask. pose proof (Z.mod_pos_bound (to_Z s) B ltac:(lia)). lia.
Qed.
Lemma low_small a i t b : to_Z (low a i t b) < B.
Proof.
  unfold low. destruct t as [|t0 t]; [cbn; lia|]. destruct b as [|b0 b]; [cbn; lia|].
  rewrite land_mask. apply Z.mod_pos_bound. lia.
Qed.
Lemma rows_spec i b p : length p = length b -> Forall (fun x => to_Z x < B) b -> Forall (fun x => to_Z x < B) p ->
  forall a t c, Forall (fun x => to_Z x < B) a -> length t = length b -> Forall (fun x => to_Z x < 2 ^ 32) t ->
  rows a i b p t = Some c ->
  ok (length b) c /\ exists m, V c * B ^ Z.of_nat (length a) = V t + V a * V b + m * V p.
Proof.
  intros Lp Hb Hp. induction a as [|a0 a IH]; intros t c Ha Lt Ht; cbn [rows].
  - destruct (lt30 t) eqn:E; [|discriminate]. intro H. injection H as <-. split; [split; [exact Lt|apply lt30_ok, E]|].
    exists 0. cbn [length V Z.of_nat]. rewrite Z.pow_0_r. lia.
  - inversion Ha as [|? ? Ha0 Ha']; subst.
    destruct (row_spec a0 (low a0 i t b) Ha0 (low_small _ _ _ _) b p t 0%uint63 Lp Lt Hb Hp Ht ltac:(cbn; lia)) as (E1 & E2 & E3).
    destruct (row a0 (low a0 i t b) t b p 0) as [|h t'] eqn:E; [discriminate|].
    destruct (h =? 0)%uint63 eqn:Eh; [|discriminate]. apply eqb_spec in Eh. subst h.
    intro H. inversion E3 as [|? ? _ E3']; subst. cbn [length] in E2. injection E2 as E2'.
    destruct (IH t' c Ha' E2' E3' H) as (O & m & Em). split; [exact O|].
    cbn [V] in E1. change (to_Z 0%uint63) with 0 in E1.
    exists (m * B + to_Z (low a0 i t b)). cbn [length V]. rewrite Nat2Z.inj_succ, Z.pow_succ_r by lia.
    transitivity (B * (V c * B ^ Z.of_nat (length a))); [ring|]. rewrite Em. transitivity (0 + B * V t' + B * (V a * V b + m * V p)); [ring|]. rewrite E1. ring.
Qed.
(** the modulus as a number, and the Montgomery radix *)
Definition md (C : ctx) : Z := V (cp C).
Definition nl (C : ctx) : nat := length (cp C).
Definition rad (C : ctx) : Z := B ^ Z.of_nat (nl C).
Definition ctx_ok (C : ctx) : bool :=
  lt30 (cp C) && (match V (czero C) with 0 => true | _ => false end) && Nat.eqb (length (czero C)) (nl C) && lt30 (czero C)
  && Z.odd (md C) && (1 <? md C).
Definition good (C : ctx) (l : list int) : Prop := ok (nl C) l.

Section Ctx.
  Variable C : ctx.
  Hypothesis HC : ctx_ok C = true.
  Lemma ctx_open : Forall (fun x => to_Z x < B) (cp C) /\ V (czero C) = 0 /\ length (czero C) = nl C
    /\ Forall (fun x => to_Z x < B) (czero C) /\ Z.odd (md C) = true /\ 1 < md C.
  Proof.
    unfold ctx_ok in HC. rewrite !andb_true_iff in HC. destruct HC as (((((H1 & H2) & H3) & H4) & H5) & H6).
    split; [apply lt30_ok, H1|]. split; [destruct (V (czero C)); (reflexivity || discriminate)|].
    split; [apply Nat.eqb_eq, H3|]. split; [apply lt30_ok, H4|]. split; [exact H5|apply Z.ltb_lt, H6].
  Qed.
  Lemma rad_prime : rel_prime (rad C) (md C).
  Proof.
    destruct ctx_open as (_ & _ & _ & _ & O & _). apply rel_prime_sym. unfold rad.
    assert (G : rel_prime (md C) 2).
    { apply rel_prime_sym, prime_rel_prime; [exact prime_2|]. intros [k E]. rewrite E, Z.odd_mul in O. cbn in O.
      rewrite andb_false_r in O. discriminate. }
    assert (G1 : forall k, rel_prime (md C) (2 ^ Z.of_nat k)).
    { induction k as [|k IH]; [apply rel_prime_sym, rel_prime_1|]. rewrite Nat2Z.inj_succ, Z.pow_succ_r by lia. apply rel_prime_mult; assumption. }
    generalize (nl C). induction n as [|n IH]; [apply rel_prime_sym, rel_prime_1|].
    rewrite Nat2Z.inj_succ, Z.pow_succ_r by lia. apply rel_prime_mult; [exact (G1 30%nat)|exact IH].
  Qed.
  (** [l] stands for the residue [x] in Montgomery form *)
  Definition R (l : list int) (x : Z) : Prop := good C l /\ (md C | V l - x * rad C).
  Lemma mm_good a b c : good C a -> good C b -> mm C a b = Some c ->
    good C c /\ exists m, V c * rad C = V a * V b + m * md C.
  Proof.
    intros (La & Ha) (Lb & Hb) H. destruct ctx_open as (Hp & Z0 & Lz & Hz & _ & _).
    destruct (rows_spec (cinv C) b (cp C) ltac:(unfold nl in *; congruence) Hb Hp a (czero C) c Ha ltac:(congruence)) as (O & m & E).
    - eapply Forall_impl; [|exact Hz]. cbv beta. lia.
    - exact H.
    - unfold good. rewrite <- Lb. split; [exact O|]. exists m. rewrite Z0 in E. rewrite La in E. unfold rad, md. lia.
  Qed.
  Lemma R_mul a b c x y : R a x -> R b y -> mm C a b = Some c -> R c (x * y).
  Proof.
    intros (Ga & Da) (Gb & Db) H. destruct (mm_good a b c Ga Gb H) as (Gc & m & E). split; [exact Gc|].
    apply Gauss with (rad C); [|apply rel_prime_sym, rad_prime].
    destruct Da as [i Ei], Db as [j Ej]. assert (Ea : V a = i * md C + x * rad C) by lia. assert (Eb : V b = j * md C + y * rad C) by lia.
    rewrite Ea, Eb in E. exists (i * j * md C + i * (y * rad C) + j * (x * rad C) + m). 
    transitivity (V c * rad C - x * y * rad C * rad C); [ring|]. rewrite E. ring.
  Qed.
  Lemma addc_spec a b c r : Forall (fun x => to_Z x < B) a -> Forall (fun x => to_Z x < B) b -> to_Z c <= 1 ->
    addc a b c = Some r -> length r = length a /\ Forall (fun x => to_Z x < B) r /\ V r = V a + V b + to_Z c.
  Proof.
    revert b c r. induction a as [|a0 a IH]; intros [|b0 b] c r Ha Hb Hc; cbn [addc]; try discriminate.
    - destruct (c =? 0)%uint63 eqn:E; [|discriminate]. intro H. injection H as <-. apply eqb_spec in E. subst c. auto.
    - inversion Ha as [|? ? Ha0 Ha']; subst. inversion Hb as [|? ? Hb0 Hb']; subst. set (s := (a0 + b0 + c)%uint63).
      pose proof (pos a0). pose proof (pos b0). pose proof (pos c).
      assert (Es : to_Z s = to_Z a0 + to_Z b0 + to_Z c) by (
        assert (E1 := add_small a0 b0 ltac:(lia)); assert (E2 := add_small (a0 + b0)%uint63 c ltac:(lia)); unfold s; lia).
      destruct (addc a b (s >> W)%uint63) as [r'|] eqn:E; [|discriminate]. intro H'. injection H' as <-.
      assert (Hq : to_Z (s >> W)%uint63 <= 1) by (rewrite lsr_W; assert (to_Z s / B < 2) by (apply Z.div_lt_upper_bound; lia); lia).
      destruct (IH b _ r' Ha' Hb' Hq E) as (E1 & E2 & E3).
      cbn [length V]. split; [congruence|]. split.
      + constructor; [|exact E2]. rewrite land_mask. apply Z.mod_pos_bound. lia.
      + rewrite E3. pose proof (split30 s). lia.
  Qed.
  Lemma subc_spec a k b c r : Forall (fun x => to_Z x < B) a -> Forall (fun x => to_Z x < B) k -> Forall (fun x => to_Z x < B) b -> to_Z c <= 8 ->
    subc a k b c = Some r -> length r = length a /\ Forall (fun x => to_Z x < B) r /\ V r = V a + V k - V b + to_Z c - 2.
  Proof.
    revert k b c r. induction a as [|a0 a IH]; intros [|k0 k] [|b0 b] c r Ha Hk Hb Hc; cbn [subc]; try discriminate.
    - destruct (c =? 2)%uint63 eqn:E; [|discriminate]. intro H. injection H as <-. apply eqb_spec in E. subst c. auto.
    - inversion Ha as [|? ? Ha0 Ha']; subst. inversion Hb as [|? ? Hb0 Hb']; subst. inversion Hk as [|? ? Hk0 Hk']; subst.
      set (s := (a0 + k0 + 2147483646 + c - b0)%uint63).
      pose proof (pos a0). pose proof (pos b0). pose proof (pos k0). pose proof (pos c).
      assert (Es : to_Z s = to_Z a0 + to_Z k0 + 2147483646 + to_Z c - to_Z b0).
      { assert (E0 : to_Z 2147483646%uint63 = 2147483646) by reflexivity. assert (E1 := add_small a0 k0 ltac:(lia)).
        assert (E2 := add_small (a0 + k0)%uint63 2147483646%uint63 ltac:(lia)). assert (E3 := add_small (a0 + k0 + 2147483646)%uint63 c ltac:(lia)).
        assert (E4 := sub_small (a0 + k0 + 2147483646 + c)%uint63 b0 ltac:(lia)). unfold s. lia. }
      destruct (subc a k b (s >> W)%uint63) as [r'|] eqn:E; [|discriminate]. intro H'. injection H' as <-.
      assert (Hq : to_Z (s >> W)%uint63 <= 8) by (rewrite lsr_W; assert (to_Z s / B < 8) by (apply Z.div_lt_upper_bound; lia); lia).
      destruct (IH k b _ r' Ha' Hk' Hb' Hq E) as (E1 & E2 & E3).
      cbn [length V]. split; [congruence|]. split.
      + constructor; [|exact E2]. rewrite land_mask. apply Z.mod_pos_bound. lia.
      + rewrite E3. pose proof (split30 s). lia.
  Qed.
  Definition madd (a b : list int) : option (list int) := addc a b 0%uint63.
  Definition msub (k a b : list int) : option (list int) := subc a k b 2%uint63.
  Lemma R_add a b c x y : R a x -> R b y -> madd a b = Some c -> R c (x + y).
  Proof.
    intros ((La & Ha) & Da) ((Lb & Hb) & Db) H. destruct (addc_spec a b 0%uint63 c Ha Hb ltac:(cbn; lia) H) as (L & F & E).
    split; [split; [congruence|exact F]|]. rewrite E. change (to_Z 0%uint63) with 0.
    replace (V a + V b + 0 - (x + y) * rad C) with ((V a - x * rad C) + (V b - y * rad C)) by ring. apply Z.divide_add_r; assumption.
  Qed.
  (** k is a multiple of the modulus *)
  Definition mult_ok (k : list int) : bool := lt30 k && (V k mod md C =? 0).
  Lemma R_sub k a b c x y : mult_ok k = true -> R a x -> R b y -> msub k a b = Some c -> R c (x - y).
  Proof.
    intros Hk ((La & Ha) & Da) ((Lb & Hb) & Db) H. apply andb_true_iff in Hk. destruct Hk as [Hk Dk].
    apply lt30_ok in Hk. apply Z.eqb_eq in Dk. destruct ctx_open as (_ & _ & _ & _ & _ & P). apply Zmod_divide in Dk; [|lia].
    destruct (subc_spec a k b 2%uint63 c Ha Hk Hb ltac:(cbn; lia) H) as (L & F & E).
    split; [split; [congruence|exact F]|]. rewrite E. change (to_Z 2%uint63) with 2.
    replace (V a + V k - V b + 2 - 2 - (x - y) * rad C) with ((V a - x * rad C) - (V b - y * rad C) + V k) by ring.
    apply Z.divide_add_r; [apply Z.divide_sub_r; assumption|exact Dk].
  Qed.
End Ctx.

(** *** contexts, conversions and powers *)
Fixpoint limbs (n : nat) (z : Z) : list int :=
  match n with O => [] | S n' => of_Z (z mod B) :: limbs n' (z / B) end.
Lemma limbs_spec n : forall z, length (limbs n z) = n /\ Forall (fun x => to_Z x < B) (limbs n z) /\ V (limbs n z) = z mod B ^ Z.of_nat n.
Proof.
  induction n as [|n IH]; intro z.
  - cbn [limbs length V Z.of_nat]. rewrite Z.pow_0_r, Z.mod_1_r. auto.
  - cbn [limbs length V]. destruct (IH (z / B)) as (L & F & E).
    assert (Ez : to_Z (of_Z (z mod B)) = z mod B).
    { rewrite of_Z_spec, wB_val. pose proof (Z.mod_pos_bound z B ltac:(lia)). apply Z.mod_small. lia. }
    split; [congruence|]. split.
    + constructor; [|exact F]. rewrite Ez. apply Z.mod_pos_bound. lia.
    + rewrite Ez, E. rewrite Nat2Z.inj_succ, Z.pow_succ_r by lia. rewrite Z.rem_mul_r by lia. reflexivity.
Qed.
(** minus the inverse of the odd p modulo 2^30, by Newton's iteration *)
Definition newton (p x : Z) : Z := (x * (2 - p * x)) mod B.
Definition ninv (p : Z) : Z := (- newton p (newton p (newton p (newton p (newton p 1))))) mod B.
Definition make (p : Z) : ctx :=
  let n := Z.to_nat ((Z.log2 p + 6) / 30 + 1) in mkCtx (limbs n p) (of_Z (ninv p)) (limbs n 0).
Definition enc (C : ctx) (x : Z) : list int := limbs (nl C) ((x * rad C) mod md C).
(** does l stand for x? *)
Definition repr (C : ctx) (l : list int) (x : Z) : bool := (V l - x * rad C) mod md C =? 0.

Section Ctx2.
  Variable C : ctx.
  Hypothesis HC : ctx_ok C = true.
  Lemma md_rad : md C < rad C.
  Proof.
    destruct (ctx_open C HC) as (H & _). unfold md, rad, nl. generalize (cp C) H. clear.
    induction l as [|x l IH]; intro H; [cbn; lia|]. inversion H as [|? ? Hx Hl]; subst. specialize (IH Hl).
    cbn [V length]. rewrite Nat2Z.inj_succ, Z.pow_succ_r by lia. nia.
  Qed.
  Lemma enc_R x : R C (enc C x) x.
  Proof.
    unfold enc. destruct (limbs_spec (nl C) ((x * rad C) mod md C)) as (L & F & E). destruct (ctx_open C HC) as (_ & _ & _ & _ & _ & P).
    split; [split; assumption|]. rewrite E. fold (rad C). pose proof md_rad. pose proof (Z.mod_pos_bound (x * rad C) (md C) ltac:(lia)).
    rewrite (Z.mod_small _ (rad C)) by lia. exists (- (x * rad C / md C)). pose proof (Z.div_mod (x * rad C) (md C) ltac:(lia)). lia.
  Qed.
  Lemma R_iff l x y : R C l x -> (repr C l y = true <-> (md C | x - y)).
  Proof.
    intros (_ & D). destruct (ctx_open C HC) as (_ & _ & _ & _ & _ & P). unfold repr. rewrite Z.eqb_eq. split; intro H.
    - apply Zmod_divide in H; [|lia]. apply Gauss with (rad C); [|apply rel_prime_sym, rad_prime, HC].
      replace (rad C * (x - y)) with ((V l - y * rad C) - (V l - x * rad C)) by ring. apply Z.divide_sub_r; assumption.
    - apply Zdivide_mod. replace (V l - y * rad C) with ((V l - x * rad C) + (x - y) * rad C) by ring.
      apply Z.divide_add_r; [exact D|]. apply Z.divide_mul_l, H.
  Qed.
  Lemma R_eqm l x y : R C l x -> (md C | x - y) -> R C l y.
  Proof.
    intros (G & D) H. split; [exact G|]. replace (V l - y * rad C) with ((V l - x * rad C) + (x - y) * rad C) by ring.
    apply Z.divide_add_r; [exact D|]. apply Z.divide_mul_l, H.
  Qed.
  Definition bnd {A : Type} (o : option A) {T : Type} (f : A -> option T) : option T := match o with Some a => f a | None => None end.
  Fixpoint mpow (a : list int) (e : positive) : option (list int) :=
    match e with
    | xH => Some a
    | xO e' => bnd (mpow a e') (fun r => mm C r r)
    | xI e' => bnd (mpow a e') (fun r => bnd (mm C r r) (fun s => mm C s a))
    end.
  Lemma R_pow a x e : R C a x -> forall r, mpow a e = Some r -> R C r (x ^ Zpos e).
  Proof.
    intro H. induction e as [e IH|e IH|]; cbn [mpow]; intros r.
    - destruct (mpow a e) as [q|]; [|discriminate]. cbn [bnd]. destruct (mm C q q) as [s|] eqn:E; [|discriminate]. cbn [bnd]. intro E2.
      specialize (IH q eq_refl). pose proof (R_mul C HC _ _ _ _ _ IH IH E) as Hs. pose proof (R_mul C HC _ _ _ _ _ Hs H E2) as Hr.
      replace (x ^ Z.pos e~1) with (x ^ Z.pos e * x ^ Z.pos e * x); [exact Hr|].
      replace (Z.pos e~1) with (Z.pos e + Z.pos e + 1) by lia. rewrite !Z.pow_add_r by lia. rewrite Z.pow_1_r. reflexivity.
    - destruct (mpow a e) as [q|]; [|discriminate]. cbn [bnd]. intro E.
      specialize (IH q eq_refl). pose proof (R_mul C HC _ _ _ _ _ IH IH E) as Hs.
      replace (x ^ Z.pos e~0) with (x ^ Z.pos e * x ^ Z.pos e); [exact Hs|].
      replace (Z.pos e~0) with (Z.pos e + Z.pos e) by lia. rewrite !Z.pow_add_r by lia. reflexivity.
    - intro E. injection E as <-. rewrite Z.pow_1_r. exact H.
  Qed.
End Ctx2.
