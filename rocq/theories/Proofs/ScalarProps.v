(** C20-C22: scalars. *)
From Coq Require Import ZArith Znumtheory Lia String Bool List.
From Verif.Math Require Import Zp.
From Verif.Spec Require Import Arith.
From Verif.Model Require Import Out BigInt PrimeField Scalar.
From Verif.Proofs Require Import FieldP FieldProps BytesP.
From Verif.Spec Require Export Elements.
Import ListNotations.
Open Scope Z_scope.

Lemma scalar_red_spec a k : 0 < sr a -> exists c, scalar_red a k = Ret c /\ sr c = sr a /\ residue (sr a) k (sk c).
Proof.
  intro H. unfold scalar_red, mod_floor. destruct (Z.eqb_spec (sr a) 0); [lia|]. cbn [bind].
  eexists. split; [reflexivity|]. split; [reflexivity|]. apply mod_residue, H.
Qed.

(** *** C20 *)
Lemma c20_new_scalar : forall r k, 0 < r ->
  exists a, scalar_new k r = Ret a /\ sr a = r /\ residue r k (sk a).
Proof.
  intros r k H. unfold scalar_new, mod_floor. destruct (Z.eqb_spec r 0); [lia|]. cbn [bind].
  eexists. split; [reflexivity|]. split; [reflexivity|]. apply mod_residue, H.
Qed.
Lemma c20_scalar_ring : forall r a b, 0 < r -> sr a = r -> sr b = r ->
  (exists c, sc_add a b = Ret c /\ sr c = r /\ residue r (sk a + sk b) (sk c))
  /\ (exists c, sc_sub a b = Ret c /\ sr c = r /\ residue r (sk a - sk b) (sk c))
  /\ (exists c, sc_mul a b = Ret c /\ sr c = r /\ residue r (sk a * sk b) (sk c))
  /\ (exists c, sc_neg a = Ret c /\ sr c = r /\ residue r (- sk a) (sk c)).
Proof.
  intros r a b H Ea Eb. unfold sc_add, sc_sub, sc_mul, sc_neg. rewrite Eb. subst r.
  rewrite Z.eqb_refl. cbn [do_if_eq]. repeat split; apply scalar_red_spec; exact H.
Qed.
Lemma sc_inv_spec r b : prime r -> valid_scalar r b -> sk b <> 0 ->
  exists i, sc_inv_mod b = Ret i /\ valid_scalar r i /\ (sk i * sk b) mod r = 1.
Proof.
  intros Hr [Eb Vb] N. assert (1 < r) by (destruct Hr; lia).
  unfold sc_inv_mod, modpow. rewrite Eb. destruct (Z.ltb_spec (r - 2) 0); [lia|].
  destruct (Z.eqb_spec r 0); [lia|]. cbn [bind]. rewrite powm_spec by lia.
  destruct (scalar_red_spec b (sk b ^ (r - 2) mod r) ltac:(lia)) as (c & E & F & R).
  rewrite Eb in *. exists c. split; [exact E|]. pose proof (residue_mod _ _ _ R) as R'.
  split; [split; [exact F|apply R]|]. rewrite R', Zmod_mod, Zmult_mod_idemp_l.
  rewrite <- (Z.pow_1_r (sk b)) at 2. rewrite <- Z.pow_add_r by lia.
  replace (r - 2 + 1) with (r - 1) by ring. apply fermat; [exact Hr|].
  intro D. apply Z.divide_pos_le in D; lia.
Qed.
(** (a/b)*b == a, and 1u32/b is the inverse, for prime order and b <> 0 *)
Lemma c20_scalar_division : forall r a b, prime r -> valid_scalar r a -> valid_scalar r b -> sk b <> 0 ->
  exists q i, sc_div a b = Ret q /\ valid_scalar r q /\ sc_mul q b = Ret a
    /\ sc_u32_div 1 b = Ret i /\ valid_scalar r i /\ (r | sk i * sk b - 1).
Proof.
  intros r a b Hr Va Vb N. assert (1 < r) by (destruct Hr; lia).
  destruct (sc_inv_spec r b Hr Vb N) as (i & Ei & Vi & Hi).
  destruct Va as [Ea Va], Vb as [Eb Vb], Vi as [Fi Vi].
  unfold sc_div, sc_u32_div. cbn [Z.eqb Pos.eqb do_if_eq]. rewrite Ei. cbn [bind].
  destruct (c20_scalar_ring r a i ltac:(lia) Ea Fi) as (_ & _ & (q & Eq & Fq & Rq) & _).
  exists q, i. split; [exact Eq|]. split; [split; [exact Fq|apply Rq]|]. split; [|split; [reflexivity|split; [split; assumption|]]].
  - destruct (c20_scalar_ring r q b ltac:(lia) Fq Eb) as (_ & _ & (c & Ec & Fc & Rc) & _).
    rewrite Ec. f_equal. apply residue_mod in Rc. apply residue_mod in Rq.
    destruct a as [ka ra], c as [kc rc]. cbn in *. subst. f_equal.
    rewrite Rq, Zmult_mod_idemp_l, <- Z.mul_assoc, <- Zmult_mod_idemp_r, Hi, Z.mul_1_r.
    apply Z.mod_small. exact Va.
  - apply divide_mod_eq; [lia|]. rewrite Hi. symmetry. apply Z.mod_1_l. lia.
Qed.
(** scalars of different orders: panic in every operator, never otherwise *)
Lemma c20_scalar_mixing : forall a b op, 0 < sr a -> 0 < sr b -> In op [sc_add; sc_sub; sc_mul] ->
  (sr a <> sr b -> op a b = Panic "elements of different groups")
  /\ (sr a = sr b -> exists c, op a b = Ret c).
Proof.
  intros a b op Ha Hb Hop.
  assert (R : forall k, exists c, scalar_red a k = Ret c).
  { intro k. destruct (scalar_red_spec a k Ha) as (c & E & _). exists c. exact E. }
  cbn in Hop. destruct Hop as [<-|[<-|[<-|[]]]]; unfold sc_add, sc_sub, sc_mul, do_if_eq;
    (split; intro H; [apply Z.eqb_neq in H; rewrite H; reflexivity|apply Z.eqb_eq in H; rewrite H; apply R]).
Qed.
(** division adds one panic: the divisor's order 1 (BigInt::modpow with exponent -1) *)
Lemma c20_scalar_div_mixing : forall a b, 0 < sr a -> 0 < sr b ->
  ((exists c, sc_div a b = Ret c) <-> (sr a = sr b /\ sr b <> 1)).
Proof.
  intros a b Ha Hb. unfold sc_div, sc_inv_mod, modpow.
  destruct (Z.ltb_spec (sr b - 2) 0).
  - cbn [bind]. split; [intros [c E]; discriminate|intros [_ E]; lia].
  - destruct (Z.eqb_spec (sr b) 0); [lia|]. cbn [bind].
    destruct (scalar_red_spec b (powm (sk b) (sr b - 2) (sr b)) Hb) as (i & E & F & _). rewrite E. cbn [bind].
    destruct (c20_scalar_mixing a i sc_mul Ha ltac:(lia) ltac:(cbn; auto)) as [P R]. rewrite F in *.
    split.
    + intros [c Ec]. destruct (Z.eq_dec (sr a) (sr b)) as [Q|Q]; [split; [exact Q|lia]|].
      rewrite (P Q) in Ec. discriminate.
    + intros [Q _]. apply R, Q.
Qed.
(** an integer other than 1 over a scalar: refused with its own text, whatever the scalar; 1 over a scalar: the power
    of exponent r-2, for every order above 1; scalars of different orders: refused by / with the text of the other operators *)
Lemma c20_scalar_refusals : forall a b k,
  (k <> 1 -> sc_u32_div k b = Panic "numerator must be 1u32")
  /\ (1 < sr b -> exists c, sc_u32_div 1 b = Ret c /\ sr c = sr b /\ residue (sr b) (sk b ^ (sr b - 2)) (sk c))
  /\ (0 < sr a -> 1 < sr b -> sr a <> sr b -> sc_div a b = Panic "elements of different groups").
Proof.
  intros a b k.
  assert (I : 1 < sr b -> exists c, sc_inv_mod b = Ret c /\ sr c = sr b /\ residue (sr b) (sk b ^ (sr b - 2)) (sk c)).
  { intro Hb. unfold sc_inv_mod, modpow. destruct (Z.ltb_spec (sr b - 2) 0); [lia|].
    destruct (Z.eqb_spec (sr b) 0); [lia|]. cbn [bind]. rewrite powm_spec by lia.
    destruct (scalar_red_spec b (sk b ^ (sr b - 2) mod sr b) ltac:(lia)) as (c & E & F & R).
    exists c. split; [exact E|]. split; [exact F|]. destruct R as [R1 R2]. split; [exact R1|].
    replace (sk b ^ (sr b - 2) - sk c)
      with ((sk b ^ (sr b - 2) mod sr b - sk c) + (sk b ^ (sr b - 2) - sk b ^ (sr b - 2) mod sr b)) by ring.
    apply Z.divide_add_r; [exact R2|]. exists (sk b ^ (sr b - 2) / sr b).
    rewrite (Z.div_mod (sk b ^ (sr b - 2)) (sr b)) at 1 by lia. ring. }
  split; [|split].
  - intro N. unfold sc_u32_div, do_if_eq. destruct (Z.eqb_spec k 1); [contradiction|reflexivity].
  - exact I.
  - intros Ha Hb N. destruct (I Hb) as (c & E & F & _). unfold sc_div. rewrite E. cbn [bind].
    apply (c20_scalar_mixing a c sc_mul Ha); [lia|cbn; auto|congruence].
Qed.
Example c20_refusals_ex : sc_u32_div 2 (mkScalar 4 7) = Panic "numerator must be 1u32"
  /\ sc_u32_div 1 (mkScalar 4 7) = Ret (mkScalar 2 7)
  /\ sc_div (mkScalar 5 7) (mkScalar 4 11) = Panic "elements of different groups".
Proof. vm_compute. repeat split. Qed.

Example c20_ex : scalar_new (-3) 7 = Ret (mkScalar 4 7) /\ valid_scalar 7 (mkScalar 4 7)
  /\ sc_div (mkScalar 5 7) (mkScalar 4 7) = Ret (mkScalar 3 7)
  /\ sc_add (mkScalar 5 7) (mkScalar 4 11) = Panic "elements of different groups".
Proof. vm_compute. repeat split; congruence. Qed.

(** *** C21 *)
Lemma c21_scalar_bytes : forall r a, valid_scalar r a ->
  exists b, sc_to_bytes_be a = Ret b /\ sc_to_bytes_le a = Ret (rev b)
    /\ byte_size r (Z.of_nat (length b)) /\ Z.of_nat (length b) = (bits r + 7) / 8
    /\ Forall is_byte b /\ be_value b = sk a /\ le_value (rev b) = sk a.
Proof.
  intros r a [E V]. assert (Hr : 0 < r) by lia.
  pose proof (size_pos r Hr) as S. pose proof (size_fits r Hr) as T.
  unfold sc_to_bytes_le, sc_to_bytes_be. rewrite E.
  destruct (Z.ltb_spec (sk a) 0); [lia|].
  destruct (pad_left_spec (sk a) (Z.to_nat ((bits r + 7) / 8))) as (b & Eb & L & B & Ev); [|lia|].
  { rewrite Z2Nat.id by lia. lia. }
  rewrite Z2Nat.id in Eb by lia. exists b. rewrite Eb. cbn [bind]. rewrite L, Z2Nat.id by lia.
  split; [reflexivity|]. split; [reflexivity|]. split; [apply size_byte_size, Hr|].
  split; [reflexivity|]. rewrite le_value_rev. auto.
Qed.
Lemma c21_scalar_bytes_injective : forall r a b, valid_scalar r a -> valid_scalar r b ->
  sc_to_bytes_be a = sc_to_bytes_be b -> a = b.
Proof.
  intros r a b Va Vb E. destruct (c21_scalar_bytes r a Va) as (x & Ex & _ & _ & _ & _ & Vx & _).
  destruct (c21_scalar_bytes r b Vb) as (y & Ey & _ & _ & _ & _ & Vy & _).
  rewrite Ex, Ey in E. injection E as <-. destruct a, b, Va, Vb. cbn in *. congruence.
Qed.
Example c21_ex : sc_to_bytes_be (mkScalar 5 257) = Ret [0; 5] /\ valid_scalar 257 (mkScalar 5 257).
Proof. vm_compute. repeat split; congruence. Qed.

(** *** C22 *)
(** the body run over a list of items, stopping at the first panic *)
Fixpoint fold_out {St A : Type} (body : St -> A -> out St) (st : St) (l : list A) : out St :=
  match l with [] => Ret st | b :: l' => bind (body st b) (fun st' => fold_out body st' l') end.

Lemma fold_out_app {St A} (body : St -> A -> out St) l m st :
  fold_out body st (l ++ m) = bind (fold_out body st l) (fun s => fold_out body s m).
Proof.
  revert st. induction l as [|b l IH]; intro st; [reflexivity|]. cbn [app fold_out].
  destruct (body st b) as [s|]; cbn [bind]; [apply IH|reflexivity].
Qed.

Lemma u32_bit k i : 0 <= k -> 0 <= i < bits k ->
  exists w, nth_error (to_u32_digits k) (Z.to_nat (i / 32)) = Some w
    /\ negb (Z.land (Z.shiftr w (i mod 32)) 1 =? 0) = Z.testbit k i.
Proof.
  intros Hk Hi. unfold to_u32_digits. rewrite Z.abs_eq by exact Hk. unfold digits.
  assert (0 <= i / 32) by (apply Z.div_pos; lia).
  pose proof (Z.mod_pos_bound i 32 ltac:(lia)) as M. pose proof (Z.div_mod i 32 ltac:(lia)) as DM.
  assert (Hk' : 0 < k).
  { destruct (Z.eq_dec k 0) as [->|]; [change (bits 0) with 0 in Hi|]; lia. }
  eexists. split.
  - apply digits_fuel_nth; [lia| |].
    + rewrite Z2Nat.id by apply bits_nonneg. split; [lia|apply bits_lt, Hk].
    + rewrite Z2Nat.id by lia. rewrite <- Z.pow_mul_r by lia.
      apply Z.le_trans with (2 ^ (bits k - 1)); [apply Z.pow_le_mono_r; lia|apply bits_le, Hk'].
  - rewrite Z2Nat.id by lia. rewrite <- Z.pow_mul_r by lia.
    change 1 with (Z.ones 1) at 1. rewrite Z.land_ones by lia. change (2 ^ 1) with 2.
    rewrite <- Z.bit0_mod, Z.shiftr_spec by lia. rewrite Z.mod_pow2_bits_low by lia.
    rewrite <- Z.shiftr_div_pow2, Z.shiftr_spec by lia.
    replace (0 + i mod 32 + 32 * (i / 32)) with i by lia.
    destruct (Z.testbit k i); reflexivity.
Qed.

(** the two loops run their body over the binary digits *)
Lemma for_each_lr {St} oc (a : Scalar) (st : St) body fuel : 0 < sk a -> bits (sk a) < 2 ^ 64 ->
  (Z.to_nat (bits (sk a)) < fuel)%nat ->
  bind (iter_lr oc a) (fun it => for_each fuel oc it st body)
  = fold_out body st (bits_desc (sk a) (Z.to_nat (bits (sk a)))).
Proof.
  intros Hk H64 Hf. pose proof (bits_pos _ Hk) as Hb. unfold iter_lr, usize_sub, usize_modulus.
  destruct (Z.ltb_spec (bits (sk a)) 1); [lia|]. rewrite andb_false_r. cbn [bind].
  rewrite (Z.mod_small (bits (sk a) - 1)) by lia.
  set (k := sk a) in *. set (L := bits k) in *.
  assert (G : forall n fuel st, Z.of_nat n <= L -> (n < fuel)%nat ->
    for_each fuel oc (mkIterino L ((Z.of_nat n - 1) mod 2 ^ 64) (to_u32_digits k) true) st body
    = fold_out body st (bits_desc k n)).
  { clear fuel Hf st. induction n as [|n IH]; intros fuel st Hn Hf.
    - destruct fuel as [|fuel]; [lia|]. cbn [for_each]. unfold next. cbn [it_i it_l].
      change ((Z.of_nat 0 - 1) mod 2 ^ 64) with (2 ^ 64 - 1).
      destruct (Z.ltb_spec (2 ^ 64 - 1) L); [lia|]. reflexivity.
    - destruct fuel as [|fuel]; [lia|]. rewrite bits_desc_S. cbn [for_each fold_out]. unfold next.
      cbn [it_i it_l it_v it_lr].
      replace (Z.of_nat (S n) - 1) with (Z.of_nat n) by lia. rewrite (Z.mod_small (Z.of_nat n)) by lia.
      destruct (Z.ltb_spec (Z.of_nat n) L); [|lia].
      destruct (u32_bit k (Z.of_nat n) ltac:(lia) ltac:(lia)) as (w & -> & ->). cbn [bind fst snd].
      destruct (body st (Z.testbit k (Z.of_nat n))) as [st'|]; cbn [bind]; [|reflexivity].
      unfold usize_modulus. apply IH; lia. }
  specialize (G (Z.to_nat L) fuel st). rewrite Z2Nat.id in G by lia.
  rewrite (Z.mod_small (L - 1)) in G by lia. apply G; [lia|]. exact Hf.
Qed.

Lemma for_each_rl {St} oc (a : Scalar) (st : St) body fuel : 0 <= sk a -> bits (sk a) < 2 ^ 64 ->
  (Z.to_nat (bits (sk a)) < fuel)%nat ->
  bind (iter_rl a) (fun it => for_each fuel oc it st body)
  = fold_out body st (rev (bits_desc (sk a) (Z.to_nat (bits (sk a))))).
Proof.
  intros Hk H64 Hf. pose proof (bits_nonneg (sk a)) as Hb. unfold iter_rl. cbn [bind].
  set (k := sk a) in *. set (L := bits k) in *.
  assert (G : forall n fuel st i, (i + n = Z.to_nat L)%nat -> (n < fuel)%nat ->
    for_each fuel oc (mkIterino L (Z.of_nat i) (to_u32_digits k) false) st body
    = fold_out body st (map (fun i => Z.testbit k (Z.of_nat i)) (seq i n))).
  { clear fuel Hf st. induction n as [|n IH]; intros fuel st i Hn Hf.
    - destruct fuel as [|fuel]; [lia|]. cbn [for_each]. unfold next. cbn [it_i it_l].
      destruct (Z.ltb_spec (Z.of_nat i) L); [lia|]. reflexivity.
    - destruct fuel as [|fuel]; [lia|]. cbn [seq map for_each fold_out]. unfold next.
      cbn [it_i it_l it_v it_lr].
      destruct (Z.ltb_spec (Z.of_nat i) L); [|lia].
      destruct (u32_bit k (Z.of_nat i) ltac:(lia) ltac:(lia)) as (w & -> & ->).
      unfold usize_add, usize_modulus. destruct (Z.leb_spec (2 ^ 64) (Z.of_nat i + 1)); [lia|].
      rewrite andb_false_r. cbn [bind fst snd].
      destruct (body st (Z.testbit k (Z.of_nat i))) as [st'|]; cbn [bind]; [|reflexivity].
      rewrite Z.mod_small by lia. replace (Z.of_nat i + 1) with (Z.of_nat (S i)) by lia. apply IH; lia. }
  specialize (G (Z.to_nat L) fuel st 0%nat eq_refl Hf). cbn [Z.of_nat] in G. rewrite G. f_equal.
  unfold bits_desc. rewrite <- map_rev, rev_involutive. reflexivity.
Qed.

Lemma fold_out_collect (l acc : list bool) : fold_out (fun acc b => Ret (acc ++ [b])) acc l = Ret (acc ++ l).
Proof.
  revert acc. induction l as [|b l IH]; intro acc; cbn [fold_out bind]; [rewrite app_nil_r; reflexivity|].
  rewrite IH, <- app_assoc. reflexivity.
Qed.

Lemma bits_desc_number k : 0 < k -> bits_value (bits_desc k (Z.to_nat (bits k))) = k
  /\ hd_error (bits_desc k (Z.to_nat (bits k))) = Some true.
Proof.
  intro H. pose proof (bits_pos k H). split.
  - rewrite bits_desc_value, Z2Nat.id by lia. apply Z.mod_small. split; [lia|apply bits_lt; lia].
  - assert (Z.to_nat (bits k) = S (Z.to_nat (bits k - 1))) as -> by lia. rewrite bits_desc_S. cbn [hd_error].
    f_equal. rewrite Z2Nat.id by lia. unfold bits. destruct (Z.eqb_spec k 0); [lia|].
    rewrite Z.abs_eq, Z.add_simpl_r by lia. apply Z.bit_log2. lia.
Qed.

(** k <> 0: iter_lr yields the binary numeral of k (leading digit 1) and ends, iter_rl its reverse *)
Lemma c22_iterators : forall oc a, 0 < sk a -> bits (sk a) < 2 ^ 64 ->
  exists l, bits_value l = sk a /\ hd_error l = Some true
    /\ bind (iter_lr oc a) (drain oc) = Ret l /\ bind (iter_rl a) (drain oc) = Ret (rev l).
Proof.
  intros oc a Hk H64. exists (bits_desc (sk a) (Z.to_nat (bits (sk a)))).
  destruct (bits_desc_number _ Hk) as [E1 E2]. split; [exact E1|]. split; [exact E2|]. split.
  - pose proof (for_each_lr oc a ([] : list bool) (fun acc b => Ret (acc ++ [b])) (S (Z.to_nat (bits (sk a)))) Hk H64 ltac:(lia)) as E.
    rewrite fold_out_collect in E. cbn [app] in E. rewrite <- E.
    unfold iter_lr. destruct (usize_sub oc (bits (sk a)) 1); reflexivity.
  - pose proof (for_each_rl oc a ([] : list bool) (fun acc b => Ret (acc ++ [b])) (S (Z.to_nat (bits (sk a)))) ltac:(lia) H64 ltac:(lia)) as E.
    rewrite fold_out_collect in E. cbn [app] in E. rewrite <- E. reflexivity.
Qed.
(** k = 0: iter_rl ends at once; iter_lr panics with overflow checks, ends at once without *)
Lemma c22_iterators_zero : forall oc r,
  bind (iter_rl (mkScalar 0 r)) (drain oc) = Ret []
  /\ bind (iter_lr oc (mkScalar 0 r)) (drain oc)
     = if oc then Panic "attempt to subtract with overflow" else Ret [].
Proof. intros [|] r; split; reflexivity. Qed.
Lemma c22_iter_lr_never_panics_refuted : exists a msg, valid_scalar 7 a /\ iter_lr true a = Panic msg.
Proof. exists (mkScalar 0 7). eexists. split; [split; cbn; [reflexivity|lia]|reflexivity]. Qed.
(** a finished iterator stays finished *)
Lemma c22_iterators_fused : forall oc it it', next oc it = Ret (None, it') -> it' = it.
Proof.
  intros oc it it' H. unfold next in H. destruct (it_i it <? it_l it).
  - destruct (nth_error _ _); [|discriminate]. destruct (it_lr it); cbn [bind] in H; [discriminate|].
    unfold usize_add in H. destruct (oc && _); discriminate.
  - injection H as <-. reflexivity.
Qed.
Example c22_ex : bind (iter_lr true (mkScalar 6 101)) (drain true) = Ret [true; true; false]
  /\ bind (iter_rl (mkScalar (2 ^ 33 + 1) (2 ^ 61))) (drain true)
     = Ret (true :: repeat false 32 ++ [true])
  /\ bits (2 ^ 33 + 1) < 2 ^ 64.
Proof. vm_compute. repeat split; congruence. Qed.
