(** Straight-line programs, ladders, polynomials and tests in a prime field, run on limbs. *)
From Coq Require Import ZArith Znumtheory Lia List Bool Uint63.
From Verif.Math Require Import Fld Zp Pow Residue Limb.
Import ListNotations.
Open Scope Z_scope.

(** a context with [sl] bits of slack *)
Definition make_s (p sl : Z) : ctx :=
  let n := Z.to_nat ((Z.log2 p + sl) / 30 + 1) in
  mkCtx (limbs n p) (cinv (make p)) (limbs n 0).

Inductive ins := IM (i j : nat) | IA (i j : nat) | IS (i j : nat).
Definition env := list (list int).
Section Run.
  Variable C : ctx.
  Variable k : list int.
  Definition bnd2 {A} (x y : option (list int)) (f : list int -> list int -> option A) : option A :=
    bnd x (fun a => bnd y (f a)).
  Definition iex (i : ins) (e : env) : option (list int) :=
    match i with
    | IM i j => bnd2 (nth_error e i) (nth_error e j) (mm C)
    | IA i j => bnd2 (nth_error e i) (nth_error e j) madd
    | IS i j => bnd2 (nth_error e i) (nth_error e j) (msub k)
    end.
  Fixpoint run (l : list ins) (e : env) : option env :=
    match l with [] => Some e | i :: l' => bnd (iex i e) (fun x => run l' (x :: e)) end.
  Fixpoint pick (o : list nat) (e : env) : option env :=
    match o with [] => Some [] | i :: o' => bnd (nth_error e i) (fun x => bnd (pick o' e) (fun r => Some (x :: r))) end.
  Definition step (l : list ins) (o : list nat) (e : env) : option env := bnd (run l e) (pick o).
  (** double-and-add along signed digits, most significant first *)
  Section Lad.
    Variables (pd pa : list ins) (od oa : list nat) (P nP cs : env).
    Fixpoint lad (ds : list Z) (st : env) : option env :=
      match ds with
      | [] => Some st
      | d :: ds' => bnd (step pd od (st ++ cs)) (fun s1 =>
          bnd (if d =? 0 then Some s1 else if d =? 1 then step pa oa (s1 ++ P ++ cs) else step pa oa (s1 ++ nP ++ cs)) (lad ds'))
      end.
  End Lad.
  (** polynomials modulo a monic f = x^d - (r_0 + .. + r_(d-1) x^(d-1)); coefficients low first *)
  Fixpoint padd2 (a b : env) : option env :=
    match a, b with
    | x :: a', y :: b' => bnd (madd x y) (fun z => bnd (padd2 a' b') (fun r => Some (z :: r)))
    | [], [] => Some []
    | _, _ => None
    end.
  Fixpoint pscale (x : list int) (a : env) : option env :=
    match a with [] => Some [] | y :: a' => bnd (mm C x y) (fun z => bnd (pscale x a') (fun r => Some (z :: r))) end.
  (** a * x modulo f *)
  Definition pshift (zero : list int) (r a : env) : option env :=
    bnd (pscale (last a zero) r) (fun t => padd2 (zero :: removelast a) t).
  Fixpoint pmul (zero : list int) (r a b : env) : option env :=
    match a with
    | [] => Some (map (fun _ => zero) b)
    | x :: a' => bnd (pmul zero r a' b) (fun t => bnd (pshift zero r t) (fun t => bnd (pscale x b) (padd2 t)))
    end.
  (** x^e modulo f *)
  Fixpoint ppow (zero : list int) (r x : env) (e : positive) : option env :=
    match e with
    | xH => Some x
    | xO e' => bnd (ppow zero r x e') (fun t => pmul zero r t t)
    | xI e' => bnd (ppow zero r x e') (fun t => bnd (pmul zero r t t) (pshift zero r))
    end.
End Run.
Fixpoint dval (n : Z) (ds : list Z) : option Z :=
  match ds with
  | [] => Some n
  | d :: ds' => if (-1 <=? d) && (d <=? 1) && (0 <=? 2 * n + d) then dval (2 * n + d) ds' else None
  end.
(** non-adjacent form *)
Fixpoint naf (fuel : nat) (n : Z) (acc : list Z) : list Z :=
  match fuel with
  | O => acc
  | S f => if n =? 0 then acc else
      let d := if Z.even n then 0 else 2 - n mod 4 in naf f ((n - d) / 2) (d :: acc)
  end.

Section Aux.
  Variable K : Fld.
  Add Field KA : (Fth K).
  Open Scope fld_scope.
  Lemma pev_aux (x c : K) : 0 + x * (c + x * 0) = c * x. Proof. ring. Qed.
  Lemma pev_aux2 (x : K) : 0 + x * 0 = 0. Proof. ring. Qed.
  Lemma pev_aux3 (x : K) : 1 * x = x. Proof. ring. Qed.
  Lemma pev_aux4 (x m w : K) : m = - (1) -> 1 = (x + m * x) * w -> False.
  Proof. intros -> E. apply (F_1_neq_0 K). rewrite E. ring. Qed.
  Lemma pev_aux5 (x : K) : 1 + x * 0 = 1. Proof. ring. Qed.
  Lemma fpow_aux (y : K) : 0 * y = 0. Proof. ring. Qed.
  Lemma fpow_aux1 (y : K) : y * 1 = y. Proof. ring. Qed.
End Aux.
Section F.
  Variable K : Fld.
  Add Field KF : (Fth K).
  Definition fnth (e : list K) i : K := nth i e F0.
  Definition iexF (i : ins) (e : list K) : K :=
    match i with
    | IM i j => Fmul (fnth e i) (fnth e j)
    | IA i j => Fadd (fnth e i) (fnth e j)
    | IS i j => Fsub (fnth e i) (fnth e j)
    end.
  Fixpoint runF (l : list ins) (e : list K) : list K :=
    match l with [] => e | i :: l' => runF l' (iexF i e :: e) end.
  Definition pickF (o : list nat) (e : list K) : list K := map (fnth e) o.
  Definition stepF (l : list ins) (o : list nat) (e : list K) : list K := pickF o (runF l e).

  Variable C : ctx.
  Variable k : list int.
  Variable RK : list int -> K -> Prop.
  Hypothesis RK_mul : forall a b c x y, RK a x -> RK b y -> mm C a b = Some c -> RK c (Fmul x y).
  Hypothesis RK_add : forall a b c x y, RK a x -> RK b y -> madd a b = Some c -> RK c (Fadd x y).
  Hypothesis RK_sub : forall a b c x y, RK a x -> RK b y -> msub k a b = Some c -> RK c (Fsub x y).
  Local Notation RE := (Forall2 RK).
  Lemma RE_nth e f i l : RE e f -> nth_error e i = Some l -> RK l (fnth f i).
  Proof.
    intro H. revert i. induction H as [|x y e f Hx He IH]; intros [|i]; cbn; try discriminate.
    - intro E. injection E as <-. exact Hx.
    - apply IH.
  Qed.
  Lemma iex_ok i e f l : RE e f -> iex C k i e = Some l -> RK l (iexF i f).
  Proof.
    intros H. destruct i as [i j|i j|i j]; cbn [iex iexF]; unfold bnd2;
      destruct (nth_error e i) as [x|] eqn:Ei; try discriminate; cbn [bnd];
      destruct (nth_error e j) as [y|] eqn:Ej; try discriminate; cbn [bnd]; intro E;
      [eapply RK_mul|eapply RK_add|eapply RK_sub]; try eassumption; eapply RE_nth; eassumption.
  Qed.
  Lemma run_ok l : forall e f e', RE e f -> run C k l e = Some e' -> RE e' (runF l f).
  Proof.
    induction l as [|i l IH]; intros e f e' H; cbn [run runF].
    - intro E. injection E as <-. exact H.
    - destruct (iex C k i e) as [x|] eqn:Ei; [|discriminate]. cbn [bnd]. apply IH. constructor; [|exact H]. eapply iex_ok; eassumption.
  Qed.
  Lemma pick_ok o e f e' : RE e f -> pick o e = Some e' -> RE e' (pickF o f).
  Proof.
    intro H. revert e'. induction o as [|i o IH]; cbn; intros e' E; [injection E as <-; constructor|].
    destruct (nth_error e i) as [x|] eqn:Ei; [|discriminate]. cbn [bnd] in E. destruct (pick o e) as [r|]; [|discriminate].
    injection E as <-. constructor; [eapply RE_nth; eassumption|apply IH; reflexivity].
  Qed.
  Lemma step_ok l o e f e' : RE e f -> step C k l o e = Some e' -> RE e' (stepF l o f).
  Proof.
    unfold step, stepF. intro H. destruct (run C k l e) as [x|] eqn:E; [|discriminate]. cbn [bnd]. apply pick_ok. eapply run_ok; eassumption.
  Qed.
  Lemma RE_app a b c d : RE a c -> RE b d -> RE (a ++ b) (c ++ d).
  Proof. apply Forall2_app. Qed.

  Section Lad.
    Variables (pd pa : list ins) (od oa : list nat) (P nP cs : env) (PF nPF csF : list K).
    Hypothesis HP : RE P PF.
    Hypothesis HnP : RE nP nPF.
    Hypothesis Hcs : RE cs csF.
    Variable Inv : Z -> list K -> Prop.
    Hypothesis Hd : forall n s, 0 <= n -> Inv n s -> Inv (2 * n) (stepF pd od (s ++ csF)).
    Hypothesis Ha : forall n s, 0 <= n -> Inv n s -> Inv (n + 1) (stepF pa oa (s ++ PF ++ csF)).
    Hypothesis Hs : forall n s, 1 <= n -> Inv n s -> Inv (n - 1) (stepF pa oa (s ++ nPF ++ csF)).
    Lemma lad_ok : forall ds n m st st' s, 0 <= n -> RE st s -> Inv n s -> dval n ds = Some m ->
      lad C k pd pa od oa P nP cs ds st = Some st' -> exists s', RE st' s' /\ Inv m s'.
    Proof.
      induction ds as [|d ds IH]; intros n m st st' s Hn H I; cbn [dval lad].
      - intros E F. injection E as <-. injection F as <-. eauto.
      - destruct ((-1 <=? d) && (d <=? 1) && (0 <=? 2 * n + d)) eqn:Ed; [|discriminate].
        rewrite !andb_true_iff, !Z.leb_le in Ed. destruct Ed as ((D1 & D2) & D3).
        intro E. destruct (step C k pd od (st ++ cs)) as [s1|] eqn:E1; [|discriminate]. cbn [bnd].
        pose proof (step_ok _ _ _ _ _ (RE_app _ _ _ _ H Hcs) E1) as H1. pose proof (Hd n s Hn I) as I1.
        set (f1 := stepF pd od (s ++ csF)) in *. clearbody f1.
        destruct (Z.eqb_spec d 0) as [->|N0].
        { cbn [bnd]. rewrite Z.add_0_r in E, D3. apply (IH _ _ _ _ _ D3 H1 I1 E). }
        destruct (Z.eqb_spec d 1) as [->|N1].
        + destruct (step C k pa oa (s1 ++ P ++ cs)) as [s2|] eqn:E2; [|discriminate]. cbn [bnd].
          apply (IH _ _ _ _ (stepF pa oa (f1 ++ PF ++ csF)) D3); [|apply Ha; [lia|exact I1]|exact E].
          eapply step_ok; [|exact E2]. apply RE_app; [exact H1|apply RE_app; assumption].
        + destruct (step C k pa oa (s1 ++ nP ++ cs)) as [s2|] eqn:E2; [|discriminate]. cbn [bnd].
          assert (d = -1) by lia. subst d.
          apply (IH _ _ _ _ (stepF pa oa (f1 ++ nPF ++ csF)) D3); [|replace (2 * n + -1) with (2 * n - 1) by lia; apply Hs; [lia|exact I1]|exact E].
          eapply step_ok; [|exact E2]. apply RE_app; [exact H1|apply RE_app; assumption].
    Qed.
  End Lad.

  (** *** evaluation of polynomials at a root of the modulus *)
  Open Scope fld_scope.
  Fixpoint pev (f : list K) (x : K) : K := match f with [] => 0 | c :: f' => c + x * pev f' x end.
  Lemma padd2_ok a b c f g : RE a f -> RE b g -> padd2 a b = Some c ->
    exists h, RE c h /\ forall x, pev h x = pev f x + pev g x.
  Proof.
    intros Ha. revert b c g. induction Ha as [|u v a f Hu Hf IH]; intros b c g Hb; cbn [padd2].
    - destruct Hb; [|discriminate]. intro E. injection E as <-. exists []. split; [constructor|]. intro x. cbn. ring.
    - destruct Hb as [|w z b g Hw Hg]; [discriminate|]. destruct (madd u w) as [t|] eqn:Et; [|discriminate]. cbn [bnd].
      destruct (padd2 a b) as [r|] eqn:Er; [|discriminate]. cbn [bnd]. intro E. injection E as <-.
      destruct (IH _ _ _ Hg Er) as (h & Hh & Eh). exists (v + z :: h). split; [constructor; [eapply RK_add; eassumption|exact Hh]|].
      intro x. cbn. rewrite Eh. ring.
  Qed.
  Lemma pscale_ok l x a c f : RK l x -> RE a f -> pscale C l a = Some c ->
    exists h, RE c h /\ forall t, pev h t = x * pev f t.
  Proof.
    intros Hl Ha. revert c. induction Ha as [|u v a f Hu Hf IH]; intros c; cbn [pscale].
    - intro E. injection E as <-. exists []. split; [constructor|]. intro t. cbn. ring.
    - destruct (mm C l u) as [w|] eqn:Ew; [|discriminate]. cbn [bnd]. destruct (pscale C l a) as [r|] eqn:Er; [|discriminate].
      cbn [bnd]. intro E. injection E as <-. destruct (IH _ eq_refl) as (h & Hh & Eh). exists (x * v :: h).
      split; [constructor; [eapply RK_mul; eassumption|exact Hh]|]. intro t. cbn. rewrite Eh. ring.
  Qed.
  Lemma pev_last f z x : f <> [] -> pev f x = pev (removelast f) x + fpow x (length f - 1) * last f z.
  Proof.
    induction f as [|c f IH]; [congruence|]. intros _. destruct f as [|c' f].
    - cbn. ring.
    - change (removelast (c :: c' :: f)) with (c :: removelast (c' :: f)). change (last (c :: c' :: f) z) with (last (c' :: f) z).
      replace (length (c :: c' :: f) - 1)%nat with (S (length (c' :: f) - 1)) by (cbn; lia).
      change (pev (c :: c' :: f) x) with (c + x * pev (c' :: f) x). rewrite (IH ltac:(discriminate)). cbn [pev fpow]. ring.
  Qed.
  Lemma RE_last a f z zf : RE a f -> RK z zf -> RK (last a z) (last f zf).
  Proof. intros H Hz. induction H as [|u v a f Hu Hf IH]; [exact Hz|]. destruct Hf; [exact Hu|exact IH]. Qed.
  Lemma RE_removelast a f : RE a f -> RE (removelast a) (removelast f).
  Proof. intro H. induction H as [|u v a f Hu Hf IH]; [constructor|]. destruct Hf; [constructor|]. constructor; assumption. Qed.
  Lemma RE_len a f : RE a f -> length a = length f. Proof. intro H. induction H; cbn; congruence. Qed.
  Lemma padd2_len a : forall b c, padd2 a b = Some c -> length a = length b /\ length c = length a.
  Proof.
    induction a as [|u a IH]; intros [|v b] c; cbn [padd2]; try discriminate.
    - intro E. injection E as <-. auto.
    - destruct (madd u v); [|discriminate]. cbn [bnd]. destruct (padd2 a b) eqn:E; [|discriminate]. cbn [bnd]. intro F. injection F as <-.
      destruct (IH _ _ E). cbn. split; congruence.
  Qed.
  Lemma pscale_len x a : forall c, pscale C x a = Some c -> length c = length a.
  Proof.
    induction a as [|u a IH]; intros c; cbn [pscale]; [intro E; injection E as <-; reflexivity|].
    destruct (mm C x u); [|discriminate]. cbn [bnd]. destruct (pscale C x a); [|discriminate]. cbn [bnd]. intro F. injection F as <-.
    cbn. f_equal. apply IH. reflexivity.
  Qed.
  Section Mod.
    Variables (zero : list int) (r : env) (rF : list K) (x0 : K).
    Hypothesis Hz : RK zero 0.
    Hypothesis Hr : RE r rF.
    Hypothesis Hx : fpow x0 (length r) = pev rF x0.
    Lemma pshift_ok a c f : a <> [] -> RE a f -> pshift C zero r a = Some c -> exists h, RE c h /\ length c = length r /\ pev h x0 = x0 * pev f x0.
    Proof.
      unfold pshift. intros Na Ha. destruct (pscale C (last a zero) r) as [t|] eqn:Et; [|discriminate]. cbn [bnd]. intro E.
      destruct (pscale_ok _ _ _ _ _ (RE_last _ _ _ _ Ha Hz) Hr Et) as (ht & Hht & Eht).
      assert (H0 : RE (zero :: removelast a) (0 :: removelast f)) by (constructor; [exact Hz|apply RE_removelast, Ha]).
      destruct (padd2_ok _ _ _ _ _ H0 Hht E) as (h & Hh & Eh). destruct (padd2_len _ _ _ E) as [L1 L2]. pose proof (pscale_len _ _ _ Et) as L3.
      exists h. split; [exact Hh|]. split; [congruence|].
      rewrite Eh, Eht, <- Hx. assert (Nf : f <> []) by (destruct Ha; congruence). rewrite (pev_last f 0 x0 Nf). cbn [pev].
      assert (LA : length (zero :: removelast a) = length a).
      { clear - Na. induction a as [|u a IH]; [congruence|]. destruct a as [|u' a]; [reflexivity|]. specialize (IH ltac:(discriminate)).
        cbn [length removelast] in IH |- *. congruence. }
      rewrite (RE_len _ _ Ha) in LA. replace (length r) with (S (length f - 1)).
      2: { rewrite <- L3, <- L1, LA. destruct f; [congruence|cbn; lia]. }
      cbn [fpow]. ring.
    Qed.
    Lemma pev_zeros {A} (b : list A) x : pev (map (fun _ => 0) b) x = 0.
    Proof. induction b; cbn; [reflexivity|rewrite IHb; ring]. Qed.
    Lemma RE_zeros (b : env) : RE (map (fun _ => zero) b) (map (fun _ => 0) b).
    Proof. induction b; constructor; assumption. Qed.
    Lemma pmul_ok a : forall f b c g, RE a f -> RE b g -> b <> [] -> pmul C zero r a b = Some c ->
      exists h, RE c h /\ pev h x0 = pev f x0 * pev g x0 /\ c <> [].
    Proof.
      induction a as [|u a IH]; intros f b c g Ha Hb Nb; cbn [pmul]; inversion Ha as [|u' v a' f' Hu Hf]; subst.
      - intro E. injection E as <-. exists (map (fun _ => 0) b). split; [apply RE_zeros|]. rewrite pev_zeros.
        split; [cbn; ring|]. destruct b; [congruence|discriminate].
      - destruct (pmul C zero r a b) as [t|] eqn:E1; [|discriminate]. cbn [bnd].
        destruct (pshift C zero r t) as [t'|] eqn:E2; [|discriminate]. cbn [bnd].
        destruct (pscale C u b) as [w|] eqn:E3; [|discriminate]. cbn [bnd]. intro E4.
        destruct (IH _ _ _ _ Hf Hb Nb E1) as (h1 & H1 & X1 & N1).
        destruct (pshift_ok _ _ _ N1 H1 E2) as (h2 & H2 & L2 & X2).
        destruct (pscale_ok _ _ _ _ _ Hu Hb E3) as (h3 & H3 & X3).
        destruct (padd2_ok _ _ _ _ _ H2 H3 E4) as (h & H4 & X4). exists h. split; [exact H4|].
        split; [rewrite X4, X2, X1, X3; cbn [pev]; ring|].
        destruct (padd2_len _ _ _ E4) as [L4 L5]. pose proof (pscale_len _ _ _ E3) as L6. intro Z. subst c. cbn in L5. destruct b; [congruence|]. cbn in L6. lia.
    Qed.
    Lemma ppow_ok xl xf (e : positive) : RE xl xf -> xl <> [] -> pev xf x0 = x0 -> forall c, ppow C zero r xl e = Some c ->
      exists h, RE c h /\ pev h x0 = fpow x0 (Pos.to_nat e) /\ c <> [].
    Proof.
      intros Hl Nl El. induction e as [e IH|e IH|]; cbn [ppow]; intro c.
      - destruct (ppow C zero r xl e) as [t|]; [|discriminate]. cbn [bnd]. destruct (IH _ eq_refl) as (h & Hh & Eh & Nh).
        destruct (pmul C zero r t t) as [t2|] eqn:E2; [|discriminate]. cbn [bnd]. intro E.
        destruct (pmul_ok _ _ _ _ _ Hh Hh Nh E2) as (h2 & H2 & X2 & N2).
        destruct (pshift_ok _ _ _ N2 H2 E) as (h3 & H3 & L3 & X3). exists h3. split; [exact H3|].
        rewrite X3, X2, Eh. rewrite Pos2Nat.inj_xI. split.
        + cbn [fpow]. replace (2 * Pos.to_nat e)%nat with (Pos.to_nat e + Pos.to_nat e)%nat by lia. rewrite fpow_add. reflexivity.
        + intro Z. subst c. unfold pshift in E. destruct (pscale C (last t2 zero) r) as [w|]; [|discriminate]. cbn [bnd] in E. destruct w; [discriminate E|].
          apply padd2_len in E. cbn in E. lia.
      - destruct (ppow C zero r xl e) as [t|]; [|discriminate]. cbn [bnd]. destruct (IH _ eq_refl) as (h & Hh & Eh & Nh). intro E.
        destruct (pmul_ok _ _ _ _ _ Hh Hh Nh E) as (h2 & H2 & X2 & N2). exists h2. split; [exact H2|]. split; [|exact N2].
        rewrite X2, Eh, Pos2Nat.inj_xO. replace (2 * Pos.to_nat e)%nat with (Pos.to_nat e + Pos.to_nat e)%nat by lia. rewrite fpow_add. reflexivity.
      - intro E. injection E as <-. exists xf. split; [exact Hl|]. split; [|exact Nl]. rewrite El. change (Pos.to_nat 1) with 1%nat. cbn [fpow]. ring.
    Qed.
  End Mod.
End F.

(** *** the field of integers modulo p *)
Section Z.
  Variable p : Z.
  Hypothesis Hp : prime p.
  Hypothesis Hp2 : 2 < p.
  Local Notation K := (ZpF p Hp).
  Variable C : ctx.
  Hypothesis HC : ctx_ok C = true.
  Hypothesis HM : md C = p.
  Variable k : list int.
  Hypothesis Hk : mult_ok C k = true.
  Definition RK (l : list int) (x : K) : Prop := R C l (zv x).
  Lemma modd z : (p | z - z mod p).
  Proof. exists (z / p). pose proof (Z.div_mod z p ltac:(lia)). lia. Qed.
  Lemma RK_mul a b c x y : RK a x -> RK b y -> mm C a b = Some c -> RK c (Fmul x y).
  Proof.
    intros Ha Hb E. apply (R_eqm C _ (zv x * zv y)); [exact (R_mul C HC _ _ _ _ _ Ha Hb E)|]. rewrite HM. apply modd.
  Qed.
  Lemma RK_add a b c x y : RK a x -> RK b y -> madd a b = Some c -> RK c (Fadd x y).
  Proof.
    intros Ha Hb E. apply (R_eqm C _ (zv x + zv y)); [exact (R_add C _ _ _ _ _ Ha Hb E)|]. rewrite HM. apply modd.
  Qed.
  Lemma RK_sub a b c x y : RK a x -> RK b y -> msub k a b = Some c -> RK c (Fsub x y).
  Proof.
    intros Ha Hb E. apply (R_eqm C _ (zv x - zv y)); [exact (R_sub C HC k _ _ _ _ _ Hk Ha Hb E)|]. rewrite HM. apply modd.
  Qed.
  Lemma RK_enc z : RK (enc C z) (of_Z p z).
  Proof. apply (R_eqm C _ z); [apply enc_R, HC|]. rewrite HM. apply modd. Qed.
  Lemma RK_repr l x z : RK l x -> repr C l z = true -> x = of_Z p z.
  Proof.
    intros H E. apply (R_iff C HC _ _ _ H) in E. rewrite HM in E. apply Zp_eq. cbn.
    destruct E as [c E]. replace z with (zv x + (- c) * p) by lia. rewrite Z_mod_plus_full. symmetry. apply Z.mod_small, zv_range. lia.
  Qed.
  Lemma RK_nrepr l x z : RK l x -> repr C l z = false -> x <> of_Z p z.
  Proof.
    intros H E F. assert (T : repr C l z = true); [|congruence]. apply (R_iff C HC _ _ _ H). rewrite HM, F. cbn.
    destruct (modd z) as [c Ec]. exists (- c). lia.
  Qed.
  Lemma RE_enc l : Forall2 RK (map (enc C) l) (map (of_Z p) l).
  Proof. induction l; constructor; [apply RK_enc|assumption]. Qed.
  (** *** no root: x^p - x is invertible modulo f *)
  Lemma RE_repr l x z : Forall2 RK l x -> forallb (fun q => repr C (fst q) (snd q)) (combine l z) = true -> length l = length z -> x = map (of_Z p) z.
  Proof.
    intro H. revert z. induction H as [|u v l x Hu Hl IH]; intros [|w z]; cbn [combine forallb length map fst snd]; try discriminate; [reflexivity|].
    intros E L. apply andb_true_iff in E. destruct E as [E1 E2]. f_equal; [exact (RK_repr _ _ _ Hu E1)|apply IH; [exact E2|lia]].
  Qed.
  Definition xvec (n : nat) (c : Z) : list Z := 0 :: c :: repeat 0 n.
  Definition noroot_run (r u : list Z) : option bool :=
    let zero := enc C 0 in let rl := map (enc C) r in let n := (length r - 2)%nat in
    bnd (ppow C zero rl (map (enc C) (xvec n 1)) (Z.to_pos p)) (fun t =>
    bnd (padd2 t (map (enc C) (xvec n (-1)))) (fun h =>
    bnd (pmul C zero rl h (map (enc C) u)) (fun o =>
    Some (forallb (fun q => repr C (fst q) (snd q)) (combine o (1 :: repeat 0 (S n))) && Nat.eqb (length o) (S (S n))
          && negb (Nat.eqb (length u) 0))))).
  Lemma pev_xvec n c x : pev K (map (of_Z p) (xvec n c)) x = Fmul (of_Z p c : K) x.
  Proof.
    unfold xvec. cbn [map pev]. replace (pev K (map (of_Z p) (repeat 0 n)) x) with (F0 : K).
    - apply pev_aux.
    - induction n as [|n IH]; [reflexivity|]. cbn [repeat map pev]. rewrite <- IH. symmetry. apply pev_aux2.
  Qed.
  Lemma noroot_ok r u : noroot_run r u = Some true -> forall x : K, fpow x (length r) <> pev K (map (of_Z p) r) x.
  Proof.
    unfold noroot_run. set (zero := enc C 0). set (rl := map (enc C) r). set (n := (length r - 2)%nat).
    destruct (ppow C zero rl (map (enc C) (xvec n 1)) (Z.to_pos p)) as [t|] eqn:E1; [|discriminate]. cbn [bnd].
    destruct (padd2 t (map (enc C) (xvec n (-1)))) as [h|] eqn:E2; [|discriminate]. cbn [bnd].
    destruct (pmul C zero rl h (map (enc C) u)) as [o|] eqn:E3; [|discriminate]. cbn [bnd]. intros E4 x Hx.
    injection E4 as E4. rewrite !andb_true_iff in E4. destruct E4 as ((E4 & E5) & E6).
    apply Nat.eqb_eq in E5. apply negb_true_iff, Nat.eqb_neq in E6.
    assert (Hz : RK zero F0) by (apply (RK_enc 0)).
    pose proof (RE_enc r) as Hr. fold rl in Hr.
    assert (Hx' : fpow x (length rl) = pev K (map (of_Z p) r) x) by (unfold rl; rewrite map_length; exact Hx).
    destruct (ppow_ok K C RK RK_mul RK_add zero rl _ x Hz Hr Hx' _ _ (Z.to_pos p) (RE_enc (xvec n 1)) ltac:(discriminate)) with (c := t) as (g & Hg & Eg & _).
    { rewrite pev_xvec. apply pev_aux3. }
    { exact E1. }
    destruct (padd2_ok K RK RK_add _ _ _ _ _ Hg (RE_enc (xvec n (-1))) E2) as (g2 & Hg2 & Eg2).
    destruct (pmul_ok K C RK RK_mul RK_add zero rl _ x Hz Hr Hx' _ _ _ _ _ Hg2 (RE_enc u) ltac:(destruct u; [cbn in E6; congruence|discriminate]) E3) as (g3 & Hg3 & Eg3 & _).
    assert (L : length o = length (1 :: repeat 0 (S n))) by (cbn [length]; rewrite repeat_length; exact E5).
    rewrite (RE_repr _ _ _ Hg3 E4 L) in Eg3. rewrite Eg2, Eg, pev_xvec in Eg3.
    assert (FX : fpow x (Pos.to_nat (Z.to_pos p)) = x).
    { replace (Pos.to_nat (Z.to_pos p)) with (S (Z.to_nat (p - 1))) by lia. cbn [fpow].
      destruct (Feqd x F0) as [->|N]; [apply fpow_aux|]. rewrite (fermatK p Hp x N). apply fpow_aux1. }
    rewrite FX in Eg3.
    apply (pev_aux4 K x (of_Z p (-1) : K) (pev K (map (of_Z p) u) x)).
    - change (-1)%Z with (- (1))%Z. apply of_Z_opp.
    - rewrite <- Eg3. assert (G : forall m, pev K (map (of_Z p) (1 :: repeat 0 m)) x = F1).
      { intro m. cbn [map pev]. replace (pev K (map (of_Z p) (repeat 0 m)) x) with (F0 : K); [apply pev_aux5|].
        induction m as [|m IH]; [reflexivity|]. cbn [repeat map pev]. rewrite <- IH. symmetry. apply pev_aux2. }
      exact (eq_sym (G (S n))).
  Qed.
End Z.
