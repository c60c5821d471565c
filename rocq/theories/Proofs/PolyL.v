(** Identities between polynomials modulo a prime, checked on limbs. *)
From Coq Require Import ZArith Znumtheory Lia Bool List Ring Field Uint63.
From Verif.Math Require Import Fld Zp Residue Limb LimbF.
From Verif.Spec Require Import Isogeny.
From Verif.Proofs Require Import CurveP InstP.
Import ListNotations.
Open Scope Z_scope.

(** limbs by shifts, cheaper to evaluate than [limbs] *)
Fixpoint slimbs (n : nat) (z : Z) : list int :=
  match n with O => [] | S n' => Uint63.of_Z (Z.land z (Z.ones 30)) :: slimbs n' (Z.shiftr z 30) end.
Lemma slimbs_eq n : forall z, slimbs n z = limbs n z.
Proof.
  induction n as [|n IH]; intro z; cbn [slimbs limbs]; [reflexivity|].
  rewrite Z.land_ones, Z.shiftr_div_pow2, IH by lia. reflexivity.
Qed.

Section Ops.
  Variable C : ctx.
  (** the square of the radix modulo the modulus, and zero *)
  Variables r2 zero : list int.
  Definition penc (x : Z) : option (list int) := if (0 <=? x) && (x <? rad C) then mm C (slimbs (nl C) x) r2 else None.
  Fixpoint pencs (l : list Z) : option env :=
    match l with [] => Some [] | x :: l' => bnd (penc x) (fun a => bnd (pencs l') (fun r => Some (a :: r))) end.
  Fixpoint padd (a b : env) : option env :=
    match a, b with
    | [], _ => Some b
    | _, [] => Some a
    | x :: a', y :: b' => bnd (madd x y) (fun z => bnd (padd a' b') (fun r => Some (z :: r)))
    end.
  Fixpoint pmult (a b : env) : option env :=
    match a with [] => Some [] | x :: a' => bnd (pscale C x b) (fun s => bnd (pmult a' b) (fun t => padd s (zero :: t))) end.
  Fixpoint leqb (a b : list int) : bool :=
    match a, b with [], [] => true | x :: a', y :: b' => if (x =? y)%uint63 then leqb a' b' else false | _, _ => false end.
  Definition isz (one a : list int) : bool := match mm C a one with Some l => leqb l (czero C) || leqb l (cp C) | None => false end.
End Ops.
Lemma leqb_eq a : forall b, leqb a b = true -> a = b.
Proof.
  induction a as [|x a IH]; intros [|y b]; cbn [leqb]; try discriminate; [reflexivity|].
  destruct (x =? y)%uint63 eqn:E; [|discriminate]. apply eqb_spec in E. subst y. intro H. f_equal. apply IH, H.
Qed.

Section Alg.
  Variable K : Fld.
  Add Field KF : (Fth K).
  Variable C : ctx.
  Variable RK : list int -> K -> Prop.
  Hypothesis RK_mul : forall a b c x y, RK a x -> RK b y -> mm C a b = Some c -> RK c (Fmul x y).
  Hypothesis RK_add : forall a b c x y, RK a x -> RK b y -> madd a b = Some c -> RK c (Fadd x y).
  Local Notation RE := (Forall2 RK).
  Open Scope fld_scope.
  Lemma padd_ok a : forall b c f g, RE a f -> RE b g -> padd a b = Some c ->
    exists h, RE c h /\ forall x, pev K h x = pev K f x + pev K g x.
  Proof.
    induction a as [|u a IH]; intros b c f g Ha Hb; inversion Ha as [|? v ? f' Hu Hf]; subst.
    - destruct b; cbn [padd]; intro E; injection E as <-; exists g; (split; [exact Hb|]); intro x; cbn [pev]; ring.
    - inversion Hb as [|w z b' g' Hw Hg]; subst; cbn [padd].
      + intro E; injection E as <-. exists (v :: f'). split; [exact Ha|]. intro x. cbn [pev]. ring.
      + destruct (madd u w) as [t|] eqn:Et; [|discriminate]. cbn [bnd]. destruct (padd a b') as [r|] eqn:Er; [|discriminate].
        cbn [bnd]. intro E. injection E as <-. destruct (IH _ _ _ _ Hf Hg Er) as (h & Hh & Eh). exists (v + z :: h).
        split; [constructor; [eapply RK_add; eassumption|exact Hh]|]. intro x. cbn [pev]. rewrite Eh. ring.
  Qed.
  Lemma pmult_ok zero a : RK zero 0 -> forall b c f g, RE a f -> RE b g -> pmult C zero a b = Some c ->
    exists h, RE c h /\ forall x, pev K h x = pev K f x * pev K g x.
  Proof.
    intro Hz. induction a as [|u a IH]; intros b c f g Ha Hb; inversion Ha as [|? v ? f' Hu Hf]; subst; cbn [pmult].
    - intro E. injection E as <-. exists []. split; [constructor|]. intro x. cbn [pev]. ring.
    - destruct (pscale C u b) as [s|] eqn:Es; [|discriminate]. cbn [bnd]. destruct (pmult C zero a b) as [t|] eqn:Et; [|discriminate].
      cbn [bnd]. intro E. destruct (pscale_ok K C RK RK_mul _ _ _ _ _ Hu Hb Es) as (h1 & H1 & E1).
      destruct (IH _ _ _ _ Hf Hb Et) as (h2 & H2 & E2).
      destruct (padd_ok _ _ _ _ _ H1 (Forall2_cons _ _ Hz H2) E) as (h & Hh & Eh). exists h. split; [exact Hh|].
      intro x. rewrite Eh, E1. cbn [pev]. rewrite E2. ring.
  Qed.
  Lemma pev_zero h x : Forall (fun c => c = 0) h -> pev K h x = 0.
  Proof. intro H. induction H as [|c h -> _ IH]; cbn [pev]; [reflexivity|]. rewrite IH. ring. Qed.
  Lemma opp_one_mul (c x : K) : c = - (1) -> c * x = - x. Proof. intros ->. ring. Qed.
  Lemma mul_one_r (x : K) : x * 1 = x. Proof. ring. Qed.
  Lemma add_opp_zero (x y : K) : x + - y = 0 -> x = y.
  Proof. intro E. apply (proj1 (Fsub_zero K x y)). rewrite <- E. ring. Qed.
End Alg.

(** expressions denoting polynomials *)
Inductive pexp := PC (l : list Z) | PM (a b : pexp) | PA (a b : pexp).
Fixpoint pexp_ev (e : pexp) (x : Z) : Z :=
  match e with PC l => peval l x | PM a b => pexp_ev a x * pexp_ev b x | PA a b => pexp_ev a x + pexp_ev b x end.
Section Run.
  Variable C : ctx.
  Variables r2 zero : list int.
  Fixpoint prun (e : pexp) : option env :=
    match e with
    | PC l => pencs C r2 l
    | PM a b => bnd (prun a) (fun u => bnd (prun b) (pmult C zero u))
    | PA a b => bnd (prun a) (fun u => bnd (prun b) (padd u))
    end.
End Run.
(** a = b as polynomials modulo p *)
Definition pident (p sl : Z) (a b : pexp) : bool :=
  let C := make_s p sl in let r2 := enc C (rad C) in let zero := enc C 0 in let one := enc C 1 in
  ctx_check p C (limbs (nl C) (8 * p)) &&
  match bnd (prun C r2 zero a) (fun u => bnd (prun C r2 zero b) (fun v => bnd (pscale C (enc C (-1)) v) (padd u))) with
  | Some r => forallb (isz C one) r
  | None => false
  end.

Section Z.
  Variable p : Z.
  Hypothesis Hp : prime p.
  Local Notation K := (ZpF p Hp).
  Section C.
  Hypothesis Hp2 : 2 < p.
  Variable C : ctx.
  Hypothesis HC : ctx_ok C = true.
  Hypothesis HM : md C = p.
  Local Notation RK := (RK p Hp C).
  Lemma penc_ok x c : penc C (enc C (rad C)) x = Some c -> RK c (of_Z p x).
  Proof.
    unfold penc. destruct ((0 <=? x) && (x <? rad C)) eqn:B; [|discriminate]. apply andb_true_iff in B. rewrite Z.leb_le, Z.ltb_lt in B.
    rewrite slimbs_eq. destruct (limbs_spec (nl C) x) as (L & F & E). fold (rad C) in E. rewrite Z.mod_small in E by exact B.
    destruct (enc_R C HC (rad C)) as (G2 & D2). intro H.
    destruct (mm_good C HC _ _ _ (conj L F) G2 H) as (Gc & m & Em). apply (R_eqm C _ x).
    - split; [exact Gc|]. apply Gauss with (rad C); [|apply rel_prime_sym, rad_prime, HC].
      destruct D2 as [j Ej]. rewrite E in Em. replace (rad C * (V c - x * rad C)) with (V c * rad C - x * (rad C * rad C)) by ring.
      rewrite Em. exists (x * j + m). replace (V (enc C (rad C))) with (j * md C + rad C * rad C) by lia. ring.
    - rewrite HM. apply modd. lia.
  Qed.
  Lemma pencs_ok l : forall c, pencs C (enc C (rad C)) l = Some c -> Forall2 RK c (map (of_Z p) l).
  Proof.
    induction l as [|x l IH]; intros c; cbn [pencs map]; [intro E; injection E as <-; constructor|].
    destruct (penc C (enc C (rad C)) x) as [a|] eqn:E1; [|discriminate]. cbn [bnd]. destruct (pencs C (enc C (rad C)) l) as [r|]; [|discriminate].
    cbn [bnd]. intro E. injection E as <-. constructor; [apply penc_ok, E1|apply IH; reflexivity].
  Qed.
  Lemma pev_of l x : pev K (map (of_Z p) l) (of_Z p x) = of_Z p (peval l x).
  Proof.
    induction l as [|c l IH]; cbn [map pev peval]; [reflexivity|]. rewrite IH. symmetry.
    pushZ. reflexivity.
  Qed.
  Lemma isz_ok a (x : K) : RK a x -> isz C (enc C 1) a = true -> x = F0.
  Proof.
    unfold isz. intro Ha. destruct (mm C a (enc C 1)) as [l|] eqn:E; [|discriminate]. intro H.
    pose proof (RK_mul p Hp ltac:(lia) C HC HM _ _ _ _ _ Ha (RK_enc p Hp ltac:(lia) C HC HM 1) E) as Hl.
    assert (X : Fmul x (of_Z p 1 : K) = of_Z p 0).
    { apply (RK_repr p Hp Hp2 C HC HM l _ 0 Hl). unfold repr. apply Z.eqb_eq. destruct (ctx_open C HC) as (_ & Z0 & _ & _ & _ & P).
      apply orb_true_iff in H. destruct H as [H|H]; apply leqb_eq in H; rewrite H.
      - rewrite Z0, Z.mul_0_l. apply Z.mod_0_l. lia.
      - fold (md C). rewrite Z.mul_0_l, Z.sub_0_r. apply Z.mod_same. lia. }
    transitivity (Fmul x (of_Z p 1 : K)); [|exact X]. symmetry. apply (mul_one_r K).
  Qed.
  Lemma prun_ok e : forall c, prun C (enc C (rad C)) (enc C 0) e = Some c ->
    exists h, Forall2 RK c h /\ forall x, pev K h (of_Z p x) = of_Z p (pexp_ev e x).
  Proof.
    assert (Hz : RK (enc C 0) F0) by (apply (RK_enc p Hp ltac:(lia) C HC HM 0)).
    induction e as [l|a IHa b IHb|a IHa b IHb]; intros c; cbn [prun pexp_ev].
    - intro E. exists (map (of_Z p) l). split; [apply pencs_ok, E|]. intro x. apply pev_of.
    - destruct (prun C _ _ a) as [u|]; [|discriminate]. cbn [bnd]. destruct (prun C _ _ b) as [v|]; [|discriminate]. cbn [bnd]. intro E.
      destruct (IHa _ eq_refl) as (f & Hf & Ef), (IHb _ eq_refl) as (g & Hg & Eg).
      destruct (pmult_ok K C RK (RK_mul p Hp ltac:(lia) C HC HM) (RK_add p Hp ltac:(lia) C HM) _ _ Hz _ _ _ _ Hf Hg E) as (h & Hh & Eh).
      exists h. split; [exact Hh|]. intro x. rewrite Eh, Ef, Eg. pushZ. reflexivity.
    - destruct (prun C _ _ a) as [u|]; [|discriminate]. cbn [bnd]. destruct (prun C _ _ b) as [v|]; [|discriminate]. cbn [bnd]. intro E.
      destruct (IHa _ eq_refl) as (f & Hf & Ef), (IHb _ eq_refl) as (g & Hg & Eg).
      destruct (padd_ok K RK (RK_add p Hp ltac:(lia) C HM) _ _ _ _ _ Hf Hg E) as (h & Hh & Eh).
      exists h. split; [exact Hh|]. intro x. rewrite Eh, Ef, Eg. pushZ. reflexivity.
  Qed.
  End C.
  Lemma pident_ok sl a b : pident p sl a b = true -> forall x, (p | pexp_ev a x - pexp_ev b x).
  Proof.
    unfold pident, ctx_check. set (C := make_s p sl). rewrite !andb_true_iff. intros ((((HC & HM) & _) & H2) & HR) x.
    apply Z.eqb_eq in HM. apply Z.ltb_lt in H2. apply of_Z_div; [lia|].
    destruct (prun C _ _ a) as [u|] eqn:Ea; [|discriminate]. destruct (prun C _ _ b) as [v|] eqn:Eb; [|discriminate]. cbn [bnd] in HR.
    destruct (pscale C _ v) as [w|] eqn:Ew; [|discriminate]. cbn [bnd] in HR. destruct (padd u w) as [r|] eqn:Er; [|discriminate].
    destruct (prun_ok H2 C HC HM a u Ea) as (f & Hf & Ef), (prun_ok H2 C HC HM b v Eb) as (g & Hg & Eg).
    destruct (pscale_ok K C (RK p Hp C) (RK_mul p Hp ltac:(lia) C HC HM) _ _ _ _ _ (RK_enc p Hp ltac:(lia) C HC HM (-1)) Hg Ew) as (h & Hh & Eh).
    destruct (padd_ok K (RK p Hp C) (RK_add p Hp ltac:(lia) C HM) _ _ _ _ _ Hf Hh Er) as (q & Hq & Eq).
    specialize (Eq (of_Z p x)). rewrite (pev_zero K q) in Eq.
    - rewrite Eh, Ef, Eg in Eq. rewrite (opp_one_mul K) in Eq by (change (-1) with (- (1)); apply of_Z_opp). apply (add_opp_zero K). symmetry. exact Eq.
    - clear - Hq HR HC HM H2. induction Hq as [|l y r q Hl Hq IH]; [constructor|]. cbn [forallb] in HR. apply andb_true_iff in HR.
      destruct HR as [H1 HR]. constructor; [exact (isz_ok H2 C HC HM _ _ Hl H1)|apply IH, HR].
  Qed.
End Z.
