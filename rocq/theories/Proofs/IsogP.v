(** The isogenies of the model: evaluation of the polynomials, and the equation of the image. *)
From Coq Require Import ZArith Znumtheory Lia String Bool List Ring Field.
From Verif.Math Require Import Fld Zp Residue ECGroup.
From Verif.Spec Require Import Arith Curve Isogeny.
From Verif.Model Require Import Out BigInt PrimeField RationalMaps.
From Verif.Model Require WCurve.
From Verif.Proofs Require Import FieldP FieldProps CurveP PolyL.
From Verif.Proofs Require WeierP WeierProps MapsP.
Import ListNotations.
Open Scope Z_scope.

(** *** polynomial identities *)
Definition params_check (p sl : Z) (i : isogeny) (a b b' : Z) : bool :=
  let xn := PC (i_xn i) in let xd := PC (i_xd i) in let yn := PC (i_yn i) in let yd := PC (i_yd i) in
  pident p sl (PM xd (PM xd xd)) (PM yd yd)
  && pident p sl (PM (PC [b; a; 0; 1]) (PM yn yn)) (PA (PM xn (PM xn xn)) (PM (PC [b']) (PM yd yd))).
Lemma params_ok p sl i a b b' : prime p -> params_check p sl i a b b' = true -> isogeny_params p i a b b'.
Proof.
  intros Hp. unfold params_check. rewrite andb_true_iff. intros [H1 H2] x.
  apply (fun h => pident_ok p Hp sl _ _ h x) in H1, H2. cbn [pexp_ev peval] in H1, H2. split.
  - replace (peval (i_xd i) x ^ 3) with (peval (i_xd i) x * (peval (i_xd i) x * peval (i_xd i) x)) by ring. rewrite Z.pow_2_r. exact H1.
  - replace (peval (i_xn i) x ^ 3) with (peval (i_xn i) x * (peval (i_xn i) x * peval (i_xn i) x)) by ring. rewrite !Z.pow_2_r.
    replace (x * x * x + a * x + b) with (b + x * (a + x * (0 + x * (1 + x * 0)))) by ring.
    replace (b' * (peval (i_yd i) x * peval (i_yd i) x)) with ((b' + x * 0) * (peval (i_yd i) x * peval (i_yd i) x)) by ring.
    exact H2.
Qed.
(** the zeros of the square of a product of linear factors *)
Fixpoint linear (p : Z) (rs : list Z) : pexp := match rs with [] => PC [1] | r :: rs' => PM (PC [p - r; 1]) (linear p rs') end.
Definition zeros_check (p sl : Z) (f rs : list Z) : bool := pident p sl (PC f) (PM (linear p rs) (linear p rs)).
Lemma linear_div p rs x : prime p -> (p | pexp_ev (linear p rs) x) <-> exists r, In r rs /\ (p | x - r).
Proof.
  intro Hp. induction rs as [|r rs IH]; cbn [linear pexp_ev peval].
  - split; [|intros (r & [] & _)]. intro H. exfalso. replace (1 + x * 0) with 1 in H by ring.
    apply Z.divide_1_r_nonneg in H; destruct Hp; lia.
  - assert (E : (p | p - r + x * (1 + x * 0)) <-> (p | x - r)).
    { replace (p - r + x * (1 + x * 0)) with (x - r + p) by ring. split; intro D.
      - replace (x - r) with (x - r + p - p) by ring. apply Z.divide_sub_r; [exact D|apply Z.divide_refl].
      - apply Z.divide_add_r; [exact D|apply Z.divide_refl]. }
    split.
    + intro H. apply (prime_mult p Hp) in H. destruct H as [H|H].
      * exists r. split; [left; reflexivity|]. apply E, H.
      * apply IH in H. destruct H as (r' & I & D). exists r'. split; [right; exact I|exact D].
    + intros (r' & [<-|I] & D).
      * apply Z.divide_mul_l, E, D.
      * apply Z.divide_mul_r. apply IH. exists r'. split; assumption.
Qed.
Lemma zeros_ok p sl f rs x : prime p -> zeros_check p sl f rs = true -> ((p | peval f x) <-> exists r, In r rs /\ (p | x - r)).
Proof.
  intros Hp H. apply (fun h => pident_ok p Hp sl _ _ h x) in H. cbn [pexp_ev] in H. rewrite <- (linear_div p rs x Hp).
  set (w := pexp_ev (linear p rs) x) in *. split; intro D.
  - assert (D' : (p | w * w)).
    { replace (w * w) with (peval f x - (peval f x - w * w)) by ring. apply Z.divide_sub_r; assumption. }
    apply (prime_mult p Hp) in D'. destruct D'; assumption.
  - replace (peval f x) with ((peval f x - w * w) + w * w) by ring.
    apply Z.divide_add_r; [exact H|]. apply Z.divide_mul_l, D.
Qed.

(** evaluation at a point *)
Fixpoint hexp (l : list Z) (x : Z) : pexp := match l with [] => PC [] | c :: l' => PA (PC [c]) (PM (PC [x]) (hexp l' x)) end.
Lemma hexp_ev l x t : pexp_ev (hexp l x) t = peval l x.
Proof. induction l as [|c l IH]; cbn [hexp pexp_ev peval]; [reflexivity|]. rewrite IH. ring. Qed.
(** (X, Y) is the image of (x, y); [u] and [v] are the inverses of the denominators *)
Definition image_check (p sl : Z) (i : isogeny) (x y X Y u v : Z) : bool :=
  pident p sl (PM (PC [u]) (hexp (i_xd i) x)) (PC [1]) && pident p sl (PM (PC [v]) (hexp (i_yd i) x)) (PC [1])
  && pident p sl (PM (PC [X]) (hexp (i_xd i) x)) (hexp (i_xn i) x)
  && pident p sl (PM (PC [Y]) (hexp (i_yd i) x)) (PM (PC [y]) (hexp (i_yn i) x))
  && (0 <=? X) && (X <? p) && (0 <=? Y) && (Y <? p).
Lemma image_ok p sl i x y X Y u v : prime p -> image_check p sl i x y X Y u v = true -> isogeny_image p i x y X Y.
Proof.
  intro Hp. unfold image_check. rewrite !andb_true_iff, !Z.leb_le, !Z.ltb_lt. intros (((((((H1 & H2) & H3) & H4) & B1) & B2) & B3) & B4).
  apply (fun h => pident_ok p Hp sl _ _ h 0) in H1, H2, H3, H4. cbn [pexp_ev peval] in H1, H2, H3, H4. repeat rewrite hexp_ev in H1. repeat rewrite hexp_ev in H2. repeat rewrite hexp_ev in H3. repeat rewrite hexp_ev in H4.
  assert (N : forall a w, (p | (w + 0 * 0) * a - (1 + 0 * 0)) -> ~ (p | a)).
  { intros a w D A. assert (D1 : (p | 1)); [|apply Z.divide_1_r_nonneg in D1; destruct Hp; lia].
    replace 1 with (w * a - ((w + 0 * 0) * a - (1 + 0 * 0))) by ring. apply Z.divide_sub_r; [apply Z.divide_mul_r, A|exact D]. }
  split; [exact (N _ _ H1)|]. split; [exact (N _ _ H2)|]. split; [split; assumption|]. split; [split; assumption|].
  repeat rewrite Z.mul_0_l in H3. repeat rewrite Z.mul_0_l in H4. repeat rewrite Z.add_0_r in H3. repeat rewrite Z.add_0_r in H4. split; assumption.
Qed.

Section Alg.
  Variable K : Fld.
  Add Field KF : (Fth K).
  Open Scope fld_scope.
  (** values of the polynomials, of the cubic of the domain and of the constant of the codomain *)
  Variables xn xd yn yd g b' : K.
  Hypothesis H1 : xd * xd * xd = yd * yd.
  Hypothesis H2 : g * (yn * yn) = xn * xn * xn + b' * (yd * yd).
  Hypothesis noroot : forall x : K, x * x * x + b' <> 0.
  Lemma inv0 : Finv (0 : K) = 0 -> forall x : K, x * Finv 0 = 0.
  Proof. intros E x. rewrite E. ring. Qed.
  Lemma yd_xd : xd = 0 <-> yd = 0.
  Proof.
    split; intro E.
    - apply (Fsqr_zero K). rewrite <- H1, E. ring.
    - destruct (Fmul_integral K (xd * xd) xd) as [Z|Z]; [rewrite H1, E; ring|apply (Fsqr_zero K); exact Z|exact Z].
  Qed.
  Lemma image_on y : xd <> 0 -> ((y * (yn / yd)) * (y * (yn / yd)) = xn / xd * (xn / xd) * (xn / xd) + b' <-> y * y = g).
  Proof.
    intro N. assert (Ny : yd <> 0) by (intro E; apply N, yd_xd, E).
    assert (E3 : xn / xd * (xn / xd) * (xn / xd) + b' = g * (yn * yn) / (yd * yd)).
    { transitivity ((xn * xn * xn + b' * (xd * xd * xd)) / (xd * xd * xd)); [field; exact N|]. rewrite H1, <- H2. reflexivity. }
    assert (NY : yn <> 0). { intro E. apply (noroot (xn / xd)). rewrite E3, E. field. exact Ny. }
    rewrite E3. split; intro E.
    - apply (Fcancel_l K (yn * yn / (yd * yd))).
      + intro Z. apply (Fmul_nonzero K yn yn NY NY). transitivity (yn * yn / (yd * yd) * (yd * yd)); [field; exact Ny|]. rewrite Z. ring.
      + transitivity (y * (yn / yd) * (y * (yn / yd))); [field; exact Ny|]. rewrite E. field. exact Ny.
    - rewrite <- E. field. exact Ny.
  Qed.
  Lemma lin (c t x : K) : t * x + c = c + x * t. Proof. ring. Qed.
  Lemma mul_zero (x : K) : x * 0 = 0. Proof. ring. Qed.
  Lemma ydiv_iff (y n d v : K) : d <> 0 -> (v * d = y * n <-> y * (n / d) = v).
  Proof.
    intro N. split; intro E.
    - transitivity (y * n / d); [field; exact N|]. apply (Fdiv_eq_iff K _ _ _ N). symmetry. exact E.
    - rewrite <- E. field. exact N.
  Qed.
  Lemma image_zero : 0 * (0 : K) <> 0 * 0 * 0 + b'.
  Proof. intro E. apply (noroot 0). rewrite <- E. ring. Qed.
End Alg.

Section Push.
  Variable p : Z.
  Hypothesis Hp : prime p.
  Hypothesis Hp2 : 2 < p.
  Local Notation K := (ZpF p Hp).

  Definition hK (l : list K) (x : K) : K := fold_right (fun c acc => Fadd (Fmul acc x) c) F0 l.
  Lemma horner_fe (l : list K) (x : K) : horner (mkFp p) (map (@fe p) l) (fe x) = Ret (fe (hK l x)).
  Proof.
    induction l as [|c l IH]; cbn [horner map hK fold_right].
    - fes. reflexivity.
    - rewrite IH. fes. reflexivity.
  Qed.
  Lemma div_zero (x : K) : Fdiv x F0 = F0.
  Proof. change (zmul x (zinv (of_Z p 0)) = of_Z p 0). change (Fmul x (Finv (F0 : K)) = F0). rewrite (MapsP.inv_0 p Hp Hp2). apply (mul_zero K). Qed.
  Lemma hK_Z l x : hK l x = of_Z p (peval (map (fun c : K => zv c) l) (zv x)).
  Proof.
    induction l as [|c l IH]; cbn [map peval hK fold_right]; [reflexivity|]. fold (hK l x). rewrite IH. pushZ.
    apply (lin K).
  Qed.
End Push.
