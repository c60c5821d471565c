(** Why decode fails: C72. *)
From Coq Require Import ZArith Znumtheory Lia String Bool List.
From Verif.Math Require Import Fld Zp Residue ECGroup.
From Verif.Spec Require Import Arith Curve WPoints MPoints EPoints DecodeText.
From Verif.Model Require Import Out BigInt PrimeField Scalar.
From Verif.Model Require WCurve MCurve ECurve.
From Verif.Proofs Require Import BytesP FieldP FieldProps CurveP SmallP.
From Verif.Proofs Require SerialProps WeierP MontP EdwP WeierProps MontProps EdwProps.
Import ListNotations.
Open Scope Z_scope.

Lemma size_n F n : prime (modulus F) -> byte_size (modulus F) n -> size_bytes F = n /\ 0 < n.
Proof.
  intros Hp Hn. pose proof (prime_ge_2 _ Hp). split.
  - symmetry. destruct F as [p]. apply (WeierProps.size_is_nb p n Hp Hn).
  - destruct Hn as (H0 & H1 & _). assert (n <> 0) by (intros ->; change (256 ^ 0) with 1 in H1; lia). lia.
Qed.

Section Frames.
  Variables (p n : Z).
  Hypothesis n_pos : 0 < n.
  Lemma framed_ex buf : Z.of_nat (List.length buf) = n + 1 \/ Z.of_nat (List.length buf) = 2 * n + 1 ->
    exists tag xs ys, framed n buf tag xs ys.
  Proof.
    intro L. destruct buf as [|tag l]; [exfalso; change (Z.of_nat (List.length (@nil Z))) with 0 in L; lia|]. cbn [List.length] in L.
    exists tag, (firstn (Z.to_nat n) l), (skipn (Z.to_nat n) l). split; [rewrite firstn_skipn; reflexivity|].
    rewrite firstn_length. split; [lia|]. destruct L as [L|L].
    - left. apply length_zero_iff_nil. rewrite skipn_length. lia.
    - right. rewrite skipn_length. lia.
  Qed.
  Lemma framed_len buf tag xs ys : framed n buf tag xs ys ->
    Z.of_nat (List.length buf) = n + 1 /\ ys = [] \/ Z.of_nat (List.length buf) = 2 * n + 1 /\ ys <> [] /\ Z.of_nat (List.length ys) = n.
  Proof.
    intros (-> & L & [E|E]); cbn [List.length]; rewrite app_length; [left|right].
    - subst ys. cbn [List.length]. split; [lia|reflexivity].
    - split; [lia|]. split; [|exact E]. intros ->. cbn in E. lia.
  Qed.
  Lemma framed_fun buf tag xs ys tag' xs' ys' : framed n buf tag xs ys -> framed n buf tag' xs' ys' -> tag' = tag /\ xs' = xs /\ ys' = ys.
  Proof.
    intros (E & L & _) (E' & L' & _). rewrite E in E'. injection E' as -> E'. 
    apply WeierP.app_inv_len in E'; [|lia]. destruct E' as [-> ->]. auto.
  Qed.
End Frames.

(** both SEC1 decoders on a framed text *)
Lemma slice_x tag xs ys n : 0 < n -> Z.of_nat (List.length xs) = n -> WCurve.slice (tag :: xs ++ ys) 1 (n + 1) = Ret xs.
Proof.
  intros Hn L. unfold WCurve.slice. cbn [List.length]. rewrite app_length.
  destruct (Z.leb_spec 1 (n + 1)); [|lia]. destruct (Z.leb_spec (n + 1) (Z.of_nat (S (List.length xs + List.length ys)))); [|lia].
  cbn [andb]. f_equal. change (Z.to_nat 1) with 1%nat. cbn [skipn].
  replace (Z.to_nat (n + 1 - 1)) with (List.length xs + 0)%nat by lia. rewrite firstn_app_2. cbn. apply app_nil_r.
Qed.
Lemma slice_y tag xs ys n : 0 < n -> Z.of_nat (List.length xs) = n ->
  WCurve.slice (tag :: xs ++ ys) (n + 1) (Z.of_nat (List.length (tag :: xs ++ ys))) = Ret ys.
Proof.
  intros Hn L. unfold WCurve.slice. cbn [List.length]. rewrite app_length.
  destruct (Z.leb_spec (n + 1) (Z.of_nat (S (List.length xs + List.length ys)))); [|lia].
  rewrite Z.leb_refl. cbn [andb]. f_equal.
  replace (Z.to_nat (n + 1)) with (S (List.length xs + 0)) by lia. cbn [skipn]. rewrite skipn_app, skipn_all2 by lia.
  replace (List.length xs + 0 - List.length xs)%nat with 0%nat by lia. cbn [app skipn].
  apply firstn_all2. lia.
Qed.
(** what is computed once the text is accepted as a candidate: uncompressed, and compressed *)
Definition w_full (e : WCurve.Curve) (xv yv : Z) : out (io_result WCurve.Point) :=
  bind (elt (WCurve.c_f e) xv) (fun x => bind (elt (WCurve.c_f e) yv) (fun y => bind (WCurve.new_point e x y) (fun P => Ret (Ok P)))).
Definition w_half (e : WCurve.Curve) (tag xv : Z) : out (io_result WCurve.Point) :=
  bind (elt (WCurve.c_f e) xv) (fun x => bind (mul x x) (fun xx => bind (add xx (WCurve.c_a e)) (fun xx_a => bind (mul xx_a x) (fun xxx_ax =>
  bind (add xxx_ax (WCurve.c_b e)) (fun r => bind (sqrt r) (fun s => bind (if negb (tag =? WCurve.sign_tag (sgn0 s)) then neg s else Ret s) (fun y =>
  bind (WCurve.new_point e x y) (fun P => Ret (Ok P))))))))).
Definition m_full (e : MCurve.Curve) (xv yv : Z) : out (io_result MCurve.Point) :=
  bind (elt (MCurve.c_f e) xv) (fun x => bind (elt (MCurve.c_f e) yv) (fun y => bind (MCurve.new_point e x y) (fun P => Ret (Ok P)))).
Definition m_half (e : MCurve.Curve) (tag xv : Z) : out (io_result MCurve.Point) :=
  bind (one (MCurve.c_f e)) (fun o => bind (elt (MCurve.c_f e) xv) (fun x => bind (add x (MCurve.c_a e)) (fun x_a => bind (mul x_a x) (fun xx_ax =>
  bind (add xx_ax o) (fun xx_ax_1 => bind (mul xx_ax_1 x) (fun byy => bind (div o (MCurve.c_b e)) (fun b_inv => bind (mul byy b_inv) (fun yy =>
  bind (sqrt yy) (fun s => bind (if negb (tag =? WCurve.sign_tag (sgn0 s)) then neg s else Ret s) (fun y =>
  bind (MCurve.new_point e x y) (fun P => Ret (Ok P)))))))))))).
Definition sec1_form {A} (p tag xv : Z) (ys : list Z) (half : out (io_result A)) (full : out (io_result A)) : out (io_result A) :=
  if p <=? xv then Ret (Err "Invalid x coordinate") else if tag =? 0 then Ret (Err "Point at infinity should just be a single zero byte")
  else if tag =? 4 then match ys with [] => Ret (Err "Invalid bytes for deserialization") | _ => full end
  else if (tag =? 2) || (tag =? 3) then match ys with [] => half | _ => Ret (Err "Invalid bytes for deserialization") end
  else Ret (Err "Invalid tag specified").
Definition full_y {A} (p : Z) (ys : list Z) (full : out (io_result A)) : out (io_result A) :=
  if p <=? be_value ys then Ret (Err "Invalid y coordinate") else full.

Lemma elt_ret F v : 0 < modulus F -> exists x, elt F v = Ret x.
Proof. intro H. destruct F as [p]. cbn in H. exists (fe (of_Z p v)). apply elt_fe. lia. Qed.
Lemma w_form e buf n tag xs ys : prime (modulus (WCurve.c_f e)) -> byte_size (modulus (WCurve.c_f e)) n -> framed n buf tag xs ys ->
  WCurve.decode e buf = sec1_form (modulus (WCurve.c_f e)) tag (be_value xs) ys (w_half e tag (be_value xs))
    (full_y (modulus (WCurve.c_f e)) ys (w_full e (be_value xs) (be_value ys))).
Proof.
  intros Hp Hs Fr. destruct (size_n _ _ Hp Hs) as [En Hn]. pose proof (framed_len n Hn _ _ _ _ Fr) as Ln. pose proof (prime_ge_2 _ Hp).
  destruct (elt_ret (WCurve.c_f e) (be_value xs)) as [x Ex]; [lia|].
  unfold WCurve.decode, sec1_form, full_y, w_full, w_half. rewrite En, Ex. cbn [bind].
  destruct Fr as (-> & Lx & Ly). rewrite (slice_x _ _ _ _ Hn Lx), (slice_y _ _ _ _ Hn Lx). cbn [bind]. rewrite !from_bytes_be_value, Ex. cbn [bind].
  destruct Ln as [(-> & ->)|(-> & N & L')].
  - replace (n + 1 =? 1) with false by (symmetry; apply Z.eqb_neq; lia). replace (n + 1 =? 2 * n + 1) with false by (symmetry; apply Z.eqb_neq; lia).
    rewrite Z.eqb_refl. cbn [orb negb]. reflexivity.
  - replace (2 * n + 1 =? 1) with false by (symmetry; apply Z.eqb_neq; lia). replace (2 * n + 1 =? n + 1) with false by (symmetry; apply Z.eqb_neq; lia).
    rewrite Z.eqb_refl. cbn [orb negb]. destruct ys; [congruence|]. reflexivity.
Qed.
Lemma m_form e buf n tag xs ys : prime (modulus (MCurve.c_f e)) -> byte_size (modulus (MCurve.c_f e)) n -> framed n buf tag xs ys ->
  MCurve.decode e buf = sec1_form (modulus (MCurve.c_f e)) tag (be_value xs) ys (m_half e tag (be_value xs))
    (full_y (modulus (MCurve.c_f e)) ys (m_full e (be_value xs) (be_value ys))).
Proof.
  intros Hp Hs Fr. destruct (size_n _ _ Hp Hs) as [En Hn]. pose proof (framed_len n Hn _ _ _ _ Fr) as Ln. pose proof (prime_ge_2 _ Hp).
  destruct (elt_ret (MCurve.c_f e) (be_value xs)) as [x Ex]; [lia|].
  unfold MCurve.decode, sec1_form, full_y, m_full, m_half. rewrite En, Ex. cbn [bind].
  destruct Fr as (-> & Lx & Ly). rewrite (slice_x _ _ _ _ Hn Lx), (slice_y _ _ _ _ Hn Lx). cbn [bind]. rewrite !from_bytes_be_value, Ex. cbn [bind].
  destruct Ln as [(-> & ->)|(-> & N & L')].
  - replace (n + 1 =? 1) with false by (symmetry; apply Z.eqb_neq; lia). replace (n + 1 =? 2 * n + 1) with false by (symmetry; apply Z.eqb_neq; lia).
    rewrite Z.eqb_refl. cbn [orb negb]. reflexivity.
  - replace (2 * n + 1 =? 1) with false by (symmetry; apply Z.eqb_neq; lia). replace (2 * n + 1 =? n + 1) with false by (symmetry; apply Z.eqb_neq; lia).
    rewrite Z.eqb_refl. cbn [orb negb]. destruct ys; [congruence|]. reflexivity.
Qed.
Lemma slice_short t n : 0 < n -> WCurve.slice [t] 1 (n + 1) = Panic "range end index out of range for slice".
Proof.
  intro Hn. unfold WCurve.slice. change (Z.of_nat (List.length [t])) with 1. destruct (Z.leb_spec (n + 1) 1); [lia|].
  rewrite andb_false_r. reflexivity.
Qed.
Lemma w_other e buf n : prime (modulus (WCurve.c_f e)) -> byte_size (modulus (WCurve.c_f e)) n ->
  (~ In (Z.of_nat (List.length buf)) [1; n + 1; 2 * n + 1] -> WCurve.decode e buf = Ret (Err "Wrong input buffer size."))
  /\ (List.length buf = 1%nat -> WCurve.decode e buf = Panic "range end index out of range for slice").
Proof.
  intros Hp Hs. destruct (size_n _ _ Hp Hs) as [En Hn]. unfold WCurve.decode. rewrite En. split; intro H.
  - cbn [In] in H. replace (_ || _ || _) with false; [reflexivity|]. symmetry. rewrite !orb_false_iff, !Z.eqb_neq. lia.
  - destruct buf as [|t [|]]; try discriminate H. rewrite slice_short by exact Hn. reflexivity.
Qed.
Lemma m_other e buf n : prime (modulus (MCurve.c_f e)) -> byte_size (modulus (MCurve.c_f e)) n ->
  (~ In (Z.of_nat (List.length buf)) [1; n + 1; 2 * n + 1] -> MCurve.decode e buf = Ret (Err "Wrong input buffer size."))
  /\ (List.length buf = 1%nat -> MCurve.decode e buf = Panic "range end index out of range for slice").
Proof.
  intros Hp Hs. destruct (size_n _ _ Hp Hs) as [En Hn]. unfold MCurve.decode. rewrite En. split; intro H.
  - cbn [In] in H. replace (_ || _ || _) with false; [reflexivity|]. symmetry. rewrite !orb_false_iff, !Z.eqb_neq. lia.
  - destruct buf as [|t [|]]; try discriminate H. rewrite slice_short by exact Hn. reflexivity.
Qed.

Ltac no_err := repeat match goal with |- bind ?x _ <> _ => let E := fresh in destruct x eqn:E; cbn [bind] end; discriminate.
Lemma w_no_err e tag xv yv m : w_half e tag xv <> Ret (Err m) /\ w_full e xv yv <> Ret (Err m).
Proof. unfold w_half, w_full. split; no_err. Qed.
Lemma m_no_err e tag xv yv m : m_half e tag xv <> Ret (Err m) /\ m_full e xv yv <> Ret (Err m).
Proof. unfold m_half, m_full. split; no_err. Qed.

Section Generic.
  Context {A : Type}.
  Variables (p n : Z) (buf : list Z) (D : out (io_result A)) (half full : Z -> Z -> out (io_result A)).
  Hypothesis n_pos : 0 < n.
  Hypothesis other : (~ In (Z.of_nat (List.length buf)) [1; n + 1; 2 * n + 1] -> D = Ret (Err "Wrong input buffer size."))
    /\ (List.length buf = 1%nat -> D = Panic "range end index out of range for slice").
  Hypothesis frm : forall tag xs ys, framed n buf tag xs ys ->
    D = sec1_form p tag (be_value xs) ys (half tag (be_value xs)) (full_y p ys (full (be_value xs) (be_value ys))).
  Hypothesis no_err : forall tag xv yv m, half tag xv <> Ret (Err m) /\ full xv yv <> Ret (Err m).

  Lemma three : ~ In (Z.of_nat (List.length buf)) [1; n + 1; 2 * n + 1] \/ List.length buf = 1%nat \/ exists tag xs ys, framed n buf tag xs ys.
  Proof.
    destruct (Z.eq_dec (Z.of_nat (List.length buf)) 1); [right; left; lia|].
    destruct (Z.eq_dec (Z.of_nat (List.length buf)) (n + 1)) as [E|]; [right; right; apply (framed_ex n n_pos); lia|].
    destruct (Z.eq_dec (Z.of_nat (List.length buf)) (2 * n + 1)) as [E|]; [right; right; apply (framed_ex n n_pos); lia|].
    left. cbn [In]. lia.
  Qed.
  Lemma generic_error m : D = Ret (Err m) <-> sec1_error p n buf m.
  Proof.
    destruct other as [O1 O2]. split.
    - intro E. destruct three as [L|[L|(tag & xs & ys & Fr)]].
      + rewrite (O1 L) in E. injection E as <-. left. auto.
      + rewrite (O2 L) in E. discriminate E.
      + right. exists tag, xs, ys. split; [exact Fr|]. rewrite (frm _ _ _ Fr) in E. unfold sec1_form, full_y in E.
        destruct (no_err tag (be_value xs) (be_value ys) m) as [N1 N2].
        destruct (Z.leb_spec p (be_value xs)) as [G|G]; [injection E as <-; left; auto|right]. split; [exact G|].
        destruct (Z.eqb_spec tag 0) as [T0|T0]; [injection E as <-; left; auto|right].
        destruct (Z.eqb_spec tag 4) as [T4|T4].
        { destruct ys as [|y ys]; [injection E as <-; left; auto|]. right. left.
          destruct (Z.leb_spec p (be_value (y :: ys))) as [G'|G']; [injection E as <-|contradiction]. repeat split; assumption || discriminate. }
        destruct (Z.eqb_spec tag 2) as [T2|T2], (Z.eqb_spec tag 3) as [T3|T3]; cbn [orb] in E;
          try (destruct ys as [|y ys]; [contradiction|injection E as <-; left; split; [right; split; [auto|discriminate]|reflexivity]]).
        right. right. injection E as <-. split; [|reflexivity]. cbn [In]. lia.
    - intros [(L & ->)|(tag & xs & ys & Fr & C)]; [exact (O1 L)|]. rewrite (frm _ _ _ Fr). unfold sec1_form, full_y.
      destruct C as [(G & ->)|(G & C)]; [destruct (Z.leb_spec p (be_value xs)); [reflexivity|lia]|].
      destruct (Z.leb_spec p (be_value xs)); [lia|].
      destruct C as [(-> & ->)|[([(-> & ->)|([-> | ->] & N)] & ->)|[(-> & N & G' & ->)|(N & ->)]]]; cbn [Z.eqb Pos.eqb orb].
      + reflexivity.
      + reflexivity.
      + destruct ys; [contradiction|reflexivity].
      + destruct ys; [contradiction|reflexivity].
      + destruct ys; [contradiction|]. destruct (Z.leb_spec p (be_value (z :: ys))); [reflexivity|lia].
      + cbn [In] in N. destruct (Z.eqb_spec tag 0), (Z.eqb_spec tag 4), (Z.eqb_spec tag 2), (Z.eqb_spec tag 3); cbn [orb]; lia || reflexivity.
  Qed.

  Variable on : Z -> Z -> Prop.
  Hypothesis half_panics : forall tag xv m, 0 <= xv < p -> (half tag xv = Panic m <-> m = "not valid point"%string /\ forall y, ~ on xv y).
  Hypothesis full_panics : forall xv yv m, 0 <= xv < p -> 0 <= yv < p -> (full xv yv = Panic m <-> m = "not valid point"%string /\ ~ on xv yv).
  Hypothesis bytes : Forall is_byte buf.
  Lemma generic_panic m : D = Panic m <-> sec1_panic p n on buf m.
  Proof.
    destruct other as [O1 O2].
    assert (PX : forall tag xs ys, framed n buf tag xs ys -> 0 <= be_value xs /\ 0 <= be_value ys).
    { intros tag xs ys (E & _). rewrite E in bytes. inversion bytes as [|? ? _ B]; subst. apply Forall_app in B. destruct B as [B1 B2].
      split; apply be_value_bound; assumption. }
    split.
    - intro E. destruct three as [L|[L|(tag & xs & ys & Fr)]].
      + rewrite (O1 L) in E. discriminate E.
      + rewrite (O2 L) in E. injection E as <-. left. auto.
      + right. rewrite (frm _ _ _ Fr) in E. destruct (PX _ _ _ Fr) as [P1 P2]. unfold sec1_form, full_y in E.
        destruct (Z.leb_spec p (be_value xs)) as [G|G]; [discriminate E|].
        destruct (Z.eqb_spec tag 0) as [T0|T0]; [discriminate E|].
        destruct (Z.eqb_spec tag 4) as [T4|T4].
        { destruct ys as [|y ys]; [discriminate E|].
          destruct (Z.leb_spec p (be_value (y :: ys))) as [G'|G']; [discriminate E|].
          apply full_panics in E; [|lia|lia]. destruct E as [-> N]. split; [reflexivity|]. exists tag, xs, (y :: ys). split; [exact Fr|].
          split; [exact G|]. right. repeat split; assumption || discriminate. }
        destruct ((tag =? 2) || (tag =? 3)) eqn:T; [|discriminate E]. destruct ys as [|y ys]; [|discriminate E].
        apply half_panics in E; [|lia]. destruct E as [-> N]. split; [reflexivity|]. exists tag, xs, []. split; [exact Fr|].
        split; [exact G|]. left. apply orb_true_iff in T. rewrite !Z.eqb_eq in T. auto.
    - intros [(L & ->)|(-> & tag & xs & ys & Fr & G & C)]; [exact (O2 L)|]. rewrite (frm _ _ _ Fr). destruct (PX _ _ _ Fr) as [P1 P2].
      unfold sec1_form, full_y. destruct (Z.leb_spec p (be_value xs)); [lia|].
      destruct C as [([-> | ->] & -> & N)|(-> & Ny & G' & N)]; cbn [Z.eqb Pos.eqb orb].
      + apply half_panics; auto.
      + apply half_panics; auto.
      + destruct ys; [contradiction|]. destruct (Z.leb_spec p (be_value (z :: ys))); [lia|]. apply full_panics; auto.
  Qed.
End Generic.

(** the root taken with either sign *)
Lemma signed_root p (Hp : prime p) (tag : Z) (s : ZpF p Hp) : exists s' : ZpF p Hp,
  (if negb (tag =? WCurve.sign_tag (sgn0 (fe s))) then neg (fe s) else Ret (fe s)) = Ret (fe s') /\ Fmul s' s' = Fmul s s.
Proof.
  pose proof (prime_ge_2 _ Hp). destruct (negb _).
  - exists (Fopp s). split; [apply neg_fe; lia|apply (WeierP.Fopp_sqr (ZpF p Hp))].
  - exists s. auto.
Qed.
Lemma w_full_panics e : weier e -> forall xv yv m, 0 <= xv < modulus (WCurve.c_f e) -> 0 <= yv < modulus (WCurve.c_f e) ->
  (w_full e xv yv = Panic m <-> m = "not valid point"%string /\ ~ won e (Affine xv yv)).
Proof.
  intro W. destruct (WeierProps.weier_open _ W) as (p & Hp & Hp2 & a & b & ef & ea & eb & NR & WP & WS & WM & WO).
  intros xv yv m. rewrite ef. cbn [modulus]. intros Rx Ry. unfold w_full. rewrite ef. fes.
  destruct (WeierP.new_point_mk p Hp Hp2 a b e ef ea eb (of_Z p xv) (of_Z p yv)) as (t & Ht & EN). rewrite EN.
  rewrite WO in Ht. cbn [ap] in Ht. rewrite !(zv_of_Z p), !Z.mod_small in Ht by assumption.
  destruct t; cbn [bind]; split.
  - discriminate.
  - intros (_ & N). destruct N. apply Ht. reflexivity.
  - intro E. injection E as <-. split; [reflexivity|]. intro O. apply Ht in O. discriminate O.
  - intros (-> & _). reflexivity.
Qed.
Lemma w_half_panics e : weier e -> sqrt_modulus (modulus (WCurve.c_f e)) -> forall tag xv m, 0 <= xv < modulus (WCurve.c_f e) ->
  (w_half e tag xv = Panic m <-> m = "not valid point"%string /\ forall y, ~ won e (Affine xv y)).
Proof.
  intros W Hm. destruct (WeierProps.weier_open _ W) as (p & Hp & Hp2 & a & b & ef & ea & eb & NR & WP & WS & WM & WO).
  intros tag xv m. rewrite ef in *. cbn [modulus] in *. intros Rx. unfold w_half. rewrite ef, ea, eb. fes.
  set (x := of_Z p xv : ZpF p Hp).
  destruct (sqrt_fe p Hp (Fadd (Fmul (Fadd (Fmul x x) a) x) b : ZpF p Hp) Hm) as (s & Es & Hs).
  match goal with |- context [sqrt ?u] => change (sqrt u) with (sqrt (fe (Fadd (Fmul (Fadd (Fmul x x) a) x) b : ZpF p Hp))) end.
  rewrite Es. cbn [bind].
  destruct (signed_root p Hp tag s) as (s' & -> & Sq). cbn [bind].
  destruct (WeierP.new_point_mk p Hp Hp2 a b e ef ea eb x s') as (t & Ht & EN).
  change (fe (of_Z p xv)) with (fe x). rewrite EN.
  assert (Any : (exists y, won e (Affine xv y)) <-> on (ZpF p Hp) F0 a b (Aff _ x s')).
  { split.
    - intros (y & O). assert (Cy : coord p y) by (pose proof O as (_ & Cy & _); rewrite ef in Cy; exact Cy).
      destruct (WeierProps.coord_K p Hp y Cy) as [v ->].
      assert (O' : on (ZpF p Hp) F0 a b (Aff _ x v)) by (apply WO; cbn [ap]; unfold x; rewrite (zv_of_Z p), Z.mod_small by exact Rx; exact O).
      apply (WeierP.on_other _ a b x v); [exact O'|]. rewrite Sq. apply Hs. exists v. apply (WeierP.on_value _ a b x v O').
    - intro O. exists (zv s'). apply WO in O. cbn [ap] in O. unfold x in O. rewrite (zv_of_Z p), Z.mod_small in O by exact Rx. exact O. }
  destruct t; cbn [bind]; split.
  - discriminate.
  - intros (_ & N). exfalso. destruct (proj2 Any (proj1 Ht eq_refl)) as [y O]. exact (N y O).
  - intro E. injection E as <-. split; [reflexivity|]. intros y O. enough (false = true) by discriminate. apply Ht, Any. eauto.
  - intros (-> & _). reflexivity.
Qed.
Lemma m_full_panics e : mont e -> forall xv yv m, 0 <= xv < modulus (MCurve.c_f e) -> 0 <= yv < modulus (MCurve.c_f e) ->
  (m_full e xv yv = Panic m <-> m = "not valid point"%string /\ ~ mon e (Affine xv yv)).
Proof.
  intro W. destruct (MontProps.mont_open _ W) as (p & Hp & Hp2 & a & b & s & ef & ea & eb & es & b1 & NS & NR & WP & WS & WM & WO & WU).
  intros xv yv m. rewrite ef. cbn [modulus]. intros Rx Ry. unfold m_full. rewrite ef. fes.
  destruct (MontP.new_point_mk p Hp Hp2 a b e ef ea eb b1 (of_Z p xv) (of_Z p yv)) as (t & Ht & EN). rewrite EN.
  rewrite WO in Ht. cbn [ap] in Ht. rewrite !(zv_of_Z p), !Z.mod_small in Ht by assumption.
  destruct t; cbn [bind]; split.
  - discriminate.
  - intros (_ & N). destruct N. apply Ht. reflexivity.
  - intro E. injection E as <-. split; [reflexivity|]. intro O. apply Ht in O. discriminate O.
  - intros (-> & _). reflexivity.
Qed.
Lemma m_half_panics e : mont e -> sqrt_modulus (modulus (MCurve.c_f e)) -> forall tag xv m, 0 <= xv < modulus (MCurve.c_f e) ->
  (m_half e tag xv = Panic m <-> m = "not valid point"%string /\ forall y, ~ mon e (Affine xv y)).
Proof.
  intros W Hm. destruct (MontProps.mont_open _ W) as (p & Hp & Hp2 & a & b & s0 & ef & ea & eb & es & b1 & NS & NR & WP & WS & WM & WO & WU).
  intros tag xv m. rewrite ef in *. cbn [modulus] in *. intros Rx. unfold m_half. rewrite ef, ea, eb. fes. rewrite b1.
  set (x := of_Z p xv : ZpF p Hp).
  destruct (sqrt_fe p Hp (MontP.rhs (ZpF p Hp) a x) Hm) as (s & Es & Hs).
  match goal with |- context [sqrt ?u] => change (sqrt u) with (sqrt (fe (MontP.rhs (ZpF p Hp) a x))) end.
  rewrite Es. cbn [bind].
  destruct (signed_root p Hp tag s) as (s' & -> & Sq). cbn [bind].
  destruct (MontP.new_point_mk p Hp Hp2 a b e ef ea eb b1 x s') as (t & Ht & EN).
  change (fe (of_Z p xv)) with (fe x). rewrite EN.
  assert (Any : (exists y, mon e (Affine xv y)) <-> on (ZpF p Hp) a F1 F0 (Aff _ x s')).
  { split.
    - intros (y & O). assert (Cy : coord p y) by (pose proof O as (_ & Cy & _); rewrite ef in Cy; exact Cy).
      destruct (WeierProps.coord_K p Hp y Cy) as [v ->].
      assert (O' : on (ZpF p Hp) a F1 F0 (Aff _ x v)) by (apply WO; cbn [ap]; unfold x; rewrite (zv_of_Z p), Z.mod_small by exact Rx; exact O).
      apply (MontP.on_other _ a x). rewrite Sq. apply Hs. exists v. apply (MontP.on_value _ a x v O').
    - intro O. exists (zv s'). apply WO in O. cbn [ap] in O. unfold x in O. rewrite (zv_of_Z p), Z.mod_small in O by exact Rx. exact O. }
  destruct t; cbn [bind]; split.
  - discriminate.
  - intros (_ & N). exfalso. destruct (proj2 Any (proj1 Ht eq_refl)) as [y O]. exact (N y O).
  - intro E. injection E as <-. split; [reflexivity|]. intros y O. enough (false = true) by discriminate. apply Ht, Any. eauto.
  - intros (-> & _). reflexivity.
Qed.

(** *** C72 *)
(** the text of the error, on every curve over a prime field and every list of numbers *)
Lemma c72_weier_error : forall e buf n m, prime (modulus (WCurve.c_f e)) -> byte_size (modulus (WCurve.c_f e)) n ->
  (WCurve.decode e buf = Ret (Err m) <-> sec1_error (modulus (WCurve.c_f e)) n buf m).
Proof.
  intros e buf n m Hp Hs. destruct (size_n _ _ Hp Hs) as [En Hn].
  apply (generic_error _ n buf _ (w_half e) (w_full e) Hn (w_other e buf n Hp Hs)).
  - intros tag xs ys. apply (w_form e buf n tag xs ys Hp Hs).
  - intros tag xv yv m'. apply w_no_err.
Qed.
Lemma c72_mont_error : forall e buf n m, prime (modulus (MCurve.c_f e)) -> byte_size (modulus (MCurve.c_f e)) n ->
  (MCurve.decode e buf = Ret (Err m) <-> sec1_error (modulus (MCurve.c_f e)) n buf m).
Proof.
  intros e buf n m Hp Hs. destruct (size_n _ _ Hp Hs) as [En Hn].
  apply (generic_error _ n buf _ (m_half e) (m_full e) Hn (m_other e buf n Hp Hs)).
  - intros tag xs ys. apply (m_form e buf n tag xs ys Hp Hs).
  - intros tag xv yv m'. apply m_no_err.
Qed.
(** the text of the panic *)
Lemma c72_weier_panic : forall e buf n m, weier e -> sqrt_modulus (modulus (WCurve.c_f e)) -> Forall is_byte buf ->
  byte_size (modulus (WCurve.c_f e)) n ->
  (WCurve.decode e buf = Panic m <-> sec1_panic (modulus (WCurve.c_f e)) n (fun x y => won e (Affine x y)) buf m).
Proof.
  intros e buf n m W Hm B Hs. pose proof (proj1 W) as Hp. destruct (size_n _ _ Hp Hs) as [En Hn].
  apply (generic_panic _ n buf _ (w_half e) (w_full e) Hn (w_other e buf n Hp Hs)); [| | |exact B].
  - intros tag xs ys. apply (w_form e buf n tag xs ys Hp Hs).
  - intros tag xv m'. apply (w_half_panics e W Hm).
  - intros xv yv m'. apply (w_full_panics e W).
Qed.
Lemma c72_mont_panic : forall e buf n m, mont e -> sqrt_modulus (modulus (MCurve.c_f e)) -> Forall is_byte buf ->
  byte_size (modulus (MCurve.c_f e)) n ->
  (MCurve.decode e buf = Panic m <-> sec1_panic (modulus (MCurve.c_f e)) n (fun x y => mon e (Affine x y)) buf m).
Proof.
  intros e buf n m W Hm B Hs. pose proof (proj1 W) as Hp. destruct (size_n _ _ Hp Hs) as [En Hn].
  apply (generic_panic _ n buf _ (m_half e) (m_full e) Hn (m_other e buf n Hp Hs)); [| | |exact B].
  - intros tag xs ys. apply (m_form e buf n tag xs ys Hp Hs).
  - intros tag xv m'. apply (m_half_panics e W Hm).
  - intros xv yv m'. apply (m_full_panics e W).
Qed.
Section EdCases.
  Variable p : Z.
  Hypothesis Hp : prime p.
  Hypothesis Hp2 : 2 < p.
  Local Notation K := (ZpF p Hp).
  Variables a d : K.
  Variable e : ECurve.Curve.
  Hypothesis ef : ECurve.c_f e = mkFp p.
  Hypothesis ea : ECurve.c_a e = fe a.
  Hypothesis ed : ECurve.c_d e = fe d.
  Hypothesis AS : exists s : K, Fmul s s = a.
  Hypothesis AN : a <> F0.
  Hypothesis DN : forall s : K, Fmul s s <> d.
  Hypothesis Hm : sqrt_modulus p.
  (** the text, or a point, or a panic of new_point *)
  Lemma ed_cases buf : Forall is_byte buf -> Z.of_nat (List.length buf) = ECurve.enc_size (mkFp p) -> exists y s,
    le_value buf = y + s * 2 ^ (8 * ECurve.enc_size (mkFp p) - 1) /\ 0 <= y < 2 ^ (8 * ECurve.enc_size (mkFp p) - 1) /\ 0 <= s <= 1 /\
    ((p <= y /\ ECurve.decode e buf = Ret (Err "Invalid y value chosen"))
     \/ (y < p /\ s = 1 /\ (p | y * y - 1) /\ ECurve.decode e buf = Ret (Err "Failed decoding on square root"))
     \/ (y < p /\ ~ (s = 1 /\ (p | y * y - 1)) /\ ((exists Q, ECurve.decode e buf = Ret (Ok Q)) \/ ECurve.decode e buf = Panic "not valid point"))).
  Proof.
    intros B L. destruct (EdwP.decode_text p Hp Hp2 a d e ef ea ed buf B L) as (y & s & V & Ry & Rs & ED).
    exists y, s. split; [exact V|]. split; [exact Ry|]. split; [exact Rs|].
    destruct (Z.leb_spec p y) as [G|G]; [left; auto|right].
    assert (XX : EdwP.xx K a d (of_Z p y) = F0 <-> (p | y * y - 1)).
    { rewrite (EdwProps.xx_zero K a d AS AN DN). rewrite <- of_Z_div by lia. rewrite of_Z_mul. reflexivity. }
    destruct (EdwP.sqrt_fe_nz p Hp (EdwP.xx K a d (of_Z p y)) Hm) as (r & Es & Nz & Sq). rewrite Es in ED. cbn [bind] in ED.
    rewrite ef in ED. rewrite zero_fe in ED by lia. cbn [bind] in ED.
    assert (R0 : fpelt_eqb (fe r) (fe (of_Z p 0)) = true <-> (p | y * y - 1)).
    { rewrite fpelt_eqb_fe, <- XX. split; intro H.
      - destruct (Feqd (EdwP.xx K a d (of_Z p y)) F0) as [X|X]; [exact X|destruct (Nz X H)].
      - apply (Fsqr_zero K). rewrite Sq; [exact H|]. exists F0. rewrite H. apply Zp_eq. reflexivity. }
    destruct (fpelt_eqb (fe r) (fe (of_Z p 0)) && (s =? 1)) eqn:T.
    - left. apply andb_true_iff in T. rewrite R0, Z.eqb_eq in T. destruct T. auto.
    - right. split; [exact G|]. split.
      { intros (S1 & D). apply R0 in D. rewrite D, S1 in T. discriminate T. }
      rewrite EdwP.sign_bit_fe in ED by exact Hp2.
      assert (exists s' : K, (if negb (zv r mod 2 =? s) then neg (fe r) else Ret (fe r)) = Ret (fe s')) as (s' & En)
        by (destruct (negb _); [exists (Fopp r); apply neg_fe; lia|exists r; reflexivity]).
      rewrite En in ED. cbn [bind] in ED.
      destruct (EdwP.new_point_mk p Hp Hp2 a d e ef ea ed s' (of_Z p y)) as (t & Ht & EN). rewrite EN in ED.
      destruct t; cbn [bind] in ED; [left; eauto|right; exact ED].
  Qed.
End EdCases.
Lemma c72_edw_error : forall e buf n m, edw e -> sqrt_modulus (modulus (ECurve.c_f e)) -> Forall is_byte buf ->
  ed_size (modulus (ECurve.c_f e)) n ->
  (ECurve.decode e buf = Ret (Err m) <-> ed_error (modulus (ECurve.c_f e)) n buf m).
Proof.
  intros e buf n m W Hm B Hn.
  destruct (EdwProps.edw_open _ W) as (p & Hp & Hp2 & a & d & ef & ea & ed & AS & AN & DN & _).
  rewrite ef in Hn, Hm |- *. cbn [modulus] in Hn, Hm |- *. rewrite (EdwP.ed_size_unique p Hp2 n Hn).
  destruct (Z.eq_dec (Z.of_nat (List.length buf)) (ECurve.enc_size (mkFp p))) as [L|L].
  - destruct (ed_cases p Hp Hp2 a d e ef ea ed AS AN DN Hm buf B L) as (y & s & V & Ry & Rs & C). split.
    + intro E. right. split; [exact L|]. exists y, s. do 3 (split; [assumption|]).
      destruct C as [(G & E')|[(G & S1 & D & E')|(_ & _ & [(Q & E')|E'])]]; rewrite E' in E; try discriminate E; injection E as <-; auto 10.
    + intros [(N & _)|(_ & y' & s' & V' & Ry' & Rs' & C')]; [contradiction|]. rewrite V in V'.
      apply (EdwP.split_unique p) in V'; [|lia|lia|lia|lia]. destruct V' as [<- <-].
      destruct C as [(G & E')|[(G & S1 & D & E')|(G & N & _)]], C' as [(G' & ->)|(G' & S1' & D' & ->)]; try lia; try assumption.
      destruct N. auto.
  - rewrite (EdwP.decode_len p e ef buf L). split.
    + intro E. injection E as <-. left. auto.
    + intros [(_ & ->)|(L' & _)]; [reflexivity|contradiction].
Qed.
(** every panic of the Edwards decoder (its inputs are in C39) comes from the check of the new point *)
Lemma c72_edw_panic : forall e buf m, edw e -> sqrt_modulus (modulus (ECurve.c_f e)) -> Forall is_byte buf ->
  ECurve.decode e buf = Panic m -> m = "not valid point"%string.
Proof.
  intros e buf m W Hm B E.
  destruct (EdwProps.edw_open _ W) as (p & Hp & Hp2 & a & d & ef & ea & ed & AS & AN & DN & _).
  rewrite ef in Hm. cbn [modulus] in Hm.
  destruct (Z.eq_dec (Z.of_nat (List.length buf)) (ECurve.enc_size (mkFp p))) as [L|L].
  - destruct (ed_cases p Hp Hp2 a d e ef ea ed AS AN DN Hm buf B L) as (y & s & V & Ry & Rs & C).
    destruct C as [(G & E')|[(G & S1 & D & E')|(_ & _ & [(Q & E')|E'])]]; rewrite E' in E; try discriminate E. injection E as <-. reflexivity.
  - rewrite (EdwP.decode_len p e ef buf L) in E. discriminate E.
Qed.
(** the small curves modulo 7, 19 and 29: every kind of refusal *)
Example c72_ex :
  byte_size 19 1 /\ ed_size 29 1
  /\ map (MCurve.decode MontProps.E19) [[]; [4; 20; 1]; [0; 7]; [4; 7]; [2; 7; 6]; [4; 7; 19]; [5; 7]] =
     map (fun m => Ret (Err m)) ["Wrong input buffer size."; "Invalid x coordinate"; "Point at infinity should just be a single zero byte";
       "Invalid bytes for deserialization"; "Invalid bytes for deserialization"; "Invalid y coordinate"; "Invalid tag specified"]%string
  /\ map (MCurve.decode MontProps.E19) [[0]; [4; 7; 5]; [2; 1]] =
     map Panic ["range end index out of range for slice"; "not valid point"; "not valid point"]%string
  /\ map (WCurve.decode WeierProps.E7) [[]; [4; 8; 1]; [0; 6]; [4; 6]; [3; 6; 6]; [4; 6; 7]; [5; 6]] =
     map (fun m => Ret (Err m)) ["Wrong input buffer size."; "Invalid x coordinate"; "Point at infinity should just be a single zero byte";
       "Invalid bytes for deserialization"; "Invalid bytes for deserialization"; "Invalid y coordinate"; "Invalid tag specified"]%string
  /\ map (ECurve.decode EdwProps.E29) [[1; 1]; [29]; [129]] =
     map (fun m => Ret (Err m)) ["Wrong input buffer size."; "Invalid y value chosen"; "Failed decoding on square root"]%string
  /\ ECurve.decode EdwProps.E29 [2] = Panic "not valid point".
Proof. split; [repeat split; lia|]. split; [repeat split; lia|]. vm_compute. repeat split. Qed.
