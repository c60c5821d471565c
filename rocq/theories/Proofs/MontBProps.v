(** Montgomery curves with a coefficient b other than 1: C33. *)
From Coq Require Import ZArith Znumtheory Lia String Bool List Ring Field.
From Verif.Math Require Import Fld Zp MontB ECGroup.
From Verif.Spec Require Import Arith Curve MPoints Exceptions.
From Verif.Model Require Import Out BigInt PrimeField Scalar MCurve.
From Verif.Proofs Require Import FieldP FieldProps CurveP SmallP.
From Verif.Proofs Require Import BytesP.
From Verif.Proofs Require WeierP WeierProps MontP MontProps ExcepProps.
Import ListNotations.
Open Scope Z_scope.

Section Scale.
  Variable K : Fld.
  Add Field KF : (Fth K).
  Open Scope fld_scope.
  (** the formulas on two representatives of one point *)
  Lemma code_double (a b s x y z w : K) : b * (y * y) = x * x * x + a * (x * x) + x ->
    MontP.code_add K a s (x * z) (y * z) z (x * w) (y * w) w =
    (z * z * (w * w) * dx K a x y, z * z * (w * w) * dy K a x y, z * z * (w * w) * dz K b y).
  Proof.
    intro H. unfold MontP.code_add, dx, dy, dz. f_equal; [f_equal; ring|].
    transitivity (- (2 * y * (z * z * (w * w)) * ((1 + 2) * (x * x * x + a * (x * x) + x) + y * y))); [ring|].
    rewrite <- H. ring.
  Qed.
  Lemma unscale (c u v w : K) : c <> 0 -> c * u = v * (c * w) -> u = v * w.
  Proof. intros Hc E. apply (Fcancel_l K c); [exact Hc|]. rewrite E. ring. Qed.
  Lemma shape_on (a b x y : K) : b * (y * y) = x * x * x + a * (x * x) + 1 * x + 0 -> b * (y * y) = x * x * x + a * (x * x) + x.
  Proof. intros ->. ring. Qed.
  Lemma shape_u (a b x l u : K) : u = b * (l * l) - a - x - x -> u = b * (l * l) - a - 2 * x.
  Proof. intros ->. ring. Qed.
  Lemma dbl (u : K) : 2 * u = u + u. Proof. ring. Qed.
  Lemma mul0 (u : K) : u * 0 = 0. Proof. ring. Qed.
End Scale.

Lemma three_a p (Hp : prime p) (a x : ZpF p Hp) : 2 < p -> Fadd F1 (Fadd F1 F1) = (F0 : ZpF p Hp) ->
  Fmul a (Fmul (Fmul x x) x) = F1 -> (p | zv a * zv a - 4).
Proof.
  intros H2 E3 E. assert (D : p = 3).
  { assert (D : (p | 3 - 0)) by (apply of_Z_div; [lia|]; change 3 with (1 + (1 + 1)); pushZ; exact E3).
    destruct D as [k D]. assert (k = 1) by nia. lia. }
  pose proof (zv_range p a ltac:(lia)) as R. destruct (Z.eq_dec (zv a) 0) as [Z|N].
  - exfalso. apply (F_1_neq_0 (ZpF p Hp)). rewrite <- E. assert (Y : a = F0) by (apply Zp_eq; exact Z). rewrite Y.
    apply (Fcancel_l (ZpF p Hp) F1); [apply F_1_neq_0|]. apply Zp_eq. reflexivity.
  - assert (C : zv a = 1 \/ zv a = 2) by lia. destruct C as [-> | ->]; rewrite D; [exists (-1)|exists 0]; reflexivity.
Qed.

(** on a curve with b <> 1 no addition of a point with y <> 0 to itself returns the double: it panics, or returns something else *)
Lemma c33_doubling_needs_b_one : forall e P Q x y R C, mont_b e -> val (c_b e) <> 1 ->
  mpoint e P (Affine x y) -> mpoint e Q (Affine x y) -> y <> 0 -> msum e (Affine x y) (Affine x y) C ->
  pt_add P Q = Ret R -> ~ mpoint e R C.
Proof.
  intros e P Q x0 y0 R C (Hp & Hp2 & Va & Vb & Vs & B0 & NS) B1 HP HQ Y0 S E HR.
  set (p := modulus (c_f e)) in *.
  assert (ef : c_f e = mkFp p) by (unfold p; destruct (c_f e); reflexivity).
  destruct (valid_ex _ _ Va) as [a ea], (valid_ex _ _ Vb) as [b eb], (valid_ex _ _ Vs) as [s es].
  unfold mpoint, msum in *. fold p in HP, HQ, HR, S. rewrite ea, eb in HP, HQ, HR, S. rewrite eb in B0, B1. rewrite ea in NS.
  cbn [val fe] in *.
  destruct HP as (EP & Vx1 & Vy1 & Vz1 & (Nz1 & DX1 & DY1) & (Cx & Cy & O)), HQ as (EQ & Vx2 & Vy2 & Vz2 & (Nz2 & DX2 & DY2) & _).
  destruct (valid_ex _ _ Vx1) as [X1 EX1], (valid_ex _ _ Vy1) as [Y1 EY1], (valid_ex _ _ Vz1) as [Z1 EZ1].
  destruct (valid_ex _ _ Vx2) as [X2 EX2], (valid_ex _ _ Vy2) as [Y2 EY2], (valid_ex _ _ Vz2) as [Z2 EZ2].
  rewrite EX1, EZ1 in DX1. rewrite EY1, EZ1 in DY1. rewrite EX2, EZ2 in DX2. rewrite EY2, EZ2 in DY2. rewrite EZ1 in Nz1. rewrite EZ2 in Nz2.
  cbn [val fe] in *.
  set (K := ZpF p Hp) in *.
  set (x := of_Z p x0 : K). set (y := of_Z p y0 : K).
  apply of_Z_div in DX1, DY1, DX2, DY2, O; try lia. revert DX1 DY1 DX2 DY2 O. pushZ. intros DX1 DY1 DX2 DY2 O.
  apply (shape_on K) in O. change (of_Z p x0) with x in DX1, DX2, O. change (of_Z p y0) with y in DY1, DY2, O.
  assert (ynz : y <> (F0 : K)).
  { intro Z. apply (of_Z_div p y0 0) in Z; [|lia]. destruct Z as [k Z]. destruct Cy. assert (k = 0) by nia. lia. }
  assert (bnz : b <> (F0 : K)) by (intro Z; apply B0; rewrite Z; reflexivity).
  assert (z1nz : Z1 <> (F0 : K)) by (intro Z; apply Nz1; rewrite Z; reflexivity).
  assert (z2nz : Z2 <> (F0 : K)) by (intro Z; apply Nz2; rewrite Z; reflexivity).
  (* what the code returned *)
  unfold pt_add in E. rewrite EP, EQ, MontP.curve_eqb_refl in E. unfold core_add in E.
  rewrite EP, EX1, EY1, EZ1, EX2, EY2, EZ2, ea, es in E. revert E. fes. cbn [do_if_eq]. intro E.
  match type of E with new_proy_point e ?c = _ =>
    change c with (let '(u, v, w) := MontP.code_add K a s X1 Y1 Z1 X2 Y2 Z2 in MontP.mk p Hp u v w) in E end.
  rewrite DX1, DY1, DX2, DY2 in E.
  change (@zmul p) with (@Fmul K) in E. rewrite (code_double K a b s x y Z1 Z2 O) in E.
  pose (c := Fmul (Fmul (Z1 : K) Z1) (Fmul (Z2 : K) Z2)).
  assert (cnz : c <> F0) by (apply Fmul_nonzero; apply Fmul_nonzero; assumption).
  assert (E' : exists U V W : K, new_proy_point e (MontP.mk p Hp U V W) = Ret R
    /\ U = Fmul c (dx K a x y) /\ V = Fmul c (dy K a x y) /\ W = Fmul c (dz K b y)) by (eexists _, _, _; split; [exact E|auto]).
  clear E. destruct E' as (U & V & W & E & EU & EV & EW). clearbody c.
  unfold new_proy_point in E. destruct (is_on_curve e _) as [[|]|]; [|discriminate E|discriminate E].
  cbn [bind] in E. injection E as <-.
  destruct HR as (_ & _ & _ & _ & HR & _). cbn [pc px py pz MontP.mk val fe] in HR.
  inversion S as [| |u v v' D| u1 v1 u2 v2 l u3 v3 N|u1 v1 l u3 v3 ND Dl T]; subst.
  - exfalso. apply ynz. apply (Fcancel_l K (Fadd F1 F1)); [apply (two_K p Hp Hp2)|].
    rewrite <- (Z.sub_0_r (y0 + y0)) in D. apply of_Z_div in D; [|lia]. revert D. pushZ. intro D. 
    transitivity (Fadd y y); [apply (dbl K)|]. rewrite (mul0 K). exact D.
  - apply N. reflexivity.
  - destruct T as (_ & _ & Tx & Ty). destruct HR as (Wz & Wx & Wy).
    apply of_Z_div in Dl, Tx, Ty, Wx, Wy; try lia. change 3 with (1 + 2) in Dl. change 2 with (1 + 1) in Dl.
    revert Dl Tx Ty Wx Wy. pushZ. intros Dl Tx Ty Wx Wy.
    destruct (double_b K a b x y (two_K p Hp Hp2) bnz ynz O (of_Z p l) (of_Z p u3) (of_Z p v3) Dl (shape_u K _ _ _ _ _ Tx) Ty) as [B|[T3 X3]].
    + intro Z. apply Wz. rewrite Z, mul0. reflexivity.
    + exact (unscale K c _ _ _ cnz Wx).
    + exact (unscale K c _ _ _ cnz Wy).
    + apply B1. rewrite B. change (1 mod p = 1). apply Z.mod_small. lia.
    + apply NS. exact (three_a p Hp a x Hp2 T3 X3).
Qed.
Lemma affine_point e x y : mont_b e -> mon e (Affine x y) -> exists P, mpoint e P (Affine x y).
Proof.
  intros (Hp & Hp2 & _) O. exists (mkPoint e (mkProy (mkFpElt x (c_f e)) (mkFpElt y (c_f e)) (mkFpElt 1 (c_f e)))).
  destruct O as (Cx & Cy & O). unfold coord in Cx, Cy. unfold mpoint. cbn [pe pc px py pz val]. split; [reflexivity|].
  assert (V : forall v, 0 <= v < modulus (c_f e) -> valid (modulus (c_f e)) (mkFpElt v (c_f e)))
    by (intros v Hv; split; [destruct (c_f e); reflexivity|exact Hv]).
  split; [apply V, Cx|]. split; [apply V, Cy|]. split; [apply V; lia|]. split; [|repeat split; assumption || apply Cx || apply Cy].
  split; [discriminate|]. split; [exists 0; lia|exists 0; lia].
Qed.
Lemma tangent_exists e x y : mont_b e -> mon e (Affine x y) -> y <> 0 -> exists C, msum e (Affine x y) (Affine x y) C.
Proof.
  intros (Hp & Hp2 & Va & Vb & Vs & B0 & NS) (Cx & Cy & O) Y. unfold msum. set (p := modulus (c_f e)) in *.
  destruct (valid_ex _ _ Vb) as [b eb]. rewrite eb in *. cbn [val fe] in *.
  set (a := val (c_a e)) in *. clearbody a.
  assert (N : ~ (p | 2 * zv b * y)).
  { pose proof (zv_range p b ltac:(lia)) as Rb. unfold coord in Cy.
    intro D. apply prime_mult in D; [|exact Hp]. destruct D as [D|D]; [apply prime_mult in D; [|exact Hp]; destruct D as [D|D]|];
      apply Z.divide_pos_le in D; lia. }
  pose (num := 3 * (x * x) + 2 * a * x + 1).
  pose (l := Fdiv (of_Z p num : ZpF p Hp) (of_Z p (2 * zv b * y))).
  assert (L : (p | zv l * (2 * zv b * y) - num)).
  { apply of_Z_div; [lia|]. rewrite of_Z_mul, of_Z_zv. apply (Fdiv_mul (ZpF p Hp)).
    intro Z. apply N. rewrite <- (Z.sub_0_r (2 * zv b * y)). apply of_Z_div; [lia|exact Z]. }
  pose (u := zv (of_Z p (zv b * (zv l * zv l) - a - x - x))). pose (v := zv (of_Z p (zv l * (x - u) - y))).
  exists (Affine u v). apply ct_tangent with (zv l); [|exact L|].
  - intro D. apply N. replace (2 * zv b * y) with (zv b * (y + y)) by ring. apply Z.divide_mul_r, D.
  - split; [apply zv_range; lia|]. split; [apply zv_range; lia|].
    split; apply of_Z_div; try lia; unfold u, v; rewrite of_Z_zv; reflexivity.
Qed.
(** on a curve with a point with y <> 0, the addition is right on all pairs exactly when b = 1 and no point has the ordinate s *)
Lemma c33_exact_condition : forall e x y, mont_b e -> mon e (Affine x y) -> y <> 0 ->
  (mont e <-> forall P Q A B, mpoint e P A -> mpoint e Q B ->
     exists R, pt_add P Q = Ret R /\ forall C, mpoint e R C <-> msum e A B C).
Proof.
  intros e x y W O Y. split; [intros H P Q A B; apply MontProps.c33_addition, H|]. intro H.
  destruct (Z.eq_dec (val (c_b e)) 1) as [B1|B1].
  - apply (ExcepProps.c66_mont_condition e); [|exact H]. destruct W as (Hp & Hp2 & Va & Vb & Vs & _ & NS).
    unfold mont_any. auto 10.
  - exfalso. destruct (affine_point e x y W O) as [P HP], (tangent_exists e x y W O Y) as [C HC].
    destruct (H P P _ _ HP HP) as (R & E & HR).
    exact (c33_doubling_needs_b_one e P P x y R C W B1 HP HP Y HC E (proj2 (HR C) HC)).
Qed.
Section DecodeB.
  Variable K : Fld.
  Add Field KF2 : (Fth K).
  Open Scope fld_scope.
  Lemma quot_b (a b x y : K) : b <> 0 -> b * (y * y) = x * x * x + a * (x * x) + x -> ((x + a) * x + 1) * x * (1 / b) = y * y.
  Proof. intros B H. transitivity ((x * x * x + a * (x * x) + x) / b); [field; exact B|]. rewrite <- H. field. exact B. Qed.
  Lemma opp_opp (u : K) : - - u = u. Proof. ring. Qed.
  Lemma eqn_b (a b x y : K) : b * (y * y) = x * x * x + a * (x * x) + x -> b * (y * y) * 1 - x * (x * x + a * x * 1 + 1 * 1) = 0.
  Proof. intro H. rewrite H. ring. Qed.
End DecodeB.
(** reading bytes does not need b = 1: for every b <> 0 decode reads every encoding of every affine point as that point *)
Lemma c35_decode_any_b : forall e buf n c x y, mont_b e -> sqrt_modulus (modulus (c_f e)) -> byte_size (modulus (c_f e)) n ->
  sec1 n x y c buf -> mon e (Affine x y) -> exists Q, decode e buf = Ret (Ok Q) /\ mpoint e Q (Affine x y).
Proof.
  intros e buf n c x0 y0 (Hp & Hp2 & Va & Vb & Vs & B0 & NS) Hm Hn S O.
  set (p := modulus (c_f e)) in *.
  assert (ef : c_f e = mkFp p) by (unfold p; destruct (c_f e); reflexivity).
  destruct (valid_ex _ _ Va) as [a ea], (valid_ex _ _ Vb) as [b eb]. pose proof O as (Cx & Cy & D). fold p in Cx, Cy, D.
  destruct (WeierProps.coord_K p Hp x0 Cx) as [x ->], (WeierProps.coord_K p Hp y0 Cy) as [y ->]. rewrite ea, eb in D. rewrite eb in B0. cbn [val fe] in D, B0.
  set (K := ZpF p Hp) in *. change (Zp p) with (K : Type) in *.
  assert (bnz : b <> (F0 : K)) by (intro Z; apply B0; rewrite Z; reflexivity).
  apply of_Z_div in D; [|lia]. revert D. pushZ. intro D. apply (shape_on K) in D.
  rewrite (WeierProps.size_is_nb p n Hp Hn) in S. pose proof (WeierP.n_pos p Hp2) as Hnp.
  exists (mkPoint e (mkProy (fe x) (fe y) (fe (F1 : K)))). split.
  2:{ unfold mpoint. fold p. cbn [pe pc px py pz]. split; [reflexivity|]. split; [apply valid_fe; lia|]. split; [apply valid_fe; lia|]. split; [apply valid_fe; lia|].
      split; [|exact O]. cbn [val fe]. assert (E1 : zv (F1 : K) = 1) by (change (1 mod p = 1); apply Z.mod_small; lia). rewrite E1.
      split; [discriminate|]. split; [exists 0; lia|exists 0; lia]. }
  assert (NP : new_point e (fe x) (fe y) = Ret (mkPoint e (mkProy (fe x) (fe y) (fe (F1 : K))))).
  { unfold new_point. rewrite ef. fes. change (fe (of_Z p 1)) with (fe (F1 : K)). unfold is_on_curve. cbn [px py pz]. rewrite ea, eb. fes.
    match goal with |- do_if_eq (is_zero (fe ?t)) _ _ = _ => assert (Z : is_zero (fe t) = true) end.
    { rewrite is_zero_fe by lia. exact (eqn_b K a b x y D). }
    rewrite Z. reflexivity. }
  inversion S as [bx Dx Ec Eb|bx by_ Dx Dy Ec Eb]; subst c buf; clear S.
  - set (tag := if Z.even (zv y) then 2 else 3). destruct Dx as (Lx & Bx & Vx).
    assert (Ht : (tag =? 0) = false /\ (tag =? 4) = false /\ (tag =? 2) || (tag =? 3) = true) by (unfold tag; destruct (Z.even (zv y)); auto).
    destruct Ht as (T0 & T4 & T23).
    assert (ED : decode e (tag :: bx) =
      bind (sqrt (fe (Fmul y y : K))) (fun y_sqrt =>
      bind (if negb (tag =? WCurve.sign_tag (sgn0 y_sqrt)) then neg y_sqrt else Ret y_sqrt) (fun y =>
      bind (new_point e (fe x) y) (fun P => Ret (Ok P))))).
    { unfold decode. rewrite ef. cbn [modulus length]. rewrite Nat2Z.inj_succ, Lx.
      replace (Z.succ (size_bytes (mkFp p))) with (size_bytes (mkFp p) + 1) by lia. rewrite Z.eqb_refl, orb_true_r. cbn [orb negb].
      rewrite <- (app_nil_r bx), WeierP.slice_mid by exact Lx. cbn [bind]. rewrite from_bytes_be_value, Vx, T0, T4, T23.
      pose proof (zv_range p x ltac:(lia)). destruct (Z.leb_spec p (zv x)); [lia|]. fes.
      rewrite of_Z_zv, ea, eb. fes. rewrite <- (quot_b K a b x y bnz D). reflexivity. }
    destruct (sqrt_fe p Hp (Fmul y y) Hm) as (r & Es & Hs).
    assert (Sq : Fmul r r = Fmul y y) by (apply Hs; exists y; reflexivity).
    rewrite ED, Es. cbn [bind]. rewrite (WeierP.sign_tag_fe p Hp Hp2).
    assert (En : (if negb (tag =? (if Z.even (zv r) then 2 else 3)) then neg (fe r) else Ret (fe r)) = Ret (fe y)).
    { assert (Z1 : Fmul r r = Fmul y y -> r = y \/ r = Fopp y) by apply (Fsqr_eq K). destruct (Z1 Sq) as [->| ->].
      - unfold tag. rewrite Z.eqb_refl. reflexivity.
      - destruct (Feqd (y : K) F0) as [Y0|Y0].
        + assert (Y1 : Fopp y = (F0 : K)) by (rewrite Y0; apply (WeierP.Fopp_0 K)).
          rewrite Y1. unfold tag. rewrite Y0, Z.eqb_refl. reflexivity.
        + rewrite (WeierP.parity_opp p Hp Hp2) by exact Y0. unfold tag.
          assert (NN : neg (fe (Fopp y : K)) = Ret (fe y)) by (rewrite neg_fe by lia; do 2 f_equal; apply (opp_opp K)).
          destruct (Z.even (zv y)); exact NN. }
    rewrite En. cbn [bind]. rewrite NP. reflexivity.
  - destruct Dx as (Lx & Bx & Vx), Dy as (Ly & Byy & Vy). unfold decode. rewrite ef. cbn [modulus].
    assert (L : Z.of_nat (List.length (4 :: bx ++ by_)%list) = 2 * size_bytes (mkFp p) + 1) by (cbn [List.length]; rewrite app_length; lia).
    rewrite WeierP.slice_end, L by exact Lx. rewrite Z.eqb_refl, !orb_true_r. cbn [negb].
    rewrite WeierP.slice_mid by exact Lx. cbn [bind]. rewrite !from_bytes_be_value, Vx, Vy. cbn [Z.eqb Pos.eqb].
    pose proof (zv_range p x ltac:(lia)). destruct (Z.leb_spec p (zv x)); [lia|].
    pose proof (zv_range p y ltac:(lia)). destruct (Z.leb_spec p (zv y)); [lia|]. fes.
    rewrite !of_Z_zv, NP. reflexivity.
Qed.
(** 4 y^2 = x^3 + 3 x^2 + x modulo 7 has the points (3, 3) and (3, 4) *)
Example c35_any_b_ex :
  let n7 v := mkFpElt v (mkFp 7) in let e := mkCurve (mkFp 7) (n7 3) (n7 4) (n7 1) 3 (n7 3) (n7 3) 1 in
  let P y := Ret (Ok (mkPoint e (mkProy (n7 3) (n7 y) (n7 1)))) in
  decode e [3; 3] = P 3 /\ decode e [2; 3] = P 4 /\ decode e [4; 3; 3] = P 3.
Proof. vm_compute. repeat split. Qed.
(** modulo 7: on 4 y^2 = x^3 + 3 x^2 + x the double of (3,3) is (2,3) and the code returns (5,2); on 2 y^2 = x^3 + x^2 + x it panics *)
Example c33_needs_b_one_ex :
  let n7 v := mkFpElt v (mkFp 7) in
  let e := mkCurve (mkFp 7) (n7 3) (n7 4) (n7 1) 3 (n7 3) (n7 3) 1 in
  let e' := mkCurve (mkFp 7) (n7 1) (n7 2) (n7 1) 3 (n7 3) (n7 3) 1 in
  let P c := mkPoint c (mkProy (n7 3) (n7 3) (n7 1)) in
  let R := mkPoint e (mkProy (n7 4) (n7 3) (n7 5)) in
  mont_b e /\ mpoint e (P e) (Affine 3 3) /\ msum e (Affine 3 3) (Affine 3 3) (Affine 2 3)
  /\ pt_add (P e) (P e) = Ret R /\ mpoint e R (Affine 5 2)
  /\ mont_b e' /\ mpoint e' (P e') (Affine 3 3) /\ pt_add (P e') (P e') = Panic "not valid point".
Proof.
  assert (V : forall v, 0 <= v < 7 -> valid 7 (mkFpElt v (mkFp 7))) by (intros v Hv; split; [reflexivity|exact Hv]).
  assert (H7 : prime 7) by (apply prime_small; reflexivity).
  intros n7 e e' P R.
  assert (M : forall a b, 0 <= a < 7 -> 0 < b < 7 -> ~ (7 | a * a - 4) -> mont_b (mkCurve (mkFp 7) (n7 a) (n7 b) (n7 1) 3 (n7 3) (n7 3) 1)).
  { intros a b Ha Hb N. cbn. split; [exact H7|]. split; [reflexivity|]. split; [apply V; lia|]. split; [apply V; lia|].
    split; [apply V; lia|]. split; [cbn; lia|exact N]. }
  split; [apply M; [lia|lia|intros [k E]; cbn in E; lia]|]. split; [MontProps.in19|]. split.
  { apply ct_tangent with 6; [intros [k E]; change (3 + 3 = k * 7) in E; lia|exists 14; reflexivity|].
    split; [unfold coord; cbn; lia|]; split; [unfold coord; cbn; lia|]; split; [exists (-19); reflexivity|exists 0; reflexivity]. }
  split; [vm_compute; reflexivity|]. split; [MontProps.in19|].
  split; [apply M; [lia|lia|intros [k E]; cbn in E; lia]|]. split; [MontProps.in19|]. vm_compute. reflexivity.
Qed.
