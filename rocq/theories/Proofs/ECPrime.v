(** A primality criterion from elliptic curves (Goldwasser and Kilian), with a checker that runs on limbs.
    If some point of a curve modulo N has prime order q modulo every prime factor of N, and (q - 1)^2 > 4 N,
    then N is prime: a prime factor P <= sqrt N would leave room for at most P < (q - 1) / 2 x-coordinates. *)
From Coq Require Import ZArith Znumtheory Lia Bool List Ring Field Uint63.
From Verif.Math Require Import Fld Zp Pow Residue ECGroup Limb LimbF Pock.
From Verif.Proofs Require Import CurveP InstP.
Import ListNotations.
Open Scope Z_scope.

(** *** Jacobian doubling, mixed addition and comparison with -(x, y) *)
Definition jdbl : list ins := [IM 0 0; IM 2 2; IM 0 0; IM 5 5; IM 0 0; IM 5 3; IA 0 0; IA 0 0; IA 7 7; IA 0 8; IM 13 5; IA 1 0; IM 0 0; IA 5 5; IS 1 0; IA 7 1; IS 0 3; IM 5 0; IA 15 15; IA 0 0; IA 0 0; IS 3 0; IM 23 24; IA 0 0; IM 9 28; IM 3 29].
Definition jdbl_o : list nat := [1; 0; 2]%nat.
Definition jadd : list ins := [IM 2 2; IM 4 0; IM 1 4; IM 7 0; IS 2 4; IS 1 6; IM 1 1; IM 2 0; IM 8 1; IM 3 3; IA 1 1; IS 1 3; IS 0 1; IA 4 2; IA 0 6; IS 0 5; IM 10 0; IM 18 9; IS 1 0; IM 21 14; IM 7 26; IM 2 27].
Definition jadd_o : list nat := [1; 0; 2]%nat.
Definition jfin : list ins := [IM 2 2; IM 4 0; IM 1 4; IM 7 0; IS 4 2; IA 6 1].
Definition jfin_o : list nat := [1; 0]%nat.

Section Alg.
  Variable K : Fld.
  Add Field KF : (Fth K).
  Open Scope fld_scope.
  Hypothesis two : (2 : K) <> 0.
  Variable a : K.
  Definition jrep (s : list K) (P : pt K) : Prop :=
    match s, P with
    | [X; Y; Z], Aff _ x y => X = x * (Z * Z) /\ Y = y * (Z * Z * Z)
    | _, _ => False
    end.
  Definition jz (s : list K) : K := match s with [_; _; Z] => Z | _ => 0 end.
  Lemma jdbl_eq X Y Z : stepF K jdbl jdbl_o [X; Y; Z; a; 1] =
    let B := Y * Y in let S0 := X * B in let S := (S0 + S0) + (S0 + S0) in let A := X * X in let ZZ := Z * Z in
    let M := A + A + A + a * (ZZ * ZZ) in let X3 := M * M - (S + S) in let C := B * B in let C2 := C + C in let C4 := C2 + C2 in
    [X3 * 1; (M * (S + (S + S) - M * M) - (C4 + C4)) * 1; Y * Z + Y * Z].
  Proof. reflexivity. Qed.
  Lemma jadd_eq X Y Z x2 y2 : stepF K jadd jadd_o [X; Y; Z; x2; y2; a; 1] =
    let ZZ := Z * Z in let H := x2 * ZZ - X in let R := y2 * (ZZ * Z) - Y in let HH := H * H in let V := X * HH in
    let X3 := R * R - H * HH - (V + V) in [X3 * 1; (R * (V + (V + V) + H * HH - R * R) - Y * (H * HH)) * 1; Z * H].
  Proof. reflexivity. Qed.
  Lemma jfin_eq X Y Z x y : stepF K jfin jfin_o [X; Y; Z; x; y] = [X - x * (Z * Z); Y + y * (Z * Z * Z)].
  Proof. reflexivity. Qed.
  Lemma jdbl_ok X Y Z P : (Z <> 0 -> jrep [X; Y; Z] P) -> jz (stepF K jdbl jdbl_o [X; Y; Z; a; 1]) <> 0 ->
    jrep (stepF K jdbl jdbl_o [X; Y; Z; a; 1]) (padd K 0 a P P).
  Proof.
    rewrite jdbl_eq. intro H. cbv zeta. cbn [jz jrep]. intro N.
    assert (NZ : Z <> 0) by (intro E; apply N; rewrite E; ring).
    assert (NY : Y <> 0) by (intro E; apply N; rewrite E; ring).
    specialize (H NZ). destruct P as [|x y]; [destruct H|]. cbn [jrep] in H. destruct H as [EX EY].
    assert (Ny : y <> 0) by (intro E; apply NY; rewrite EY, E; ring).
    rewrite padd_dbl by assumption. unfold third. clear N NY.
    set (l := dcubic K 0 a x / (2 * y)).
    assert (El : l * (2 * y) = dcubic K 0 a x) by (apply Fdiv_mul; apply Fmul_nonzero; assumption). clearbody l.
    set (M := X * X + X * X + X * X + a * (Z * Z * (Z * Z))).
    assert (EM : M = l * (2 * y) * (Z * Z * (Z * Z))) by (rewrite El; unfold M, dcubic; rewrite EX; ring). clearbody M.
    set (B := Y * Y). assert (EB : B = y * y * (Z * Z * Z * (Z * Z * Z))) by (unfold B; rewrite EY; ring). clearbody B.
    set (X3 := M * M - _). assert (E3 : X3 = (l * l - (x + x)) * ((Y * Z + Y * Z) * (Y * Z + Y * Z))) by (unfold X3; rewrite EM, EX, EB, EY; ring).
    clearbody X3. split.
    - rewrite E3. ring.
    - rewrite EM, EB, EX, EY. ring.
  Qed.
  Lemma jadd_ok X Y Z P x2 y2 : (Z <> 0 -> jrep [X; Y; Z] P) -> jz (stepF K jadd jadd_o [X; Y; Z; x2; y2; a; 1]) <> 0 ->
    jrep (stepF K jadd jadd_o [X; Y; Z; x2; y2; a; 1]) (padd K 0 a P (Aff K x2 y2)).
  Proof.
    rewrite jadd_eq. intro H. cbv zeta. cbn [jz jrep]. intro N.
    assert (NZ : Z <> 0) by (intro E; apply N; rewrite E; ring).
    specialize (H NZ). destruct P as [|x y]; [destruct H|]. cbn [jrep] in H. destruct H as [EX EY].
    assert (Nx : x <> x2) by (intro E; apply N; rewrite EX, E; ring).
    rewrite padd_gen by assumption. unfold third. clear N.
    set (l := (y2 - y) / (x2 - x)).
    assert (El : l * (x2 - x) = y2 - y) by (apply Fdiv_mul; apply Fsub_nonzero; congruence). clearbody l.
    set (H := x2 * (Z * Z) - X). assert (EH : H = (x2 - x) * (Z * Z)) by (unfold H; rewrite EX; ring). clearbody H.
    set (R := y2 * (Z * Z * Z) - Y). assert (ER : R = l * H * Z).
    { transitivity ((y2 - y) * (Z * Z * Z)); [unfold R; rewrite EY; ring|]. rewrite <- El, EH. ring. }
    clearbody R. set (X3 := R * R - _ - _).
    assert (E3 : X3 = (l * l - x - x2) * (Z * H * (Z * H))).
    { unfold X3. rewrite ER. transitivity (l * l * (Z * H * (Z * H)) - (H + X + X) * (H * H)); [ring|].
      transitivity (l * l * (Z * H * (Z * H)) - (x + x2) * (Z * Z) * (H * H)); [|ring]. f_equal. f_equal. rewrite EH, EX. ring. }
    clearbody X3. split.
    - rewrite E3. ring.
    - rewrite ER, EH, EY, EX. ring.
  Qed.
  Lemma jfin_ok X Y Z P x y : Z <> 0 -> jrep [X; Y; Z] P -> stepF K jfin jfin_o [X; Y; Z; x; y] = [0; 0] -> P = Aff K x (- y).
  Proof.
    rewrite jfin_eq. intros NZ H E. destruct P as [|x' y']; [destruct H|]. cbn [jrep] in H. destruct H as [-> ->].
    assert (N3 : Z * Z * Z <> 0) by (repeat apply Fmul_nonzero; exact NZ).
    assert (N2 : Z * Z <> 0) by (repeat apply Fmul_nonzero; exact NZ).
    assert (E1 := f_equal (fun l => nth 0 l 0) E). assert (E2 := f_equal (fun l => nth 1 l 0) E). cbn [nth] in E1, E2. clear E.
    f_equal.
    - apply (Fcancel_l K (Z * Z)); [exact N2|]. apply (proj1 (Fsub_zero K _ _)). etransitivity; [|exact E1]. ring.
    - apply (Fcancel_l K (Z * Z * Z)); [exact N3|]. apply (proj1 (Fsub_zero K _ _)). etransitivity; [|exact E2]. ring.
  Qed.
  Lemma disc_nonsing (b : K) : 2 * 2 * (a * a * a) + 3 * 3 * 3 * (b * b) <> 0 -> forall x, cubic K 0 a b x = 0 -> dcubic K 0 a x <> 0.
  Proof.
    intros N x E D. apply N. unfold cubic, dcubic in *.
    assert (Ea : a = - (3 * (x * x))). { apply (proj1 (Fsub_zero K _ _)). etransitivity; [|exact D]. ring. }
    assert (Eb : b = 2 * (x * x * x)). { apply (proj1 (Fsub_zero K _ _)). etransitivity; [|exact E]. rewrite Ea. ring. }
    rewrite Ea, Eb. ring.
  Qed.
  Lemma rep1_aux (x y : K) : x = x * (1 * 1) /\ y = y * (1 * 1 * 1). Proof. split; ring. Qed.
End Alg.

(** *** counting *)
Lemma nodup_map_in {A B} (f : A -> B) (l : list A) : (forall x y, In x l -> In y l -> f x = f y -> x = y) -> NoDup l -> NoDup (map f l).
Proof.
  intros H N. induction N as [|x l NI N IH]; cbn [map]; constructor.
  - intro I. apply in_map_iff in I. destruct I as (y & E & Iy). apply NI. rewrite (H x y); [exact Iy|left; reflexivity|right; exact Iy|symmetry; exact E].
  - apply IH. intros u v Iu Iv. apply H; right; assumption.
Qed.
Lemma nodup_bound (l : list Z) n : 0 <= n -> NoDup l -> (forall x, In x l -> 0 <= x < n) -> Z.of_nat (length l) <= n.
Proof.
  intros Hn H I. assert (L : (length (map Z.to_nat l) <= length (seq 0 (Z.to_nat n)))%nat).
  { apply NoDup_incl_length.
    - apply nodup_map_in; [|exact H]. intros x y Ix Iy E. apply I in Ix, Iy. lia.
    - intros x Hx. apply in_map_iff in Hx. destruct Hx as (y & <- & Iy). apply I in Iy. apply in_seq. lia. }
  rewrite map_length, seq_length in L. lia.
Qed.

Section Count.
  Variable P : Z.
  Hypothesis HP : prime P.
  Hypothesis HP2 : 2 < P.
  Local Notation K := (ZpF P HP).
  Variables a b : K.
  Hypothesis NS : forall x, cubic K F0 a b x = F0 -> dcubic K F0 a x <> F0.
  Variable A : pt K.
  Hypothesis OA : on K F0 a b A.
  Variable q : Z.
  Hypothesis Hq : prime q.
  Hypothesis HA : A <> Inf K.
  Hypothesis HqA : nmul P HP F0 a (Z.to_nat q) A = Inf K.
  Local Notation mul n := (nmul P HP F0 a n A).
  Lemma two_P : (Fadd F1 F1 : K) <> F0. Proof. apply two_K, HP2. Qed.
  Lemma mul_on n : on K F0 a b (mul n). Proof. apply on_nmul; assumption. Qed.
  Lemma mul_q n : mul n = Inf K -> (q | Z.of_nat n).
  Proof.
    intro E. assert (q1 : 1 < q) by (destruct Hq; assumption).
    destruct (Zdivide_dec q (Z.of_nat n)) as [|D]; [assumption|exfalso]. apply HA.
    assert (RP : rel_prime q (Z.of_nat n)) by (apply prime_rel_prime; assumption).
    apply rel_prime_sym, rel_prime_bezout in RP. destruct RP as [u v EB].
    set (u' := u mod q).
    assert (EU : exists k, 0 <= k /\ u' * Z.of_nat n = 1 + k * q).
    { exists (((u mod q) * Z.of_nat n - 1) / q).
      assert (D' : (q | u' * Z.of_nat n - 1)).
      { exists (- v - (u / q) * Z.of_nat n). unfold u'. pose proof (Z.div_mod u q ltac:(lia)). nia. }
      destruct D' as [c Ec]. assert (Ec' : (u mod q * Z.of_nat n - 1) / q = c) by (symmetry; apply Z.div_unique_exact; [lia|fold u'; lia]).
      rewrite Ec'. split; [|lia]. assert (0 <= u') by (apply Z.mod_pos_bound; lia).
      assert (u' <> 0). { intro Z0. rewrite Z0 in Ec. assert (D1 : (q | 1)) by (exists (- c); lia). apply Z.divide_1_r_nonneg in D1; lia. }
      assert (Z.of_nat n <> 0). { intro Z0. apply D. rewrite Z0. apply Z.divide_0_r. }
      nia. }
    destruct EU as (k & Hk & EU).
    assert (H1 : mul (Z.to_nat u' * n)%nat = Inf K).
    { rewrite <- (nmul_mul P HP HP2 F0 a b NS) by exact OA. rewrite E. clear. induction (Z.to_nat u'); [reflexivity|]. cbn [nmul]. rewrite IHn. reflexivity. }
    assert (H2 : mul (Z.to_nat k * Z.to_nat q)%nat = Inf K).
    { rewrite <- (nmul_mul P HP HP2 F0 a b NS) by exact OA. rewrite HqA. clear. induction (Z.to_nat k); [reflexivity|]. cbn [nmul]. rewrite IHn. reflexivity. }
    assert (EN : (Z.to_nat u' * n = Z.to_nat k * Z.to_nat q + 1)%nat).
    { assert (0 <= u') by (apply Z.mod_pos_bound; lia). apply Nat2Z.inj. rewrite Nat2Z.inj_add, !Nat2Z.inj_mul, !Z2Nat.id by lia. lia. }
    rewrite EN, <- (nmul_add P HP HP2 F0 a b NS), H2 in H1 by exact OA. exact H1.
  Qed.
  Definition xof (B : pt K) : Z := match B with Inf _ => 0 | Aff _ x _ => zv x end.
  Lemma x_distinct i j : 0 < Z.of_nat i -> Z.of_nat i < Z.of_nat j -> 2 * Z.of_nat j < q -> xof (mul i) <> xof (mul j).
  Proof.
    intros Hi Hij Hj E.
    assert (NI : forall n, 0 < Z.of_nat n < q -> exists x y, mul n = Aff K x y).
    { intros n Hn. destruct (mul n) as [|x y] eqn:M; [|eauto]. apply mul_q in M. apply Z.divide_pos_le in M; lia. }
    destruct (NI i ltac:(lia)) as (xi & yi & Ei). destruct (NI j ltac:(lia)) as (xj & yj & Ej).
    rewrite Ei, Ej in E. cbn [xof] in E. apply Zp_eq in E. subst xj.
    pose proof (mul_on i) as Oi. pose proof (mul_on j) as Oj.
    assert (C : mul i = mul j \/ mul i = popp K (mul j)).
    { rewrite Ei in Oi |- *. rewrite Ej in Oj |- *. destruct (same_x K F0 a b _ _ _ Oi Oj) as [->| ->]; [left|right]; reflexivity. }
    destruct C as [C|C].
    - assert (M : mul (j - i) = Inf K).
      { apply (padd_neutral_unique K F0 a b two_P NS (mul i)); try apply mul_on.
        rewrite (nmul_add P HP HP2 F0 a b NS) by exact OA. replace (i + (j - i))%nat with j by lia. symmetry. exact C. }
      apply mul_q in M. apply Z.divide_pos_le in M; lia.
    - assert (M : mul (i + j) = Inf K).
      { rewrite <- (nmul_add P HP HP2 F0 a b NS) by exact OA. rewrite C. apply padd_opp_l. }
      apply mul_q in M. apply Z.divide_pos_le in M; lia.
  Qed.
  Lemma order_bound : (q - 1) / 2 <= P.
  Proof.
    assert (q1 : 1 < q) by (destruct Hq; assumption).
    set (h := (q - 1) / 2). assert (Hh : 2 * h < q) by (unfold h; pose proof (Z.div_mod (q - 1) 2 ltac:(lia)); pose proof (Z.mod_pos_bound (q - 1) 2 ltac:(lia)); lia).
    assert (h0 : 0 <= h) by (apply Z.div_pos; lia).
    set (l := map (fun i => xof (mul i)) (seq 1 (Z.to_nat h))).
    replace h with (Z.of_nat (length l)) by (unfold l; rewrite map_length, seq_length; lia).
    apply nodup_bound; [lia| |].
    - unfold l. apply nodup_map_in; [|apply seq_NoDup]. intros i j Hi Hj E. apply in_seq in Hi, Hj.
      destruct (Nat.lt_trichotomy i j) as [L|[L|L]]; [exfalso|exact L|exfalso].
      + apply (x_distinct i j); try lia; exact E.
      + apply (x_distinct j i); try lia; symmetry; exact E.
    - intros x Hx. unfold l in Hx. apply in_map_iff in Hx. destruct Hx as (i & <- & _). destruct (mul i) as [|x y]; cbn [xof]; [lia|].
      apply zv_range. lia.
  Qed.
End Count.

Lemma forall2_2 {A B} (T : A -> B -> Prop) l b1 b2 : Forall2 T l [b1; b2] -> exists a1 a2, l = [a1; a2] /\ T a1 b1 /\ T a2 b2.
Proof. intro H. inversion H as [|a1 ? l1 ? H1 G1]; subst. inversion G1 as [|a2 ? l2 ? H2 G2]; subst. inversion G2; subst. eauto. Qed.
Lemma forall2_3 {A B} (T : A -> B -> Prop) l b1 b2 b3 : Forall2 T l [b1; b2; b3] -> exists a1 a2 a3, l = [a1; a2; a3] /\ T a1 b1 /\ T a2 b2 /\ T a3 b3.
Proof. intro H. inversion H as [|a1 ? l1 ? H1 G1]; subst. destruct (forall2_2 _ _ _ _ G1) as (a2 & a3 & -> & H2 & H3). eauto 8. Qed.
(** *** the checker; N may be composite, so limbs are read modulo a prime factor P *)
Section Mod.
  Variables (N P : Z).
  Hypothesis HP : prime P.
  Hypothesis HD : (P | N).
  Local Notation K := (ZpF P HP).
  Variable C : ctx.
  Hypothesis HC : ctx_ok C = true.
  Hypothesis HM : md C = N.
  Variable k : list int.
  Hypothesis Hk : mult_ok C k = true.
  Definition RP (l : list int) (x : K) : Prop := exists z, R C l z /\ x = of_Z P z.
  Lemma RP_mul x1 x2 x3 u v : RP x1 u -> RP x2 v -> mm C x1 x2 = Some x3 -> RP x3 (Fmul u v).
  Proof. intros (y & Ry & ->) (z & Rz & ->) E. exists (y * z). split; [exact (R_mul C HC _ _ _ _ _ Ry Rz E)|symmetry; apply of_Z_mul]. Qed.
  Lemma RP_add x1 x2 x3 u v : RP x1 u -> RP x2 v -> madd x1 x2 = Some x3 -> RP x3 (Fadd u v).
  Proof. intros (y & Ry & ->) (z & Rz & ->) E. exists (y + z). split; [exact (R_add C _ _ _ _ _ Ry Rz E)|symmetry; apply of_Z_add]. Qed.
  Lemma RP_sub x1 x2 x3 u v : RP x1 u -> RP x2 v -> msub k x1 x2 = Some x3 -> RP x3 (Fsub u v).
  Proof. intros (y & Ry & ->) (z & Rz & ->) E. exists (y - z). split; [exact (R_sub C HC k _ _ _ _ _ Hk Ry Rz E)|symmetry; apply of_Z_sub]. Qed.
  Lemma RP_enc l : Forall2 RP (map (enc C) l) (map (of_Z P) l).
  Proof. induction l as [|z l IH]; constructor; [exists z; split; [apply enc_R, HC|reflexivity]|exact IH]. Qed.
  Lemma P_pos : 1 < P. Proof. destruct HP; assumption. Qed.
  Lemma RP_repr l x : RP l x -> repr C l 0 = true -> x = F0.
  Proof.
    intros (z & Rz & ->) E. apply (R_iff C HC _ _ _ Rz) in E. rewrite HM in E.
    assert (D : (P | z - 0)) by (eapply Z.divide_trans; eassumption).
    change (of_Z P z = of_Z P 0). apply of_Z_div; [pose proof P_pos; lia|exact D].
  Qed.
  Lemma RP_unit l x : RP l x -> Z.gcd (V l) N = 1 -> x <> F0.
  Proof.
    intros (z & (_ & Dz) & ->) G E. change (of_Z P z = of_Z P 0) in E. apply of_Z_div in E; [|pose proof P_pos; lia].
    rewrite HM in Dz. assert (D : (P | V l)).
    { replace (V l) with ((V l - z * rad C) + (z - 0) * rad C) by ring. apply Z.divide_add_r; [apply Z.divide_trans with N; assumption|apply Z.divide_mul_l, E]. }
    assert (D1 : (P | Z.gcd (V l) N)) by (apply Z.gcd_greatest; assumption). rewrite G in D1. pose proof P_pos. apply Z.divide_1_r_nonneg in D1; lia.
  Qed.
End Mod.

Definition ec_check (N a b x y q sl km : Z) : bool :=
  let C := make_s N sl in let k := limbs (nl C) (km * N) in
  ctx_ok C && (md C =? N) && mult_ok C k && (4 * N <? (q - 3) * (q - 3)) && (2 <? q)
  && ((y * y - (x * x * x + a * x + b)) mod N =? 0) && (Z.gcd (4 * (a * a * a) + 27 * (b * b)) N =? 1)
  && match dval 1 (tl (digits (q - 1))) with Some m => m =? q - 1 | None => false end
  && match lad C k jdbl jadd jdbl_o jadd_o [enc C x; enc C y] [enc C x; enc C (- y)] [enc C a; enc C 1] (tl (digits (q - 1))) [enc C x; enc C y; enc C 1] with
     | Some [X; Y; Z] => (Z.gcd (V Z) N =? 1) && match step C k jfin jfin_o [X; Y; Z; enc C x; enc C y] with
        | Some [u; v] => repr C u 0 && repr C v 0 | _ => false end
     | _ => false end.
Theorem ec_prime N a b x y q sl km : ec_check N a b x y q sl km = true -> prime q -> prime N.
Proof.
  unfold ec_check. set (C := make_s N sl). set (k := limbs (nl C) (km * N)). set (ds := tl (digits (q - 1))).
  rewrite !andb_true_iff. intros ((((((((HC & HM) & Hk) & HB) & H2) & HG) & HS) & HDV) & HL) Hq.
  apply Z.eqb_eq in HM, HG, HS. apply Z.ltb_lt in HB, H2.
  destruct (ctx_open C HC) as (_ & _ & _ & _ & ODD & N1). rewrite HM in N1, ODD.
  destruct (prime_dec N) as [|NP]; [assumption|exfalso].
  destruct (small_factor N N1 NP) as (P & HP & DP & LP).
  assert (P1 : 1 < P) by (destruct HP; assumption).
  assert (P2 : 2 < P). { assert (P <> 2); [|lia]. intros ->. destruct DP as [c ->]. rewrite Z.odd_mul, andb_false_r in ODD. discriminate. }
  set (O := of_Z P : Z -> ZpF P HP).
  pose proof (two_K P HP P2) as two.
  assert (NS : forall x0, cubic (ZpF P HP) F0 (O a) (O b) x0 = F0 -> dcubic (ZpF P HP) F0 (O a) x0 <> F0).
  { apply disc_nonsing. intro E.
    assert (D : (P | 4 * (a * a * a) + 27 * (b * b))).
    { replace (4 * (a * a * a) + 27 * (b * b)) with ((1 + 1) * (1 + 1) * (a * a * a) + (1 + 1 + 1) * (1 + 1 + 1) * (1 + 1 + 1) * (b * b) - 0) by ring.
      apply of_Z_div; [lia|]. pushZ. exact E. }
    assert (D1 : (P | Z.gcd (4 * (a * a * a) + 27 * (b * b)) N)) by (apply Z.gcd_greatest; assumption).
    rewrite HS in D1. apply Z.divide_1_r_nonneg in D1; lia. }
  set (A := Aff (ZpF P HP) (O x) (O y)).
  assert (OA : on (ZpF P HP) F0 (O a) (O b) A).
  { apply Zmod_divide in HG; [|lia]. assert (HG' : (P | y * y - (x * x * x + a * x + b))) by (eapply Z.divide_trans; eassumption).
    apply of_Z_div in HG'; [|lia]. unfold A, on, cubic. rewrite <- (wc_aux (ZpF P HP)). revert HG'. pushZ. exact (fun h => h). }
  destruct (dval 1 ds) as [m|] eqn:EDV; [|discriminate]. apply Z.eqb_eq in HDV. subst m.
  destruct (lad C k jdbl jadd jdbl_o jadd_o [enc C x; enc C y] [enc C x; enc C (- y)] [enc C a; enc C 1] ds [enc C x; enc C y; enc C 1]) as [st|] eqn:EL; [|discriminate].
  set (Inv := fun (n : Z) (s : list (ZpF P HP)) => exists X Y Z, s = [X; Y; Z] /\ (Z <> F0 -> jrep _ s (nmul P HP F0 (O a) (Z.to_nat n) A))).
  destruct (lad_ok (ZpF P HP) C k (RP P HP C) (RP_mul P HP C HC) (RP_add P HP C) (RP_sub P HP C HC k Hk)
    jdbl jadd jdbl_o jadd_o _ _ _ _ _ _ (RP_enc P HP C HC [x; y]) (RP_enc P HP C HC [x; - y]) (RP_enc P HP C HC [a; 1]) Inv)
    with (n := 1) (m := q - 1) (ds := ds) (st := map (enc C) [x; y; 1]) (s := map O [x; y; 1]) (st' := st) as (s' & Hs' & HI).
  - intros n s Hn (X & Y & Z & -> & H). change (Inv (2 * n) (stepF (ZpF P HP) jdbl jdbl_o [X; Y; Z; O a; F1])). pose proof (jdbl_eq (ZpF P HP) (O a) X Y Z) as EJ. cbv zeta in EJ. do 3 eexists. split; [exact EJ|]. intro NZ.
    replace (Z.to_nat (2 * n)) with (Z.to_nat n + Z.to_nat n)%nat by lia. rewrite <- (nmul_add P HP P2 F0 (O a) (O b) NS) by exact OA.
    apply jdbl_ok; [exact two|exact H|]. rewrite EJ. exact NZ.
  - intros n s Hn (X & Y & Z & -> & H). change (Inv (n + 1) (stepF (ZpF P HP) jadd jadd_o [X; Y; Z; O x; O y; O a; F1])). pose proof (jadd_eq (ZpF P HP) (O a) X Y Z (O x) (O y)) as EJ. cbv zeta in EJ. do 3 eexists. split; [exact EJ|]. intro NZ.
    replace (Z.to_nat (n + 1)) with (S (Z.to_nat n)) by lia. cbn [nmul].
    apply jadd_ok; [exact H|]. rewrite EJ. exact NZ.
  - intros n s Hn (X & Y & Z & -> & H). change (Inv (n - 1) (stepF (ZpF P HP) jadd jadd_o [X; Y; Z; O x; O (- y); O a; F1])). pose proof (jadd_eq (ZpF P HP) (O a) X Y Z (O x) (O (- y))) as EJ. cbv zeta in EJ. do 3 eexists. split; [exact EJ|]. intro NZ.
    replace (nmul P HP F0 (O a) (Z.to_nat (n - 1)) A) with (padd (ZpF P HP) F0 (O a) (nmul P HP F0 (O a) (Z.to_nat n) A) (Aff (ZpF P HP) (O x) (O (- y)))).
    + apply jadd_ok; [exact H|]. rewrite EJ. exact NZ.
    + replace (Z.to_nat n) with (S (Z.to_nat (n - 1))) by lia. cbn [nmul].
      replace (Aff (ZpF P HP) (O x) (O (- y))) with (popp (ZpF P HP) A) by (unfold A, O; cbn [popp]; f_equal; symmetry; apply of_Z_opp).
      rewrite (padd_assoc (ZpF P HP) F0 (O a) (O b) two NS); [|apply on_nmul; assumption|exact OA|apply on_popp, OA].
      rewrite padd_opp_r. apply padd_inf_r.
  - lia.
  - apply RP_enc, HC.
  - exists (O x), (O y), (O 1). split; [reflexivity|]. intros _. cbn [Z.to_nat Pos.to_nat Pos.iter_op nmul padd A jrep]. apply rep1_aux.
  - exact EDV.
  - exact EL.
  - destruct HI as (X & Y & Z & -> & HI).
    destruct (forall2_3 _ _ _ _ _ Hs') as (lx & ly & lz & -> & HX & HY & HZ).
    apply andb_true_iff in HL. destruct HL as [HL1 HL2]. apply Z.eqb_eq in HL1.
    pose proof (RP_unit N P HP DP C HM _ _ HZ HL1) as NZ. specialize (HI NZ).
    destruct (step C k jfin jfin_o [lx; ly; lz; enc C x; enc C y]) as [uv|] eqn:EF; [|discriminate].
    assert (HE : Forall2 (RP P HP C) [lx; ly; lz; enc C x; enc C y] [X; Y; Z; O x; O y]).
    { do 3 (constructor; [assumption|]). apply (RP_enc P HP C HC [x; y]). }
    pose proof (step_ok (ZpF P HP) C k (RP P HP C) (RP_mul P HP C HC) (RP_add P HP C) (RP_sub P HP C HC k Hk) _ _ _ _ _ HE EF) as HF.
    rewrite jfin_eq in HF. destruct (forall2_2 _ _ _ _ HF) as (u & v & -> & HU & HV).
    apply andb_true_iff in HL2. destruct HL2 as [U0 V0].
    pose proof (RP_repr N P HP DP C HC HM _ _ HU U0) as EU. pose proof (RP_repr N P HP DP C HC HM _ _ HV V0) as EV.
    assert (EM : nmul P HP F0 (O a) (Z.to_nat (q - 1)) A = popp (ZpF P HP) A).
    { apply (jfin_ok (ZpF P HP) X Y Z _ (O x) (O y) NZ HI). rewrite jfin_eq. f_equal; [exact EU|]. f_equal. exact EV. }
    assert (EQ : nmul P HP F0 (O a) (Z.to_nat q) A = Inf (ZpF P HP)).
    { replace (Z.to_nat q) with (S (Z.to_nat (q - 1))) by lia. cbn [nmul]. rewrite EM. apply padd_opp_l. }
    pose proof (order_bound P HP P2 (O a) (O b) NS A OA q Hq ltac:(discriminate) EQ) as B.
    pose proof (Z.div_mod (q - 1) 2 ltac:(lia)). pose proof (Z.mod_pos_bound (q - 1) 2 ltac:(lia)). nia.
Qed.
