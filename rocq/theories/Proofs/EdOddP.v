(** Edwards curves with exceptional pairs: Math/EdOdd.v on the code. *)
From Coq Require Import ZArith Znumtheory Lia String Bool List Arith Ring Field.
From Verif.Math Require Import Fld Zp Residue Edwards ECGroup Iso2 EdOdd.
From Verif.Math Require Birat2.
From Verif.Spec Require Import Arith Curve Exceptions.
From Verif.Model Require Import Out BigInt PrimeField Scalar ECurve.
From Verif.Proofs Require Import FieldP FieldProps BytesP CurveP LadderP EdwP ExcepP.
Import ListNotations.
Open Scope Z_scope.

Section Alg.
  Variable K : Fld.
  Add Field KF : (Fth K).
  Open Scope fld_scope.
  Variables a d : K.
  Lemma o_Ha : a * (2 * 2) = 2 * (a + d) + 2 * (a - d). Proof. ring. Qed.
  Lemma o_Hd : d * (2 * 2) = 2 * (a + d) - 2 * (a - d). Proof. ring. Qed.
  Lemma o_disc : (2 : K) <> 0 -> a <> 0 -> d <> 0 -> 2 * (a + d) * (2 * (a + d)) - 2 * 2 * ((a - d) * (a - d)) <> 0.
  Proof.
    intros two Ha Hd Z. apply (Fmul_nonzero K (2 * 2 * (2 * 2)) (a * d)).
    - repeat apply Fmul_nonzero; assumption.
    - apply Fmul_nonzero; assumption.
    - rewrite <- Z. ring.
  Qed.
  (** a pair at which the law is undefined, beside any point off the axes *)
  Lemma undef_sq (s x y : K) : s * s = d -> s <> 0 -> x <> 0 -> y <> 0 -> eon K a d (x, y) ->
    eon K a d (1 / (s * y), 1 / (s * x)) /\ 1 - d * exy K (1 / (s * y), 1 / (s * x)) (x, y) = 0.
  Proof.
    intros <- Ns Nx Ny H. unfold exy. cbn in *. split; [|field; repeat split; assumption].
    transitivity ((a * (x * x) + y * y) / (s * s * (x * x) * (y * y))); [field; repeat split; assumption|].
    rewrite H. field. repeat split; assumption.
  Qed.
  Lemma undef_nsq (s x y : K) : s * s = a * d -> s <> 0 -> a <> 0 -> d <> 0 -> x <> 0 -> y <> 0 -> eon K a d (x, y) ->
    eon K a d (1 / (s * x), a / (s * y)) /\ 1 - d * exy K (1 / (s * x), a / (s * y)) (x, y) = 0.
  Proof.
    intros E Ns Na Nd Nx Ny H. unfold exy. cbn in *. split.
    - transitivity (a * (a * (x * x) + y * y) / (s * s * (x * x) * (y * y))); [field; repeat split; assumption|].
      rewrite H.
      transitivity (1 + d * (a * a) / ((s * s) * (s * s) * (x * x) * (y * y))); [|field; repeat split; assumption].
      rewrite E. field. repeat split; assumption.
    - transitivity (1 - a * d / (s * s)); [field; repeat split; assumption|]. rewrite E. field. repeat split; assumption.
  Qed.
  Lemma axis (P Q : K * K) : fst Q * snd Q = 0 -> 1 + d * exy K P Q = 1 /\ 1 - d * exy K P Q = 1.
  Proof.
    intro Z. assert (E : exy K P Q = 0) by (unfold exy; transitivity (fst P * snd P * (fst Q * snd Q)); [ring|rewrite Z; ring]).
    rewrite E. split; ring.
  Qed.
  Lemma prod_nz (x y : K) : x * y <> 0 -> x <> 0 /\ y <> 0.
  Proof. intro N. split; intro Z; apply N; rewrite Z; ring. Qed.
  Lemma sq_nz (s x : K) : s * s = x -> x <> 0 -> s <> 0.
  Proof. intros <- N ->. apply N. ring. Qed.
  (** the equations of a tuple survive the addition formulas, whether or not it is a point *)
  Lemma etest_add X1 Y1 T1 Z1 X2 Y2 T2 Z2 : etest K a d X1 Y1 T1 Z1 -> etest K a d X2 Y2 T2 Z2 ->
    let '(x, y, t, z) := code_add K a d X1 Y1 T1 Z1 X2 Y2 T2 Z2 in etest K a d x y t z.
  Proof.
    unfold etest, code_add. intros [R1 Q1] [R2 Q2]. split; [|ring].
    apply (proj1 (Fsub_zero K _ _)) in R1, Q1, R2, Q2.
    assert (H : (Y1 * Y2 - a * (X1 * X2)) * (X1 * Y2 - Y1 * X2) = Z1 * T1 * (T2 * T2 * d + Z2 * Z2) - Z2 * T2 * (T1 * T1 * d + Z1 * Z1)).
    { rewrite <- R1, <- R2. transitivity (X1 * Y1 * (X2 * X2 * a + Y2 * Y2) - X2 * Y2 * (X1 * X1 * a + Y1 * Y1)); [ring|]. rewrite Q1, Q2. ring. }
    assert (FV : (Z1 * Z2 - d * T1 * T2) * (Z1 * T2 - T1 * Z2) = - (Z1 * T1 * (T2 * T2 * d + Z2 * Z2) - Z2 * T2 * (T1 * T1 * d + Z1 * Z1))) by ring.
    rewrite <- H in FV. clear H.
    set (F := Z1 * Z2 - d * T1 * T2) in *. set (H := Y1 * Y2 - a * (X1 * X2)) in *. set (W := X1 * Y2 - Y1 * X2) in *. set (V := Z1 * T2 - T1 * Z2) in *.
    set (G := Z1 * Z2 + d * T1 * T2). set (E := X1 * Y2 + Y1 * X2).
    assert (EH : a * (E * E) + H * H = (X1 * X1 * a + Y1 * Y1) * (X2 * X2 * a + Y2 * Y2)) by (unfold E, H; ring).
    rewrite R1, R2 in EH.
    assert (GV : (T1 * T1 * d + Z1 * Z1) * (T2 * T2 * d + Z2 * Z2) = G * G + d * (V * V)) by (unfold G, V; ring).
    assert (GF : G * G - F * F = d * (E * E) - d * (W * W)).
    { transitivity (2 * 2 * d * (T1 * Z1) * (T2 * Z2)); [unfold G, F; ring|]. rewrite <- Q1, <- Q2. unfold E, W. ring. }
    rewrite GV in EH. clear GV.
    transitivity (F * F * (a * (E * E)) + H * H * (G * G) - (d * (E * E) * (H * H) + F * F * (G * G))); [unfold E, H, F, G; ring|].
    assert (EE : a * (E * E) = G * G + d * (V * V) - H * H) by (rewrite <- EH; ring).
    rewrite EE. assert (DE : d * (E * E) = G * G - F * F + d * (W * W)) by (rewrite GF; ring). rewrite DE.
    transitivity (d * ((F * V) * (F * V) - (H * W) * (H * W))); [ring|]. rewrite FV. ring.
  Qed.
  Lemma etest_opp X Y T Z : etest K a d X Y T Z -> etest K a d (- X) Y (- T) Z.
  Proof. unfold etest. intros [R Q]. split; [rewrite <- R; ring|]. transitivity (- (X * Y - T * Z)); [ring|rewrite Q; ring]. Qed.
  Lemma etest_iff X Y T Z : etest K a d X Y T Z <-> X * Y = T * Z /\ a * (X * X) + Y * Y = Z * Z + d * (T * T).
  Proof.
    unfold etest. rewrite !(Fsub_zero K). replace (X * X * a + Y * Y) with (a * (X * X) + Y * Y) by ring.
    replace (T * T * d + Z * Z) with (Z * Z + d * (T * T)) by ring. tauto.
  Qed.
  Lemma etest_zero : etest K a d 0 1 0 1. Proof. unfold etest. split; ring. Qed.
  Lemma mul_0_l (x : K) : 0 * x = 0. Proof. ring. Qed.
  Lemma mul_0_r (x : K) : x * 0 = 0. Proof. ring. Qed.
  Lemma sub_nz (x y : K) : x <> y -> x - y <> 0. Proof. intros N Z. apply N. apply (Fsub_zero K), Z. Qed.
End Alg.

Section O.
  Variable p : Z.
  Hypothesis Hp : prime p.
  Hypothesis Hp2 : 2 < p.
  Local Notation K := (ZpF p Hp).
  Variables a d : K.
  Hypothesis a_nz : a <> F0.
  Hypothesis d_nz : d <> F0.
  Hypothesis ad : a <> d.
  Local Notation two := (two_K p Hp Hp2).
  Local Notation mC := (Fadd F1 F1 : K).
  Local Notation mA := (Fmul (Fadd F1 F1) (Fadd a d) : K).
  Local Notation mE := (Fsub a d : K).
  Local Notation on := (on K mA (Fmul mE mE) F0).
  Local Notation padd := (padd K mA (Fmul mE mE)).
  Local Notation nmul := (nmul p Hp mA (Fmul mE mE)).
  Local Notation alpha := (Birat2.alpha K mC mE).
  Local Notation beta := (beta K mC mE).
  Local Notation fin := (fin K mE).
  Local Notation eon := (Edwards.eon K a d).
  Local Notation eadd := (Edwards.eadd K a d).
  Local Notation zz := (zz p Hp).
  Local Notation e_nz := (sub_nz K a d ad).
  Local Notation Ha := (o_Ha K a d).
  Local Notation Hd := (o_Hd K a d).
  Lemma o_ns : forall x : K, cubic K mA (Fmul mE mE) F0 x = F0 -> dcubic K mA (Fmul mE mE) x <> F0.
  Proof. apply (nonsing_of K mA (Fmul mE mE)); [apply Fmul_nonzero; exact e_nz|apply o_disc; [exact two|assumption|assumption]]. Qed.
  Lemma o_assoc P Q R : on P -> on Q -> on R -> padd (padd P Q) R = padd P (padd Q R).
  Proof. intros. apply (padd_assoc K mA (Fmul mE mE) F0); try assumption; [exact two|exact o_ns]. Qed.
  Lemma o_comm P Q : on P -> on Q -> padd P Q = padd Q P.
  Proof. apply (padd_comm K mA (Fmul mE mE) F0). Qed.
  Lemma o_on P Q : on P -> on Q -> on (padd P Q).
  Proof. apply (on_padd K mA (Fmul mE mE) F0 two). Qed.
  Lemma o_onmul n P : on P -> on (nmul n P).
  Proof. apply (on_nmul p Hp Hp2 mA (Fmul mE mE) F0). Qed.
  Lemma o_add m n P : on P -> padd (nmul m P) (nmul n P) = nmul (m + n) P.
  Proof. apply (nmul_add p Hp Hp2 mA (Fmul mE mE) F0 o_ns). Qed.
  Lemma o_mul m n P : on P -> nmul m (nmul n P) = nmul (m * n) P.
  Proof. apply (nmul_mul p Hp Hp2 mA (Fmul mE mE) F0 o_ns). Qed.
  Lemma o_mulI n : nmul n (Inf K) = Inf K.
  Proof. induction n as [|n IH]; [reflexivity|]. cbn [CurveP.nmul]. rewrite IH. reflexivity. Qed.
  Lemma o_mulS n P Q : on P -> on Q -> nmul n (padd P Q) = padd (nmul n P) (nmul n Q).
  Proof.
    intros HP HQ. induction n as [|n IH]; [reflexivity|]. cbn [CurveP.nmul]. rewrite IH.
    pose proof (o_onmul n P HP) as A. pose proof (o_onmul n Q HQ) as B.
    rewrite !o_assoc by auto using o_on. f_equal. rewrite <- !o_assoc by auto using o_on. f_equal. apply o_comm; assumption.
  Qed.
  Lemma o_mulO n P : on P -> nmul n (popp K P) = popp K (nmul n P).
  Proof.
    intro HP. induction n as [|n IH]; [reflexivity|]. cbn [CurveP.nmul]. rewrite IH. symmetry.
    apply (popp_padd K mA (Fmul mE mE) F0); [exact two|apply o_onmul, HP|exact HP].
  Qed.

  Lemma mul_sum m n M N : on M -> on N -> nmul m M = Inf K -> nmul n N = Inf K -> nmul (m * n) (padd M N) = Inf K.
  Proof.
    intros HM HN Em En.
    rewrite o_mulS by assumption. rewrite <- (o_mul m n N HN), En, o_mulI. rewrite Nat.mul_comm, <- (o_mul n m M HM), Em, o_mulI. reflexivity.
  Qed.
  Definition odd (M : pt K) : Prop := exists n, Nat.Odd n /\ nmul n M = Inf K.
  Lemma odd_inf : odd (Inf K). Proof. exists 1%nat. split; [exists O; reflexivity|reflexivity]. Qed.
  Lemma odd_add M N : on M -> on N -> odd M -> odd N -> odd (padd M N).
  Proof.
    intros HM HN (m & Om & Em) (n & On & En). exists (m * n)%nat. split; [apply Nat.odd_spec; rewrite Nat.odd_mul; apply andb_true_intro; split; apply Nat.odd_spec; assumption|].
    apply mul_sum; assumption.
  Qed.
  Lemma odd_opp M : on M -> odd M -> odd (popp K M).
  Proof. intros HM (m & Om & Em). exists m. split; [exact Om|]. rewrite o_mulO, Em by exact HM. reflexivity. Qed.
  Lemma odd_mul k M : on M -> odd M -> odd (nmul k M).
  Proof. intros HM O. induction k as [|k IH]; [exact odd_inf|]. cbn [CurveP.nmul]. apply odd_add; auto using o_onmul. Qed.
  Lemma fin_dec M : fin M \/ ~ fin M.
  Proof.
    destruct M as [|u v]; [left; exact I|]. cbn. destruct (Feqd v (F0 : K)), (Feqd u (F0 : K)), (Feqd (Fadd u mE) (F0 : K)); tauto.
  Qed.
  Lemma odd_fin M : on M -> odd M -> fin M.
  Proof.
    intros HM (n & [k ->] & En). destruct (fin_dec M) as [F|F]; [exact F|]. exfalso. apply F.
    pose proof (not_fin K mA mE two M HM F) as Z.
    assert (E4 : nmul 4 M = Inf K).
    { rewrite <- Z. change 4%nat with (2 + 2)%nat. rewrite <- o_add by exact HM. reflexivity. }
    assert (E : nmul ((2 * k + 1) * (2 * k + 1)) M = M).
    { replace ((2 * k + 1) * (2 * k + 1))%nat with ((k * k + k) * 4 + 1)%nat by lia. rewrite <- o_add by exact HM.
      rewrite <- o_mul, E4, o_mulI by exact HM. reflexivity. }
    rewrite <- o_mul, En, o_mulI in E by exact HM. rewrite <- E. exact I.
  Qed.
  Lemma odd_law M N : on M -> on N -> odd M -> odd N -> ~ edu p Hp d (alpha M) (alpha N) /\ alpha (padd M N) = eadd (alpha M) (alpha N).
  Proof.
    intros HM HN OM ON. pose proof (on_popp K mA (Fmul mE mE) F0 N HN) as HO.
    destruct (undef K a d mA mC mE two e_nz Ha Hd M N HM HN) as [Dp Dm]; try (apply odd_fin; try assumption); try (apply o_on; assumption);
      [apply odd_add; assumption|apply odd_add; try assumption; apply odd_opp; assumption|].
    split; [intros [E|E]; contradiction|].
    apply (def_add K a d mA mC mE two e_nz Ha Hd M N); try assumption; apply odd_fin; assumption.
  Qed.

  Variable e : Curve.
  Hypothesis ef : c_f e = mkFp p.
  Hypothesis ea : c_a e = fe a.
  Hypothesis ed : c_d e = fe d.
  Local Notation es := (edwards_sum p (zv a) (zv d)).
  Lemma sum_def A B C : es (zz A) (zz B) C -> ~ edu p Hp d A B.
  Proof.
    intros S U. apply (edu_zz p Hp Hp2 d e ef ed) in U. unfold e_undefined in U. rewrite ef, ed in U. cbn [modulus val fe] in U.
    destruct A as [x1 y1], B as [x2 y2], C as [x3 y3]. unfold edwards_sum, EdwP.zz in S. cbn [fst snd EdwP.zz] in S, U. tauto.
  Qed.
  Lemma not_edu A B : ~ edu p Hp d A B ->
    Fadd F1 (Fmul d (exy K A B)) <> F0 /\ Fsub F1 (Fmul d (exy K A B)) <> F0.
  Proof. unfold edu. tauto. Qed.
  (** sums that are defined, seen on the other curve *)
  Lemma multiple_beta A n C : eon A -> multiple es (0, 1) (zz A) n C ->
    exists C', C = zz C' /\ eon C' /\ beta C' = nmul n (beta A).
  Proof.
    intro HA. revert C. induction n as [|n IH]; intros C M.
    - inversion M. exists (ezero K). split; [symmetry; apply (zz_zero p Hp Hp2)|]. split; [apply eon_zero|]. apply beta_zero.
    - inversion M as [|m Q R M1 S E1 E2]; subst. destruct (IH Q M1) as (Q' & -> & OQ & EQ).
      pose proof (sum_def _ _ _ S) as U. pose proof S as S0. rewrite (e_sum_any p Hp Hp2 a d Q' A U) in S. subst C.
      destruct (not_edu _ _ U) as [Dp Dm].
      pose proof (beta_add K a d mA mC mE two e_nz Ha Hd Q' A OQ HA Dp Dm) as E.
      exists (eadd Q' A). split; [reflexivity|]. split; [|rewrite E, EQ; reflexivity].
      rewrite <- (alpha_beta K a d mA mC mE two e_nz Ha Hd Q' OQ), <- (alpha_beta K a d mA mC mE two e_nz Ha Hd A HA).
      rewrite <- (alpha_beta K a d mA mC mE two e_nz Ha Hd Q' OQ), <- (alpha_beta K a d mA mC mE two e_nz Ha Hd A HA) in Dp, Dm.
      pose proof (on_beta K a d mA mC mE two e_nz Ha Hd Q' OQ) as B1. pose proof (on_beta K a d mA mC mE two e_nz Ha Hd A HA) as B2.
      destruct (def_add K a d mA mC mE two e_nz Ha Hd (beta Q') (beta A) B1 B2) as [F <-]; try assumption;
        try (apply (fin_beta K a d mA mC mE two e_nz Ha Hd); assumption).
      apply (eon_alpha K a d mA mC mE Ha Hd); [apply o_on; assumption|exact F].
  Qed.
  Lemma order_beta A n : eon A -> multiple es (0, 1) (zz A) n (0, 1) -> nmul n (beta A) = Inf K /\ on (beta A) /\ alpha (beta A) = A.
  Proof.
    intros HA M. split; [|split].
    - destruct (multiple_beta A n _ HA M) as (C' & E & OC & <-).
      rewrite <- (zz_zero p Hp Hp2) in E. assert (ezero K = C') as <-; [|apply beta_zero].
      destruct C' as [x y]. unfold EdwP.zz in E. cbn [fst snd] in E. unfold ezero in E |- *. f_equal; apply Zp_eq; [exact (f_equal fst E)|exact (f_equal snd E)].
    - apply (on_beta K a d mA mC mE two e_nz Ha Hd), HA.
    - apply (alpha_beta K a d mA mC mE two e_nz Ha Hd), HA.
  Qed.
  Lemma odd_multiple M n : on M -> odd M -> forall C, multiple es (0, 1) (zz (alpha M)) n C <-> C = zz (alpha (nmul n M)).
  Proof.
    intros HM OM. induction n as [|n IH]; intro C.
    - assert (E : zz (alpha (nmul 0 M)) = (0, 1)) by exact (zz_zero p Hp Hp2). rewrite E. split; [intro T; inversion T; reflexivity|intros ->; constructor].
    - destruct (odd_law (nmul n M) M (o_onmul n M HM) HM (odd_mul n M HM OM) OM) as [U E]. cbn [CurveP.nmul]. rewrite E. split.
      + intro T. inversion T as [|m Q R M1 S E1 E2]; subst. apply IH in M1. subst Q. rewrite (e_sum_any p Hp Hp2 a d _ _ U) in S. exact S.
      + intros ->. apply mult_S with (zz (alpha (nmul n M))); [apply IH; reflexivity|]. apply (e_sum_any p Hp Hp2 a d _ _ U). reflexivity.
  Qed.
  Lemma odd_pt_add P Q M N : on M -> on N -> odd M -> odd N -> wrep p Hp a d e P (alpha M) -> wrep p Hp a d e Q (alpha N) ->
    exists R, pt_add P Q = Ret R /\ wrep p Hp a d e R (alpha (padd M N)).
  Proof.
    intros HM HN OM ON HP HQ. destruct (odd_law M N HM HN OM ON) as [U E].
    destruct (e_add_any p Hp Hp2 a d e ea ed P Q _ _ HP HQ) as (R & ER & _ & HR). exists R. split; [exact ER|]. rewrite E. exact (HR U).
  Qed.
  Lemma odd_pt_mul oc P M k : on M -> odd M -> wrep p Hp a d e P (alpha M) -> sr k = c_r e -> 0 < sk k -> bits (sk k) < 2 ^ 64 ->
    exists R, pt_mul oc P k = Ret R /\ wrep p Hp a d e R (alpha (nmul (Z.to_nat (sk k)) M)).
  Proof.
    intros HM OM HP Er Hk H64. unfold pt_mul. rewrite (proj1 HP), Er, Z.eqb_refl. cbn [do_if_eq]. unfold core_mul.
    rewrite (proj1 HP). destruct (identity_wrep p Hp Hp2 a d e ef ea ed) as (I0 & -> & HI). cbn [bind].
    apply (scalar_loop (fun n q => wrep p Hp a d e q (alpha (nmul n M)))); [|exact HI|exact Hk|exact H64].
    intros n q t Hq. pose proof (o_onmul n M HM) as HN. pose proof (odd_mul n M HM OM) as ON.
    destruct (odd_pt_add q q _ _ HN HN ON ON Hq Hq) as (D & -> & HD). cbn [bind]. rewrite (o_add n n M HM) in HD. destruct t.
    - destruct (odd_pt_add D P _ M (o_onmul (n + n) M HM) HM (odd_mul (n + n) M HM OM) OM HD HP) as (R & -> & HR). exists R. split; [reflexivity|].
      rewrite Nat.add_1_r. exact HR.
    - exists D. split; [reflexivity|]. rewrite Nat.add_0_r. exact HD.
  Qed.
End O.

(** which curves have no exceptional pair *)
Section C.
  Variable p : Z.
  Hypothesis Hp : prime p.
  Hypothesis Hp2 : 2 < p.
  Local Notation K := (ZpF p Hp).
  Lemma odd_p : p <> 2. Proof. lia. Qed.
  Lemma sq_div (x : K) : (exists s, (p | s * s - zv x)) <-> is_sq p Hp x.
  Proof.
    split.
    - intros [s E]. exists (of_Z p s). apply of_Z_div in E; [|lia]. rewrite of_Z_mul, of_Z_zv in E. exact E.
    - intros [s E]. exists (zv s). apply of_Z_div; [lia|]. rewrite of_Z_mul, !of_Z_zv. exact E.
  Qed.
  Lemma div_nz (x : K) : ~ (p | zv x) -> x <> F0.
  Proof. intros N ->. apply N. exists 0. reflexivity. Qed.
  Lemma div_zero (x : K) : (p | zv x) <-> x = F0.
  Proof.
    rewrite <- (of_Z_zero p) by lia. rewrite of_Z_zv. reflexivity.
  Qed.
  Variables a d : K.
  Hypothesis a_nz : a <> F0.
  Hypothesis d_nz : d <> F0.
  Lemma all_defined : (forall A B, Edwards.eon K a d A -> Edwards.eon K a d B -> ~ edu p Hp d A B) <->
    (is_sq p Hp a /\ ~ is_sq p Hp d) \/ forall x y, Edwards.eon K a d (x, y) -> Fmul x y = F0.
  Proof.
    assert (off : (forall A B, Edwards.eon K a d A -> Edwards.eon K a d B -> ~ edu p Hp d A B) -> ~ (is_sq p Hp a /\ ~ is_sq p Hp d) ->
      forall x y, Edwards.eon K a d (x, y) -> Fmul x y = F0).
    { intros H N x y O. destruct (Feqd (Fmul x y) (F0 : K)) as [Z|Z]; [exact Z|]. exfalso. destruct (prod_nz K x y Z) as [Nx Ny].
      destruct (is_sq_dec p Hp odd_p d) as [[s E]|Nd].
      - destruct (undef_sq K a d s x y E (sq_nz K s d E d_nz) Nx Ny O) as [O1 U]. apply (H _ _ O1 O). right. exact U.
      - destruct (is_sq_dec p Hp odd_p a) as [Sa|Na]; [apply N; split; assumption|].
        destruct (nonsq_mul_nonsq p Hp odd_p a d Na Nd) as [s E].
        destruct (undef_nsq K a d s x y E (sq_nz K s _ E (Fmul_nonzero K a d a_nz d_nz)) a_nz d_nz Nx Ny O) as [O1 U]. apply (H _ _ O1 O). right. exact U. }
    split.
    - intro H. destruct (is_sq_dec p Hp odd_p a) as [Sa|Na]; [|right; apply (off H); tauto].
      destruct (is_sq_dec p Hp odd_p d) as [Sd|Nd]; [right; apply (off H); tauto|]. left. split; assumption.
    - intros [[Sa Nd]|H] A B OA OB.
      + assert (DN : forall s : K, Fmul s s <> d) by (intros s E; apply Nd; exists s; exact E).
        intros [U|U]; [exact (den_plus K a d (two_K p Hp Hp2) Sa DN A B OA OB U)|exact (den_minus K a d (two_K p Hp Hp2) Sa DN A B OA OB U)].
      + destruct B as [x y]. pose proof (H x y OB) as Z. destruct (axis K d A (x, y) Z) as [E1 E2].
        intros [U|U]; [rewrite E1 in U|rewrite E2 in U]; exact (F_1_neq_0 K U).
  Qed.
End C.

(** tuples that satisfy the equations *)
Section T.
  Variable p : Z.
  Hypothesis Hp : prime p.
  Hypothesis Hp2 : 2 < p.
  Local Notation K := (ZpF p Hp).
  Variables a d : K.
  Variable e : Curve.
  Hypothesis ef : c_f e = mkFp p.
  Hypothesis ea : c_a e = fe a.
  Hypothesis ed : c_d e = fe d.
  Local Notation mk := (mk p Hp).
  Definition tup (P : Point) : Prop := exists X Y T Z : K, P = mkPoint e (mk X Y T Z) /\ etest K a d X Y T Z.
  Lemma new_tup X Y T Z : etest K a d X Y T Z -> new_proy_point e (mk X Y T Z) = Ret (mkPoint e (mk X Y T Z)).
  Proof.
    intro H. unfold new_proy_point. destruct (on_curve_mk p Hp Hp2 a d e ea ed X Y T Z) as (b & -> & Hb). cbn [bind].
    apply Hb in H. rewrite H. reflexivity.
  Qed.
  Lemma tup_add P Q : tup P -> tup Q -> exists R, pt_add P Q = Ret R /\ tup R.
  Proof.
    intros (X1 & Y1 & T1 & Z1 & -> & H1) (X2 & Y2 & T2 & Z2 & -> & H2).
    unfold pt_add. cbn [pe]. rewrite curve_eqb_refl. cbn [do_if_eq].
    pose proof (etest_add K a d _ _ _ _ _ _ _ _ H1 H2) as T.
    unfold core_add. cbn [pe pc]. rewrite ea, ed. cbn [px py ptt pz EdwP.mk]. fes.
    match goal with |- context [new_proy_point e ?c] =>
      change c with (let '(x, y, t, z) := code_add K a d X1 Y1 T1 Z1 X2 Y2 T2 Z2 in mk x y t z) end.
    destruct (code_add K a d X1 Y1 T1 Z1 X2 Y2 T2 Z2) as [[[x y] t] z].
    rewrite (new_tup _ _ _ _ T). eexists. split; [reflexivity|]. exists x, y, t, z. split; [reflexivity|exact T].
  Qed.
  Lemma tup_neg P : tup P -> exists R, pt_neg P = Ret R /\ tup R.
  Proof.
    intros (X & Y & T & Z & -> & H). unfold pt_neg, core_neg. cbn [pe pc px py ptt pz EdwP.mk]. fes.
    pose proof (etest_opp K a d _ _ _ _ H) as H'. pose proof (new_tup _ _ _ _ H') as E. eexists. split; [exact E|].
    repeat eexists. exact (proj1 H'). exact (proj2 H').
  Qed.
  Lemma tup_identity : exists R, identity e = Ret R /\ tup R.
  Proof.
    unfold identity. rewrite ef. fes. pose proof (new_tup _ _ _ _ (etest_zero K a d)) as E. eexists. split; [exact E|].
    repeat eexists; apply (etest_zero K a d).
  Qed.
  Lemma tup_mul oc P k : tup P -> sr k = c_r e -> 0 < sk k -> bits (sk k) < 2 ^ 64 -> exists R, pt_mul oc P k = Ret R /\ tup R.
  Proof.
    intros HP Er Hk H64. assert (EP : pe P = e) by (destruct HP as (? & ? & ? & ? & -> & _); reflexivity).
    unfold pt_mul. rewrite EP, Er, Z.eqb_refl. cbn [do_if_eq]. unfold core_mul. rewrite EP.
    destruct tup_identity as (I0 & -> & HI). cbn [bind].
    apply (scalar_loop (fun _ q => tup q)); [|exact HI|exact Hk|exact H64].
    intros n q t Hq. destruct (tup_add q q Hq Hq) as (D & -> & HD). cbn [bind].
    destruct t; [exact (tup_add D P HD HP)|eauto].
  Qed.
  Lemma tup_iff P : e_tuple e P <-> tup P.
  Proof.
    unfold e_tuple, tup. rewrite ef, ea, ed. cbn [modulus val fe].
    assert (Q : forall X Y T Z : K, etest K a d X Y T Z <->
      (p | zv X * zv Y - zv T * zv Z) /\ (p | zv a * (zv X * zv X) + zv Y * zv Y - (zv Z * zv Z + zv d * (zv T * zv T)))).
    { intros. rewrite (etest_iff K). rewrite <- !of_Z_div by lia. pushZ. reflexivity. }
    split.
    - intros (EP & VX & VY & VT & VZ & E). destruct P as [e' [x y t z]]. cbn [pe pc px py ptt pz] in *. subst e'.
      destruct (valid_ex _ _ VX) as [X ->], (valid_ex _ _ VY) as [Y ->], (valid_ex _ _ VT) as [T ->], (valid_ex _ _ VZ) as [Z ->].
      exists X, Y, T, Z. split; [reflexivity|]. apply Q. exact E.
    - intros (X & Y & T & Z & -> & E). apply Q in E. cbn [pe pc px py ptt pz EdwP.mk val fe].
      split; [reflexivity|]. repeat (split; [apply valid_fe; lia|]). exact E.
  Qed.
  Lemma wrep_tup P A : wrep p Hp a d e P A -> tup P.
  Proof.
    intros (EP & (X & Y & T & Z & EC & R) & O). exists X, Y, T, Z. split; [destruct P; cbn in *; congruence|].
    apply (erep_on K a d _ _ _ _ _ R). exact O.
  Qed.
End T.
