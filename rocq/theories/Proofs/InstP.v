(** Checking a curve's parameters by computation on limbs. *)
From Coq Require Import ZArith Znumtheory Zpow_facts Lia Bool List Ring Field.
From Verif.Math Require Import Fld Zp Pow Residue ECGroup RCB MontAdd Edwards Limb LimbF.
From Verif.Proofs Require Import CurveP.
From Verif.Proofs Require WeierP MontP EdwP.
Import ListNotations.
Open Scope Z_scope.

(** *** the addition formulas as straight-line programs; register 0 is the newest *)
Definition wadd : list ins := [IM 0 3; IM 2 5; IM 4 7; IA 3 4; IA 7 8; IM 1 0; IA 5 4; IS 1 0; IA 8 10; IA 12 14; IM 1 0; IA 10 8; IS 1 0; IA 14 15; IA 18 19; IM 1 0; IA 14 13; IS 1 0; IM 24 5; IM 26 16; IA 0 1; IS 19 0; IA 20 1; IM 1 0; IA 23 23; IA 0 24; IM 32 23; IM 34 14; IA 2 1; IS 28 2; IM 36 0; IA 3 0; IM 3 0; IA 9 0; IM 16 2; IM 27 13; IS 0 1; IM 29 8; IM 20 15; IA 0 1].
Definition wadd_o : list nat := [3; 6; 0]%nat.
Definition wdbl : list ins := [IM 0 0; IM 2 2; IM 4 4; IM 3 4; IA 0 0; IM 5 7; IA 0 0; IM 10 0; IM 12 5; IA 1 0; IS 8 0; IA 9 1; IM 1 0; IM 8 2; IM 18 7; IM 18 12; IS 15 0; IM 20 0; IA 0 3; IA 18 18; IA 0 19; IA 0 5; IM 0 3; IA 10 0; IM 25 26; IA 0 0; IM 0 7; IS 13 0; IM 2 26; IA 0 0; IA 0 0].
Definition wdbl_o : list nat := [3; 7; 0]%nat.
Definition madd_ : list ins := [IM 0 3; IM 2 5; IM 4 7; IM 3 7; IM 7 5; IM 6 10; IM 10 8; IM 7 12; IM 11 10; IA 1 0; IM 9 16; IA 1 0; IA 6 5; IS 1 11; IM 4 20; IA 0 14; IA 0 15; IA 0 16; IA 0 15; IS 15 14; IM 0 27; IA 0 20; IS 0 19; IS 15 14; IM 0 31; IS 0 21; IS 0 21; IS 21 20; IM 0 35; IA 0 17; IA 0 28; IM 18 8; IM 18 5; IS 1 0; IM 20 3; IM 16 12; IS 1 0; IM 18 10; IM 25 7; IS 1 0].
Definition madd__o : list nat := [6; 3; 0]%nat.
Definition mdbl : list ins := [IM 0 0; IM 2 2; IM 4 4; IM 3 4; IM 4 5; IM 6 7; IM 7 8; IM 7 9; IM 8 10; IA 1 0; IM 9 13; IA 1 0; IA 6 5; IS 1 11; IM 4 17; IA 0 14; IA 0 15; IA 0 16; IA 0 15; IS 15 14; IM 0 24; IA 0 20; IS 0 19; IS 15 14; IM 0 28; IS 0 21; IS 0 21; IS 21 20; IM 0 32; IA 0 17; IA 0 28; IM 18 8; IM 18 5; IS 1 0; IM 20 3; IM 16 12; IS 1 0; IM 18 10; IM 25 7; IS 1 0].
Definition mdbl_o : list nat := [6; 3; 0]%nat.
Definition eadd_ : list ins := [IM 0 4; IM 2 6; IM 11 4; IM 0 9; IM 7 11; IA 5 6; IA 10 11; IM 1 0; IS 0 7; IS 0 7; IS 5 6; IA 6 7; IM 11 20; IS 11 0; IM 4 3; IM 3 1; IM 6 2; IM 6 5].
Definition eadd__o : list nat := [3; 2; 1; 0]%nat.
Definition edbl : list ins := [IM 0 0; IM 2 2; IM 7 4; IM 0 5; IM 7 7; IA 5 6; IA 6 7; IM 1 0; IS 0 7; IS 0 7; IS 5 6; IA 6 7; IM 11 16; IS 11 0; IM 4 3; IM 3 1; IM 6 2; IM 6 5].
Definition edbl_o : list nat := [3; 2; 1; 0]%nat.

Section Alg.
  Variable K : Fld.
  Add Field KF : (Fth K).
  Open Scope fld_scope.
  Lemma wadd_ok (a b x1 y1 z1 x2 y2 z2 : K) :
    stepF K wadd wadd_o [x1; y1; z1; x2; y2; z2; a; b + b + b] =
    [rX K a b x1 y1 z1 x2 y2 z2; rY K a b x1 y1 z1 x2 y2 z2; rZ K a b x1 y1 z1 x2 y2 z2].
  Proof.
    transitivity (let '(x, y, z) := WeierP.code_add K a b x1 y1 z1 x2 y2 z2 in [x; y; z]); [reflexivity|].
    rewrite WeierP.code_add_spec. reflexivity.
  Qed.
  Lemma wdbl_ok (a b x y z : K) :
    stepF K wdbl wdbl_o [x; y; z; a; b + b + b] = [rX K a b x y z x y z; rY K a b x y z x y z; dZ K y z].
  Proof.
    transitivity (let '(x, y, z) := WeierP.code_double K a b x y z in [x; y; z]); [reflexivity|].
    rewrite WeierP.code_double_spec. reflexivity.
  Qed.
  Lemma madd_ok (a s x1 y1 z1 x2 y2 z2 : K) :
    stepF K madd_ madd__o [x1; y1; z1; x2; y2; z2; a; s] =
    [mX K a s x1 y1 z1 x2 y2 z2; mY K a s x1 y1 z1 x2 y2 z2; mZ K a s x1 y1 z1 x2 y2 z2].
  Proof.
    transitivity (let '(x, y, z) := MontP.code_add K a s x1 y1 z1 x2 y2 z2 in [x; y; z]); [reflexivity|].
    rewrite MontP.code_add_spec. reflexivity.
  Qed.
  Lemma mdbl_ok (a s x y z : K) :
    stepF K mdbl mdbl_o [x; y; z; a; s] = [mX K a s x y z x y z; mY K a s x y z x y z; mZ K a s x y z x y z].
  Proof.
    transitivity (let '(x, y, z) := MontP.code_add K a s x y z x y z in [x; y; z]); [reflexivity|].
    rewrite MontP.code_add_spec. reflexivity.
  Qed.
  Lemma eadd_ok (a d x1 y1 t1 z1 x2 y2 t2 z2 : K) :
    stepF K eadd_ eadd__o [x1; y1; t1; z1; x2; y2; t2; z2; a; d] =
    let '(x, y, t, z) := EdwP.code_add K a d x1 y1 t1 z1 x2 y2 t2 z2 in [x; y; t; z].
  Proof. reflexivity. Qed.
  Lemma edbl_ok (a d x1 y1 t1 z1 : K) :
    stepF K edbl edbl_o [x1; y1; t1; z1; a; d] =
    let '(x, y, t, z) := EdwP.code_add K a d x1 y1 t1 z1 x1 y1 t1 z1 in [x; y; t; z].
  Proof. reflexivity. Qed.
  Lemma cubic_pev (a2 a4 a6 x : K) : x * x * x + a2 * (x * x) + a4 * x + a6 = 0 ->
    fpow x 3 = pev K [- a6; - a4; - a2] x.
  Proof. intro E. cbn [fpow pev]. apply (proj1 (Fsub_zero K _ _)). etransitivity; [|exact E]. ring. Qed.
  Lemma weier_cubic (a b x : K) : x * x * x + a * x + b = 0 -> x * x * x + 0 * (x * x) + a * x + b = 0.
  Proof. intro E. etransitivity; [|exact E]. ring. Qed.
  Lemma mont_cubic (a s x : K) : x * x * x + a * (x * x) + x = s * s -> x * x * x + a * (x * x) + 1 * x + (- (s * s)) = 0.
  Proof. intro E. rewrite <- E. ring. Qed.
  Lemma wc_aux (a b x : K) : x * x * x + a * x + b = x * x * x + 0 * (x * x) + a * x + b. Proof. ring. Qed.
  Lemma mc_aux (a x : K) : x * x * x + a * (x * x) + x = x * x * x + a * (x * x) + 1 * x + 0. Proof. ring. Qed.
  Lemma erep_is_zero X Y T Z P : EdwP.erep K X Y T Z P -> X = 0 -> Y - Z = 0 -> P = ezero K.
  Proof.
    destruct P as [x y]. unfold EdwP.erep, ezero. cbn [fst snd]. intros (N & EX & EY & _) X0 YZ. apply (proj1 (Fsub_zero K _ _)) in YZ.
    f_equal; apply (Fcancel_l K Z); try exact N.
    - transitivity (x * Z); [ring|]. rewrite <- EX, X0. ring.
    - transitivity (y * Z); [ring|]. rewrite <- EY, YZ. ring.
  Qed.
  Lemma mul_opp_l (x y : K) : (- x) * y = - (x * y). Proof. ring. Qed.
  Lemma one_mul (x : K) : 1 * x = x. Proof. ring. Qed.
  Lemma one_one : (1 : K) * 1 = 1. Proof. ring. Qed.
  Lemma rep_inf X Y P : rep K X Y 0 P -> P = Inf K.
  Proof. destruct P as [|x y]; [reflexivity|]. cbn. intros (N & _). destruct (N eq_refl). Qed.
  Lemma rep_id : rep K 0 1 0 (Inf K).
  Proof. cbn. split; [reflexivity|]. split; [apply F_1_neq_0|reflexivity]. Qed.
End Alg.

(** [r] signed digits *)
Definition digits (r : Z) : list Z := naf (Z.to_nat (Z.log2 r + 3)) r [].
Definition is_digits (r : Z) : bool := match dval 0 (digits r) with Some m => m =? r | None => false end.
Definition ctx_check (p : Z) (C : ctx) (k : list Uint63.int) : bool := ctx_ok C && (md C =? p) && mult_ok C k && (2 <? p).

Section Check.
  Variable p : Z.
  Hypothesis Hp : prime p.
  Local Notation K := (ZpF p Hp).
  Local Notation O := (of_Z p : Z -> ZpF p Hp).

  (** *** roots of cubics *)
  Definition noroot_check (a2 a4 a6 sl : Z) (u : list Z) : bool :=
    let C := make_s p sl in
    ctx_check p C (limbs (nl C) (8 * p)) && match noroot_run p C [- a6; - a4; - a2] u with Some t => t | None => false end.
  Lemma noroot_cubic a2 a4 a6 sl u : noroot_check a2 a4 a6 sl u = true ->
    2 < p /\ forall x : K, Fadd (Fadd (Fadd (Fmul (Fmul x x) x) (Fmul (O a2) (Fmul x x))) (Fmul (O a4) x)) (O a6) <> F0.
  Proof.
    unfold noroot_check, ctx_check. set (C := make_s p sl). rewrite !andb_true_iff. intros ((((HC & HM) & Hk) & H2) & HR).
    apply Z.eqb_eq in HM. apply Z.ltb_lt in H2. split; [exact H2|].
    destruct (noroot_run p C [- a6; - a4; - a2] u) as [[]|] eqn:E; try discriminate.
    intros x Hx. apply (noroot_ok p Hp H2 C HC HM _ _ E x). cbn [map]. rewrite !of_Z_opp. exact (cubic_pev K _ _ _ _ Hx).
  Qed.

  (** *** the order of a point *)
  Section Lad.
    Variables (C : ctx) (k : list Uint63.int).
    Hypothesis HC : ctx_check p C k = true.
    Variables (pd pa : list ins) (od oa : list nat) (P nP cs st : list Z) (A : Type) (mul : nat -> A) (Rep : list K -> A -> Prop).
    Hypothesis Hd : forall n s, Rep s (mul n) -> Rep (stepF K pd od (s ++ map O cs)) (mul (n + n)%nat).
    Hypothesis Ha : forall n s, Rep s (mul n) -> Rep (stepF K pa oa (s ++ map O P ++ map O cs)) (mul (S n)).
    Hypothesis Hs : forall n s, Rep s (mul (S n)) -> Rep (stepF K pa oa (s ++ map O nP ++ map O cs)) (mul n).
    Hypothesis H0 : Rep (map O st) (mul 0%nat).
    Definition lad_end (r : Z) := lad C k pd pa od oa (map (enc C) P) (map (enc C) nP) (map (enc C) cs) (digits r) (map (enc C) st).
    Lemma lad_rep r s : is_digits r = true -> lad_end r = Some s ->
      0 <= r /\ exists f, Forall2 (RK p Hp C) s f /\ Rep f (mul (Z.to_nat r)).
    Proof.
      unfold is_digits, ctx_check in *. rewrite !andb_true_iff in HC. destruct HC as (((HC' & HM) & Hk) & H2).
      apply Z.eqb_eq in HM. apply Z.ltb_lt in H2. destruct (dval 0 (digits r)) as [m|] eqn:E; [|discriminate]. intros Em HL.
      apply Z.eqb_eq in Em. subst m.
      assert (R0 : 0 <= r).
      { clear - E. revert E. generalize (digits r) as ds. intro ds. assert (G : forall ds n m, 0 <= n -> dval n ds = Some m -> 0 <= m).
        { clear. induction ds as [|d ds IH]; intros n m Hn; cbn [dval]; [intro E; injection E as <-; exact Hn|].
          destruct ((-1 <=? d) && (d <=? 1) && (0 <=? 2 * n + d)) eqn:D; [|discriminate]. apply IH. rewrite !andb_true_iff, !Z.leb_le in D. lia. }
        apply G. lia. }
      split; [exact R0|].
      apply (lad_ok K C k (RK p Hp C) (RK_mul p Hp H2 C HC' HM) (RK_add p Hp H2 C HM) (RK_sub p Hp H2 C HC' HM k Hk)
        pd pa od oa _ _ _ _ _ _ (RE_enc p Hp H2 C HC' HM P) (RE_enc p Hp H2 C HC' HM nP) (RE_enc p Hp H2 C HC' HM cs)
        (fun n f => Rep f (mul (Z.to_nat n)))) with (n := 0) (s := map O st) (ds := digits r) (st := map (enc C) st).
      - intros n f Hn I. replace (Z.to_nat (2 * n)) with (Z.to_nat n + Z.to_nat n)%nat by lia. apply Hd, I.
      - intros n f Hn I. replace (Z.to_nat (n + 1)) with (S (Z.to_nat n)) by lia. apply Ha, I.
      - intros n f Hn I. apply Hs. replace (S (Z.to_nat (n - 1))) with (Z.to_nat n) by lia. exact I.
      - lia.
      - apply RE_enc; assumption.
      - exact H0.
      - exact E.
      - exact HL.
    Qed.
  End Lad.

  Definition wcheck (a b gx gy r sl km : Z) : bool :=
    let C := make_s p sl in let k := limbs (nl C) (km * p) in
    ctx_check p C k && ((gy * gy - (gx * gx * gx + a * gx + b)) mod p =? 0) && is_digits r
    && match lad_end C k wdbl wadd wdbl_o wadd_o [gx; gy; 1] [gx; - gy; 1] [a; b + b + b] [0; 1; 0] r with
       | Some [_; _; Z] => repr C Z 0 | _ => false end.
  Lemma wcheck_ok a b gx gy r sl km :
    (forall x : K, Fadd (Fadd (Fmul (Fmul x x) x) (Fmul (O a) x)) (O b) <> F0) -> wcheck a b gx gy r sl km = true ->
    on K F0 (O a) (O b) (Aff K (O gx) (O gy)) /\ nmul p Hp F0 (O a) (Z.to_nat r) (Aff K (O gx) (O gy)) = Inf K.
  Proof.
    intros NR. unfold wcheck. set (C := make_s p sl). set (k := limbs (nl C) (km * p)). rewrite !andb_true_iff. intros (((HC & HG) & HD) & HL).
    assert (H2 : 2 < p) by (unfold ctx_check in HC; rewrite !andb_true_iff in HC; apply Z.ltb_lt, HC).
    set (A := Aff K (O gx) (O gy)).
    assert (OA : on K F0 (O a) (O b) A).
    { apply Z.eqb_eq in HG. apply Zmod_divide in HG; [|lia]. apply of_Z_div in HG; [|lia].
      unfold A, on, cubic. rewrite <- (wc_aux K). revert HG. pushZ. exact (fun h => h). }
    split; [exact OA|].
    destruct (lad_end C k wdbl wadd wdbl_o wadd_o [gx; gy; 1] [gx; - gy; 1] [a; b + b + b] [0; 1; 0] r) as [s|] eqn:E; [|discriminate].
    pose proof (two_K p Hp H2) as two.
    pose proof (nonsing K (O a) (O b) NR) as NS.
    destruct (lad_rep C k HC wdbl wadd wdbl_o wadd_o [gx; gy; 1] [gx; - gy; 1] [a; b + b + b] [0; 1; 0] (pt K) (fun n => nmul p Hp F0 (O a) n A)
      (fun f P => exists X Y Z, f = [X; Y; Z] /\ rep K X Y Z P)) with (5 := HD) (6 := E) as (R0 & f & Hf & X & Y & Z & -> & HR).
    - intros n f (X & Y & Z & -> & HR). cbn [map app]. rewrite !of_Z_add.
      do 3 eexists. split; [exact (wdbl_ok K (O a) (O b) X Y Z)|].
      rewrite <- (nmul_add p Hp H2 F0 (O a) (O b) NS n n A OA).
      apply (rcb_double K (O a) (O b) two NR _ _ _ _ HR). apply on_nmul; assumption.
    - intros n f (X & Y & Z & -> & HR). cbn [map app]. rewrite !of_Z_add.
      do 3 eexists. split; [exact (wadd_ok K (O a) (O b) X Y Z _ _ _)|]. cbn [nmul].
      apply (rcb_add K (O a) (O b) two NR _ _ _ _ _ _ _ _ HR (WeierP.rep_one K (O gx) (O gy))); [apply on_nmul; assumption|exact OA].
    - intros n f (X & Y & Z & -> & HR). cbn [map app]. rewrite !of_Z_add, of_Z_opp.
      do 3 eexists. split; [exact (wadd_ok K (O a) (O b) X Y Z _ _ _)|]. cbn [nmul] in HR.
      pose proof (rcb_add K (O a) (O b) two NR _ _ _ _ _ _ _ _ HR (WeierP.rep_opp K _ _ _ _ (WeierP.rep_one K (O gx) (O gy)))) as H.
      assert (ON : on K F0 (O a) (O b) (nmul p Hp F0 (O a) n A)) by (apply on_nmul; assumption).
      rewrite (padd_assoc K F0 (O a) (O b) two NS), padd_opp_r, padd_inf_r in H; try assumption.
      + apply H; [apply on_padd; assumption|apply on_popp; exact OA].
      + apply on_popp. exact OA.
    - exists F0, F1, F0. split; [reflexivity|apply rep_id].
    - inversion Hf as [|? ? ? ? _ H1]; subst. inversion H1 as [|? ? ? ? _ H3]; subst. inversion H3 as [|? ? ? ? H4 H5]; subst. inversion H5; subst.
      unfold ctx_check in HC. rewrite !andb_true_iff in HC. destruct HC as (((HC' & HM) & _) & _). apply Z.eqb_eq in HM.
      pose proof (RK_repr p Hp H2 C HC' HM _ _ 0 H4 HL) as Z0. rewrite Z0 in HR. exact (rep_inf K _ _ _ HR).
  Qed.

  Definition mcheck (a s gx gy r sl km : Z) : bool :=
    let C := make_s p sl in let k := limbs (nl C) (km * p) in
    ctx_check p C k && ((gy * gy - (gx * gx * gx + a * (gx * gx) + gx)) mod p =? 0) && is_digits r
    && match lad_end C k mdbl madd_ mdbl_o madd__o [gx; gy; 1] [gx; - gy; 1] [a; s] [0; 1; 0] r with
       | Some [_; _; Z] => repr C Z 0 | _ => false end.
  Lemma mcheck_ok a s gx gy r sl km :
    Fmul (O a) (O a) <> Fmul (Fadd F1 F1) (Fadd F1 F1) ->
    (forall x : K, Fadd (Fadd (Fmul (Fmul x x) x) (Fmul (O a) (Fmul x x))) x <> Fmul (O s) (O s)) -> mcheck a s gx gy r sl km = true ->
    on K (O a) F1 F0 (Aff K (O gx) (O gy)) /\ nmul p Hp (O a) F1 (Z.to_nat r) (Aff K (O gx) (O gy)) = Inf K.
  Proof.
    intros N4 NR. unfold mcheck. set (C := make_s p sl). set (k := limbs (nl C) (km * p)). rewrite !andb_true_iff. intros (((HC & HG) & HD) & HL).
    assert (H2 : 2 < p) by (unfold ctx_check in HC; rewrite !andb_true_iff in HC; apply Z.ltb_lt, HC).
    set (A := Aff K (O gx) (O gy)).
    assert (OA : on K (O a) F1 F0 A).
    { apply Z.eqb_eq in HG. apply Zmod_divide in HG; [|lia]. apply of_Z_div in HG; [|lia].
      unfold A, on, cubic. rewrite <- (mc_aux K). revert HG. pushZ. exact (fun h => h). }
    split; [exact OA|].
    destruct (lad_end C k mdbl madd_ mdbl_o madd__o [gx; gy; 1] [gx; - gy; 1] [a; s] [0; 1; 0] r) as [o|] eqn:E; [|discriminate].
    pose proof (two_K p Hp H2) as two.
    pose proof (mont_nonsing K (O a) (O s) N4 NR) as NS.
    destruct (lad_rep C k HC mdbl madd_ mdbl_o madd__o [gx; gy; 1] [gx; - gy; 1] [a; s] [0; 1; 0] (pt K) (fun n => nmul p Hp (O a) F1 n A)
      (fun f P => exists X Y Z, f = [X; Y; Z] /\ rep K X Y Z P)) with (5 := HD) (6 := E) as (R0 & f & Hf & X & Y & Z & -> & HR).
    - intros n f (X & Y & Z & -> & HR). cbn [map app].
      do 3 eexists. split; [exact (mdbl_ok K (O a) (O s) X Y Z)|].
      rewrite <- (nmul_add p Hp H2 (O a) F1 F0 NS n n A OA).
      apply (mont_add K (O a) (O s) two N4 NR _ _ _ _ _ _ _ _ HR HR); apply on_nmul; assumption.
    - intros n f (X & Y & Z & -> & HR). cbn [map app].
      do 3 eexists. split; [exact (madd_ok K (O a) (O s) X Y Z _ _ _)|]. cbn [nmul].
      apply (mont_add K (O a) (O s) two N4 NR _ _ _ _ _ _ _ _ HR (WeierP.rep_one K (O gx) (O gy))); [apply on_nmul; assumption|exact OA].
    - intros n f (X & Y & Z & -> & HR). cbn [map app]. rewrite of_Z_opp.
      do 3 eexists. split; [exact (madd_ok K (O a) (O s) X Y Z _ _ _)|]. cbn [nmul] in HR.
      pose proof (mont_add K (O a) (O s) two N4 NR _ _ _ _ _ _ _ _ HR (WeierP.rep_opp K _ _ _ _ (WeierP.rep_one K (O gx) (O gy)))) as H.
      assert (ON : on K (O a) F1 F0 (nmul p Hp (O a) F1 n A)) by (apply on_nmul; assumption).
      rewrite (padd_assoc K (O a) F1 F0 two NS), padd_opp_r, padd_inf_r in H; try assumption.
      + apply H; [apply on_padd; assumption|apply on_popp; exact OA].
      + apply on_popp. exact OA.
    - exists F0, F1, F0. split; [reflexivity|apply rep_id].
    - inversion Hf as [|? ? ? ? _ H1]; subst. inversion H1 as [|? ? ? ? _ H3]; subst. inversion H3 as [|? ? ? ? H4 H5]; subst. inversion H5; subst.
      unfold ctx_check in HC. rewrite !andb_true_iff in HC. destruct HC as (((HC' & HM) & _) & _). apply Z.eqb_eq in HM.
      pose proof (RK_repr p Hp H2 C HC' HM _ _ 0 H4 HL) as Z0. rewrite Z0 in HR. exact (rep_inf K _ _ _ HR).
  Qed.

  (** *** Edwards *)
  Definition nonsq_check (d sl : Z) : bool :=
    let C := make_s p sl in
    ctx_check p C (limbs (nl C) (8 * p)) && match mpow C (enc C d) (Z.to_pos ((p - 1) / 2)) with Some l => repr C l (-1) | None => false end.
  Lemma nonsq_ok d sl : nonsq_check d sl = true -> 2 < p /\ forall s : K, Fmul s s <> O d.
  Proof.
    unfold nonsq_check, ctx_check. set (C := make_s p sl). rewrite !andb_true_iff. intros ((((HC & HM) & Hk) & H2) & HR).
    apply Z.eqb_eq in HM. apply Z.ltb_lt in H2. split; [exact H2|].
    destruct (mpow C (enc C d) (Z.to_pos ((p - 1) / 2))) as [l|] eqn:E; [|discriminate].
    pose proof (R_pow C HC _ _ _ (enc_R C HC d) _ E) as HL. apply (R_iff C HC _ _ _ HL) in HR. rewrite HM in HR.
    assert (PO : p mod 2 = 1).
    { pose proof (Z.mod_pos_bound p 2 ltac:(lia)). assert (p mod 2 <> 0); [|lia]. intro Z0. apply Zmod_divide in Z0; [|lia].
      apply prime_divisors in Z0; [lia|exact Hp]. }
    assert (HH : p - 1 = 2 * ((p - 1) / 2)) by (rewrite <- Z_div_exact_full_2; [reflexivity|lia|]; rewrite Zminus_mod, PO; reflexivity).
    assert (H0 : 0 < (p - 1) / 2) by lia. rewrite Z2Pos.id in HR by exact H0.
    intros s Hs. pose proof (Residue.zv_nz p Hp s) as NZ. assert (Ed : (p | d - zv s * zv s)).
    { apply of_Z_div; [lia|]. rewrite of_Z_mul, of_Z_zv. symmetry. exact Hs. }
    assert (EP : (p | d ^ ((p - 1) / 2) - zv s ^ (p - 1))).
    { rewrite HH at 2. rewrite Z.pow_mul_r, Z.pow_2_r by lia. apply Z.mod_divide; [lia|]. rewrite Zminus_mod.
      rewrite (Zpower_mod d), (Zpower_mod (zv s * zv s)) by lia.
      replace (d mod p) with ((zv s * zv s) mod p); [rewrite Z.sub_diag; apply Z.mod_0_l; lia|].
      destruct Ed as [c Ec]. replace d with (zv s * zv s + c * p) by lia. rewrite Z_mod_plus_full. reflexivity. }
    destruct (Z.eq_dec (zv s) 0) as [Z0|Z0].
    - rewrite Z0, Z.pow_0_l in EP by lia. assert (D1 : (p | 1)).
      { replace 1 with ((d ^ ((p - 1) / 2) - -1) - (d ^ ((p - 1) / 2) - 0)) by lia. apply Z.divide_sub_r; assumption. }
      apply Z.divide_1_r_nonneg in D1; lia.
    - assert (ND : ~ (p | zv s)). { assert (0 <= zv s < p) by (apply zv_range; lia). intro D. apply Z.divide_pos_le in D; lia. }
      pose proof (fermat p (zv s) Hp ND) as F. assert (D2 : (p | 2)).
      { replace 2 with ((d ^ ((p - 1) / 2) - -1) - (d ^ ((p - 1) / 2) - zv s ^ (p - 1)) - (zv s ^ (p - 1) - 1)) by lia.
        apply Z.divide_sub_r; [apply Z.divide_sub_r; assumption|]. exists (zv s ^ (p - 1) / p). pose proof (Z.div_mod (zv s ^ (p - 1)) p ltac:(lia)). lia. }
      apply Z.divide_pos_le in D2; lia.
  Qed.
  Definition echeck (a d gx gy r sl km : Z) : bool :=
    let C := make_s p sl in let k := limbs (nl C) (km * p) in
    ctx_check p C k && ((a * (gx * gx) + gy * gy - (1 + d * (gx * gx) * (gy * gy))) mod p =? 0) && is_digits r
    && match lad_end C k edbl eadd_ edbl_o eadd__o [gx; gy; gx * gy; 1] [- gx; gy; - (gx * gy); 1] [a; d] [0; 1; 0; 1] r with
       | Some [X; Y; _; Z] => repr C X 0 && match msub k Y Z with Some w => repr C w 0 | None => false end | _ => false end.
  Lemma echeck_ok a d gx gy r sl km :
    (exists s : K, Fmul s s = O a) -> (forall s : K, Fmul s s <> O d) -> echeck a d gx gy r sl km = true ->
    Edwards.eon K (O a) (O d) (O gx, O gy) /\ EdwP.enmul p Hp (O a) (O d) (Z.to_nat r) (O gx, O gy) = ezero K.
  Proof.
    intros AS DN. unfold echeck. set (C := make_s p sl). set (k := limbs (nl C) (km * p)). rewrite !andb_true_iff. intros (((HC & HG) & HD) & HL).
    assert (H2 : 2 < p) by (unfold ctx_check in HC; rewrite !andb_true_iff in HC; apply Z.ltb_lt, HC).
    set (A := (O gx, O gy)).
    assert (OA : Edwards.eon K (O a) (O d) A).
    { apply Z.eqb_eq in HG. apply Zmod_divide in HG; [|lia]. apply of_Z_div in HG; [|lia].
      unfold A, Edwards.eon. revert HG. pushZ. exact (fun h => h). }
    split; [exact OA|].
    destruct (lad_end C k edbl eadd_ edbl_o eadd__o [gx; gy; gx * gy; 1] [- gx; gy; - (gx * gy); 1] [a; d] [0; 1; 0; 1] r) as [o|] eqn:E; [|discriminate].
    pose proof (two_K p Hp H2) as two.
    assert (ON : forall n, Edwards.eon K (O a) (O d) (EdwP.enmul p Hp (O a) (O d) n A)) by (intro n; apply EdwP.on_enmul; assumption).
    assert (G : forall X1 Y1 T1 Z1 X2 Y2 T2 Z2 P Q, EdwP.erep K X1 Y1 T1 Z1 P -> EdwP.erep K X2 Y2 T2 Z2 Q ->
      Edwards.eon K (O a) (O d) P -> Edwards.eon K (O a) (O d) Q ->
      exists X Y T Z, (let '(x, y, t, z) := EdwP.code_add K (O a) (O d) X1 Y1 T1 Z1 X2 Y2 T2 Z2 in [x; y; t; z]) = [X; Y; T; Z]
        /\ EdwP.erep K X Y T Z (eadd K (O a) (O d) P Q)).
    { intros X1 Y1 T1 Z1 X2 Y2 T2 Z2 P Q R1 R2 O1 O2.
      pose proof (EdwP.code_add_rep K (O a) (O d) _ _ _ _ _ _ _ _ _ _ R1 R2 (den_plus K (O a) (O d) two AS DN P Q O1 O2) (den_minus K (O a) (O d) two AS DN P Q O1 O2)) as R.
      destruct (EdwP.code_add K (O a) (O d) X1 Y1 T1 Z1 X2 Y2 T2 Z2) as [[[X Y] T] Z]. exists X, Y, T, Z. split; [reflexivity|exact R]. }
    destruct (lad_rep C k HC edbl eadd_ edbl_o eadd__o [gx; gy; gx * gy; 1] [- gx; gy; - (gx * gy); 1] [a; d] [0; 1; 0; 1] (K * K)
      (fun n => EdwP.enmul p Hp (O a) (O d) n A)
      (fun f P => exists X Y T Z, f = [X; Y; T; Z] /\ EdwP.erep K X Y T Z P)) with (5 := HD) (6 := E) as (R0 & f & Hf & X & Y & T & Z & -> & HR).
    - intros n f (X & Y & T & Z & -> & HR). cbn [map app].
      rewrite <- (EdwP.enmul_add p Hp H2 (O a) (O d) AS DN n n A OA).
      exact (G _ _ _ _ _ _ _ _ _ _ HR HR (ON n) (ON n)).
    - intros n f (X & Y & T & Z & -> & HR). cbn [map app]. rewrite of_Z_mul. cbn [EdwP.enmul].
      exact (G _ _ _ _ _ _ _ _ _ _ HR (EdwP.erep_one K (O gx) (O gy)) (ON n) OA).
    - intros n f (X & Y & T & Z & -> & HR). cbn [map app]. rewrite !of_Z_opp, of_Z_mul.
      destruct (G _ _ _ _ _ _ _ _ _ _ HR (EdwP.erep_opp K _ _ _ _ _ (EdwP.erep_one K (O gx) (O gy))) (ON (S n)) (eon_opp K (O a) (O d) A OA)) as (X' & Y' & T' & Z' & EE & RR).
      exists X', Y', T', Z'. split; [exact EE|]. change (O gx, O gy) with A in RR.
      cbn [EdwP.enmul] in RR. rewrite (eadd_assoc K (O a) (O d) two AS DN) in RR; [|apply ON|exact OA|apply eon_opp; exact OA].
      rewrite (eadd_opp K (O a) (O d) two AS DN A OA), eadd_zero in RR. exact RR.
    - exists F0, F1, F0, F1. split; [reflexivity|apply EdwP.erep_zero].
    - inversion Hf as [|? ? ? ? H1 Hf2]; subst. inversion Hf2 as [|? ? ? ? H3 Hf4]; subst. inversion Hf4 as [|? ? ? ? _ Hf6]; subst.
      inversion Hf6 as [|? ? ? ? H7 Hf8]; subst. inversion Hf8; subst.
      unfold ctx_check in HC. rewrite !andb_true_iff in HC. destruct HC as (((HC' & HM) & Hk) & _). apply Z.eqb_eq in HM.
      apply andb_true_iff in HL. destruct HL as [HX HY].
      match type of HY with context [msub k ?u ?v] => destruct (msub k u v) as [w|] eqn:Ew; [|discriminate] end.
      apply (erep_is_zero K _ _ _ _ _ HR).
      + exact (RK_repr p Hp H2 C HC' HM _ _ 0 H1 HX).
      + exact (RK_repr p Hp H2 C HC' HM _ _ 0 (RK_sub p Hp H2 C HC' HM k Hk _ _ _ _ _ H3 H7 Ew) HY).
  Qed.
End Check.
