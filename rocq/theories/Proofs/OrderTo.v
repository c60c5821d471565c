(** Checked multiples of points of Weierstrass curves. *)
From Coq Require Import ZArith Znumtheory Lia Bool List Ring Field.
From Verif.Math Require Import Fld Zp Pow Residue RCB MontAdd Edwards Limb LimbF.
From Verif.Proofs Require Import CurveP InstP.
From Verif.Proofs Require WeierP.
From Verif.Math Require Import ECGroup.
Import ListNotations.
Open Scope Z_scope.

Section Alg.
  Variable K : Fld.
  Add Field KG : (Fth K).
  Open Scope fld_scope.
  Lemma rep_to X Y Z P (x y : K) : rep K X Y Z P -> X = x * Z -> Y = y * Z -> P = Aff K x y.
  Proof.
    destruct P as [|x' y']; cbn.
    - intros (_ & N & Z0) _ EY. exfalso. apply N. rewrite EY, Z0. ring.
    - intros (N & EX & EY) EX' EY'. f_equal; apply (Fcancel_l K Z); try exact N.
      + transitivity (x' * Z); [ring|]. rewrite <- EX, EX'. ring.
      + transitivity (y' * Z); [ring|]. rewrite <- EY, EY'. ring.
  Qed.
End Alg.

Section Check.
  Variable p : Z.
  Hypothesis Hp : prime p.
  Local Notation K := (ZpF p Hp).
  Local Notation O := (of_Z p : Z -> ZpF p Hp).
  Definition ratio (l m : list Uint63.int) (t : Z) : bool := (V l - t * V m) mod p =? 0.
  Lemma ratio_ok C l m (x z : K) t : 2 < p -> ctx_ok C = true -> md C = p -> RK p Hp C l x -> RK p Hp C m z -> ratio l m t = true -> x = Fmul (O t) z.
  Proof.
    intros H2 HC HM (_ & Dx) (_ & Dz) E. unfold ratio in E. apply Z.eqb_eq, Zmod_divide in E; [|lia]. rewrite HM in Dx, Dz.
    assert (D : (p | zv x - t * zv z)).
    { apply Gauss with (rad C); [|rewrite <- HM; apply rel_prime_sym, rad_prime, HC].
      replace (rad C * (zv x - t * zv z)) with ((V l - t * V m) - (V l - zv x * rad C) + t * (V m - zv z * rad C)) by ring.
      apply Z.divide_add_r; [apply Z.divide_sub_r; assumption|]. apply Z.divide_mul_r. exact Dz. }
    apply of_Z_div in D; [|lia]. rewrite of_Z_zv, of_Z_mul, of_Z_zv in D. exact D.
  Qed.
  Definition wto_check (a b gx gy n tx ty sl km : Z) : bool :=
    let C := make_s p sl in let k := limbs (nl C) (km * p) in
    ctx_check p C k && ((gy * gy - (gx * gx * gx + a * gx + b)) mod p =? 0) && is_digits n
    && match lad_end C k wdbl wadd wdbl_o wadd_o [gx; gy; 1] [gx; - gy; 1] [a; b + b + b] [0; 1; 0] n with
       | Some [X; Y; Z] => ratio X Z tx && ratio Y Z ty | _ => false end.
  Lemma wto_ok a b gx gy r tx ty sl km :
    (forall x : K, Fadd (Fadd (Fmul (Fmul x x) x) (Fmul (O a) x)) (O b) <> F0) -> wto_check a b gx gy r tx ty sl km = true ->
    on K F0 (O a) (O b) (Aff K (O gx) (O gy)) /\ nmul p Hp F0 (O a) (Z.to_nat r) (Aff K (O gx) (O gy)) = Aff K (O tx) (O ty).
  Proof.
    intros NR. unfold wto_check. set (C := make_s p sl). set (k := limbs (nl C) (km * p)). rewrite !andb_true_iff. intros (((HC & HG) & HD) & HL).
    assert (H2 : 2 < p) by (unfold ctx_check in HC; rewrite !andb_true_iff in HC; apply Z.ltb_lt, HC).
    set (A := Aff K (O gx) (O gy)).
    assert (OA : on K F0 (O a) (O b) A).
    { apply Z.eqb_eq in HG. apply Zmod_divide in HG; [|lia]. apply of_Z_div in HG; [|lia].
      unfold A, on, cubic. rewrite <- (wc_aux K). revert HG. pushZ. exact (fun h => h). }
    split; [exact OA|].
    destruct (lad_end C k wdbl wadd wdbl_o wadd_o [gx; gy; 1] [gx; - gy; 1] [a; b + b + b] [0; 1; 0] r) as [s|] eqn:E; [|discriminate].
    pose proof (two_K p Hp H2) as two.
    pose proof (nonsing K (O a) (O b) NR) as NS.
    destruct (lad_rep p Hp C k HC wdbl wadd wdbl_o wadd_o [gx; gy; 1] [gx; - gy; 1] [a; b + b + b] [0; 1; 0] (pt K) (fun n => nmul p Hp F0 (O a) n A)
      (fun f P => exists X Y Z, f = [X; Y; Z] /\ rep K X Y Z P)) with (5 := HD) (6 := E) as (R0 & f & Hf & X & Y & Z & -> & HR).
    - intros n f (X & Y & Z & -> & HR). cbn [map app]. rewrite !of_Z_add.
      do 3 eexists. split; [exact (wdbl_ok K (O a) (O b) X Y Z)|].
      rewrite <- (nmul_add p Hp H2 F0 (O a) (O b) NS n n A OA).
      apply (rcb_double K (O a) (O b) two NR _ _ _ _ HR). apply on_nmul; assumption.
    - intros n f (X & Y & Z & -> & HR). cbn [map app]. rewrite !of_Z_add.
      do 3 eexists. split; [exact (wadd_ok K (O a) (O b) X Y Z _ _ _)|]. cbn [nmul].
      apply (rcb_add K (O a) (O b) two NR _ _ _ _ _ _ _ _ HR (WeierP.rep_one K (O gx) (O gy))); [apply on_nmul; assumption|exact OA].
    - intros n f (X & Y & Z & -> & HR). cbn [map app]. rewrite !of_Z_add, of_Z_opp.
      do 3 eexists. split; [exact (wadd_ok K (O a) (O b) X Y Z _ _ _)|]. cbn [nmul] in HR.
      pose proof (rcb_add K (O a) (O b) two NR _ _ _ _ _ _ _ _ HR (WeierP.rep_opp K _ _ _ _ (WeierP.rep_one K (O gx) (O gy)))) as H.
      assert (ON : on K F0 (O a) (O b) (nmul p Hp F0 (O a) n A)) by (apply on_nmul; assumption).
      rewrite (padd_assoc K F0 (O a) (O b) two NS), padd_opp_r, padd_inf_r in H; try assumption.
      + apply H; [apply on_padd; assumption|apply on_popp; exact OA].
      + apply on_popp. exact OA.
    - exists F0, F1, F0. split; [reflexivity|apply rep_id].
    - inversion Hf as [|X0 ? s1 ? HX H1]; subst. inversion H1 as [|Y0 ? s2 ? HY H3]; subst. inversion H3 as [|Z0 ? s3 ? HZ H5]; subst. inversion H5; subst.
      unfold ctx_check in HC. rewrite !andb_true_iff in HC. destruct HC as (((HC' & HM) & _) & _). apply Z.eqb_eq in HM.
      apply andb_true_iff in HL. destruct HL as [LX LY].
      apply (rep_to K X Y Z _ _ _ HR).
      + exact (ratio_ok C _ _ _ _ _ H2 HC' HM HX HZ LX).
      + exact (ratio_ok C _ _ _ _ _ H2 HC' HM HY HZ LY).
  Qed.
End Check.
