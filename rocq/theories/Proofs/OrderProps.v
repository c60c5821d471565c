(** C55: the number of points of each shipped curve, and what multiplying by its cofactor does. *)
From Coq Require Import ZArith Znumtheory Lia String Ascii Bool List.
From Verif.Math Require Import Fld Zp FinGroup Prime_rbls.
From Verif.Spec Require Import Arith Curve Order Isogeny.
From Verif.Spec Require Instances.
From Verif.Model Require Import Out BigInt PrimeField Scalar RationalMaps CurveExtras.
From Verif.Model Require Instances.
From Verif.Model Require WCurve MCurve ECurve.
From Verif.Proofs Require Import FieldP FieldProps ScalarProps CurveP InstP InstShip OrderP OrderTo OrderShip OrderBls OrderRun Cert_Order.
From Verif.Proofs Require WeierP MontP EdwP WeierProps MontProps EdwProps InstProps IsogP IsogProps IsoHomProps Cert_Isog.
From Verif.Math Require Import ECGroup.
From Verif.Spec Require Export Shipped.
Import Spec.Instances Model.Instances.
Import ListNotations.
Open Scope Z_scope.

Ltac done_vm := vm_compute; reflexivity.
Ltac small_h := split; done_vm.
Lemma pr_52437899 : prime 52437899.
Proof.
  apply (Pock.pock_prime 52437899 609743 2 [(609743, 1%positive)]); [done_vm|]. intros q e [E|[]].
  assert (q = 609743) as -> by congruence. apply (Pock.trial_prime 609743 780). done_vm.
Qed.

(** curves of prime order *)
Lemma c55_P256 : w_order P256 std_P256 (w_r std_P256) /\ w_cleared P256 std_P256.
Proof.
  assert (O : w_order P256 std_P256 (w_r std_P256)) by (apply w_prime_of; [exact InstProps.c48_P256|done_vm..]).
  split; [exact O|]. apply (w_cleared_of _ _ _ InstProps.c48_P256 O). small_h.
Qed.
Lemma c55_P384 : w_order P384 std_P384 (w_r std_P384) /\ w_cleared P384 std_P384.
Proof.
  assert (O : w_order P384 std_P384 (w_r std_P384)) by (apply w_prime_of; [exact InstProps.c48_P384|done_vm..]).
  split; [exact O|]. apply (w_cleared_of _ _ _ InstProps.c48_P384 O). small_h.
Qed.
Lemma c55_P521 : w_order P521 std_P521 (w_r std_P521) /\ w_cleared P521 std_P521.
Proof.
  assert (O : w_order P521 std_P521 (w_r std_P521)) by (apply w_prime_of; [exact InstProps.c48_P521|done_vm..]).
  split; [exact O|]. apply (w_cleared_of _ _ _ InstProps.c48_P521 O). small_h.
Qed.
Lemma c55_SECP256K1 : w_order SECP256K1 std_SECP256K1 (w_r std_SECP256K1) /\ w_cleared SECP256K1 std_SECP256K1.
Proof.
  assert (O : w_order SECP256K1 std_SECP256K1 (w_r std_SECP256K1)) by (apply w_prime_of; [exact InstProps.c48_SECP256K1|done_vm..]).
  split; [exact O|]. apply (w_cleared_of _ _ _ InstProps.c48_SECP256K1 O). small_h.
Qed.
Lemma c55_SECP256K1_3ISO : w_order SECP256K1_3ISO std_SECP256K1_3ISO (w_r std_SECP256K1_3ISO) /\ w_cleared SECP256K1_3ISO std_SECP256K1_3ISO.
Proof.
  assert (O : w_order SECP256K1_3ISO std_SECP256K1_3ISO (w_r std_SECP256K1_3ISO)) by (apply w_prime_of; [exact InstProps.c48_SECP256K1_3ISO|done_vm..]).
  split; [exact O|]. apply (w_cleared_of _ _ _ InstProps.c48_SECP256K1_3ISO O). small_h.
Qed.

(** curves with a cyclic group of 2-power cofactor *)
Lemma std_CURVE25519_lit : std_CURVE25519 = (mkM 57896044618658097711785492504343953926634992332820282019728792003956564819949 486662 1 7237005577332262213973186563042994240857116359379907606001950938285454250989 8 9 43114425171068552920764898935933967039370386198203806730763910166200978582548).
Proof. done_vm. Qed.
Lemma c55_CURVE25519 : m_order CURVE25519 std_CURVE25519 (m_r std_CURVE25519 * m_h std_CURVE25519) /\ m_cleared CURVE25519 std_CURVE25519.
Proof.
  pose proof InstProps.c48_CURVE25519 as HX.
  assert (O : m_order CURVE25519 std_CURVE25519 (m_r std_CURVE25519 * m_h std_CURVE25519)).
  { rewrite std_CURVE25519_lit in *. cbn [m_r m_h].
    eapply (m_cyclic _ _ _ _ _ _ _ _ x_CURVE25519 y_CURVE25519 l_CURVE25519); [exact HX|done_vm|done_vm|done_vm|done_vm|exact double_CURVE25519|exact nonsq_x_CURVE25519|exact nonsq_a_CURVE25519]. }
  split; [exact O|]. apply (m_cleared_of _ _ _ HX O). small_h.
Qed.
Lemma std_CURVE448_lit : std_CURVE448 = (mkM 726838724295606890549323807888004534353641360687318060281490199180612328166730772686396383698676545930088884461843637361053498018365439 156326 3 181709681073901722637330951972001133588410340171829515070372549795146003961539585716195755291692375963310293709091662304773755859649779 4 5 355293926785568175264127502063783334808976399387714271831880898435169088786967410002932673765864550910142774147268105838985595290606362).
Proof. done_vm. Qed.
Lemma c55_CURVE448 : m_order CURVE448 std_CURVE448 (m_r std_CURVE448 * m_h std_CURVE448) /\ m_cleared CURVE448 std_CURVE448.
Proof.
  pose proof InstProps.c48_CURVE448 as HX.
  assert (O : m_order CURVE448 std_CURVE448 (m_r std_CURVE448 * m_h std_CURVE448)).
  { rewrite std_CURVE448_lit in *. cbn [m_r m_h].
    eapply (m_cyclic _ _ _ _ _ _ _ _ x_CURVE448 y_CURVE448 l_CURVE448); [exact HX|done_vm|done_vm|done_vm|done_vm|exact double_CURVE448|exact nonsq_x_CURVE448|exact nonsq_a_CURVE448]. }
  split; [exact O|]. apply (m_cleared_of _ _ _ HX O). small_h.
Qed.
Lemma std_EDWARDS25519_lit : std_EDWARDS25519 = (mkE 57896044618658097711785492504343953926634992332820282019728792003956564819949 (-1) 37095705934669439343138083508754565189542113879843219016388785533085940283555 7237005577332262213973186563042994240857116359379907606001950938285454250989 8 15112221349535400772501151409588531511454012693041857206046113283949847762202 46316835694926478169428394003475163141307993866256225615783033603165251855960).
Proof. done_vm. Qed.
Lemma c55_EDWARDS25519 : e_order EDWARDS25519 std_EDWARDS25519 (e_r std_EDWARDS25519 * e_h std_EDWARDS25519) /\ e_cleared EDWARDS25519 std_EDWARDS25519.
Proof.
  pose proof InstProps.c48_EDWARDS25519 as HX.
  assert (O : e_order EDWARDS25519 std_EDWARDS25519 (e_r std_EDWARDS25519 * e_h std_EDWARDS25519)).
  { rewrite std_EDWARDS25519_lit in *. cbn [e_r e_h].
    eapply (e_cyclic _ _ _ _ _ _ _ _ x_EDWARDS25519 y_EDWARDS25519 l_EDWARDS25519); [exact HX|done_vm|done_vm|done_vm|done_vm|exact double_EDWARDS25519|exact nonsq_y_EDWARDS25519]. }
  split; [exact O|]. apply (e_cleared_of _ _ _ HX O). small_h.
Qed.
Lemma std_EDWARDS448_lit : std_EDWARDS448 = (mkE 726838724295606890549323807888004534353641360687318060281490199180612328166730772686396383698676545930088884461843637361053498018365439 1 (-39081) 181709681073901722637330951972001133588410340171829515070372549795146003961539585716195755291692375963310293709091662304773755859649779 4 224580040295924300187604334099896036246789641632564134246125461686950415467406032909029192869357953282578032075146446173674602635247710 298819210078481492676017930443930673437544040154080242095928241372331506189835876003536878655418784733982303233503462500531545062832660).
Proof. done_vm. Qed.
Lemma c55_EDWARDS448 : e_order EDWARDS448 std_EDWARDS448 (e_r std_EDWARDS448 * e_h std_EDWARDS448) /\ e_cleared EDWARDS448 std_EDWARDS448.
Proof.
  pose proof InstProps.c48_EDWARDS448 as HX.
  assert (O : e_order EDWARDS448 std_EDWARDS448 (e_r std_EDWARDS448 * e_h std_EDWARDS448)).
  { rewrite std_EDWARDS448_lit in *. cbn [e_r e_h].
    eapply (e_cyclic _ _ _ _ _ _ _ _ x_EDWARDS448 y_EDWARDS448 l_EDWARDS448); [exact HX|done_vm|done_vm|done_vm|done_vm|exact double_EDWARDS448|exact nonsq_y_EDWARDS448]. }
  split; [exact O|]. apply (e_cleared_of _ _ _ HX O). small_h.
Qed.

(** BLS12-381 G1 *)
Lemma std_bls_lit : std_BLS12381G1 = (mkW 4002409555221667393417789825735904156556882819939007885332058136124031650490837864442687629129015664037894272559787 0 4 52435875175126190479447740508185965837690552500527637822603658699938581184513 15132376222941642753 3685416753713387016781088315183077757961620795782546409894578378688607592378376318836054947676345821548104185464507 1339506544944476473020471379941921221584933875938349620426543736416511423956333506472724655353366534992391756441569).
Proof. done_vm. Qed.
Lemma std_iso_lit : std_BLS12381G1_11ISO = (mkW 4002409555221667393417789825735904156556882819939007885332058136124031650490837864442687629129015664037894272559787 12190336318893619529228877361869031420615612348429846051986726275283378313155663745811710833465465981901188123677 2906670324641927570491258158026293881577086121416628140204402091718288198173574630967936031029026176254968826637280 52435875175126190479447740508185965837690552500527637822603658699938581184513 15132376222941642753 1020232295111649411126762359530270833151925872915888263107080350435116244445972822132949957555221231229957568042978 572738012940399893876716047881377207991025392386390068007901896139525257801331726850963609787517204283814804267188).
Proof. done_vm. Qed.
Lemma bls_lit : w_shipped BLS12381G1 (mkW 4002409555221667393417789825735904156556882819939007885332058136124031650490837864442687629129015664037894272559787 0 4 52435875175126190479447740508185965837690552500527637822603658699938581184513 15132376222941642753 3685416753713387016781088315183077757961620795782546409894578378688607592378376318836054947676345821548104185464507 1339506544944476473020471379941921221584933875938349620426543736416511423956333506472724655353366534992391756441569).
Proof. rewrite <- std_bls_lit. exact InstProps.c48_BLS12381G1. Qed.
Lemma iso_lit : w_shipped BLS12381G1_11ISO (mkW 4002409555221667393417789825735904156556882819939007885332058136124031650490837864442687629129015664037894272559787 12190336318893619529228877361869031420615612348429846051986726275283378313155663745811710833465465981901188123677 2906670324641927570491258158026293881577086121416628140204402091718288198173574630967936031029026176254968826637280 52435875175126190479447740508185965837690552500527637822603658699938581184513 15132376222941642753 1020232295111649411126762359530270833151925872915888263107080350435116244445972822132949957555221231229957568042978 572738012940399893876716047881377207991025392386390068007901896139525257801331726850963609787517204283814804267188).
Proof. rewrite <- std_iso_lit. exact InstProps.c48_BLS12381G1_11ISO. Qed.
Lemma bls_number : 52435875175126190479447740508185965837690552500527637822603658699938581184513 * (3 * (11 * 11) * (10177 * 10177) * (859267 * 859267) * (52437899 * 52437899)) = 52435875175126190479447740508185965837690552500527637822603658699938581184513 * 0x396C8C005555E1568C00AAAB0000AAAB.
Proof. done_vm. Qed.
Lemma bls_cofactor : 3 * 11 * 10177 * 859267 * 52437899 = 15132376222941642753.
Proof. done_vm. Qed.
Lemma iso_cofactor : 3 * (11 * 11) * 10177 * 859267 * 52437899 = 11 * 15132376222941642753.
Proof. done_vm. Qed.
Lemma c55_BLS12381G1 : w_order BLS12381G1 std_BLS12381G1 (w_r std_BLS12381G1 * 0x396C8C005555E1568C00AAAB0000AAAB) /\ w_cleared BLS12381G1 std_BLS12381G1.
Proof.
  assert (O : w_order BLS12381G1 std_BLS12381G1 (w_r std_BLS12381G1 * 0x396C8C005555E1568C00AAAB0000AAAB)).
  { rewrite std_bls_lit. unfold w_order. cbn [w_p w_a w_b w_r w_h w_gx w_gy].
    pose proof (bls_count _ _ _ _ _ _ _ w_bls 2 xA_11 yA_11 xA_10177 yA_10177 xB_10177 yB_10177 xA_859267 yA_859267 xB_859267 yB_859267 xA_52437899 yA_52437899 8 16 bls_lit) as H.
    rewrite bls_number, bls_cofactor in H. apply H; clear H; [done_vm|vm_compute; discriminate|vm_compute; discriminate|exact q_10177|exact q_859267|exact pr_52437899|done_vm|done_vm|done_vm|
      exact bls_3|exact bls_11_A|exact bls_10177_A|exact bls_10177_B|exact bls_10177_A_rot|exact bls_10177_B_rot|exact bls_859267_A|exact bls_859267_B|exact bls_859267_A_rot|exact bls_859267_B_rot|exact bls_52437899_A]. }
  split; [exact O|]. apply (w_cleared_of _ _ _ InstProps.c48_BLS12381G1 O). small_h.
Qed.

(** the domain of the isogeny *)
Lemma bls_independent : forall n, ~ multiple (chord_tangent 4002409555221667393417789825735904156556882819939007885332058136124031650490837864442687629129015664037894272559787 1 0 0) Infinity (Affine xA_10177 yA_10177) n (Affine xB_10177 yB_10177)
  /\ ~ multiple (chord_tangent 4002409555221667393417789825735904156556882819939007885332058136124031650490837864442687629129015664037894272559787 1 0 0) Infinity (Affine xA_859267 yA_859267) n (Affine xB_859267 yB_859267)
  /\ ~ multiple (chord_tangent 4002409555221667393417789825735904156556882819939007885332058136124031650490837864442687629129015664037894272559787 1 0 0) Infinity (Affine xA_52437899 yA_52437899) n (Affine xB_52437899 yA_52437899).
Proof.
  apply (bls_indep _ _ _ _ _ _ _ w_bls xA_10177 yA_10177 xB_10177 yB_10177 xA_859267 yA_859267 xB_859267 yB_859267 xA_52437899 yA_52437899 xB_52437899 8 16 bls_lit);
  [done_vm|vm_compute; discriminate|vm_compute; discriminate|exact q_10177|exact q_859267|exact pr_52437899|repeat constructor; vm_compute; discriminate|done_vm|
   exact bls_10177_A|exact bls_10177_B|exact bls_10177_A_rot|exact bls_10177_B_rot|exact bls_859267_A|exact bls_859267_B|exact bls_859267_A_rot|exact bls_859267_B_rot|exact bls_52437899_A].
Qed.

Lemma pull_indep p a i x y x' y' X Y X' Y' m : get_isogeny_bls12381g1 = Ret m -> i = iso11_bls12381g1 -> modulus (WCurve.c_f (iso_e0 m)) = p -> val (WCurve.c_a (iso_e0 m)) = a mod p ->
  prime p -> Morphisms.isog m i -> WPoints.won (iso_e0 m) (Affine x y) -> isogeny_image p i x y X Y -> isogeny_image p i x' y' X' Y' ->
  (forall n, ~ multiple (chord_tangent p 1 0 0) Infinity (Affine X Y) n (Affine X' Y')) ->
  forall n, ~ multiple (chord_tangent p 1 0 (a mod p)) Infinity (Affine x y) n (Affine x' y').
Proof.
  intros Em -> Ep Ea Hp (_ & _ & E1 & A1 & _) OA IA IB N n M. cbn zeta in *. apply (N n). destruct (IsoHomProps.bls_respects m Em) as (_ & _ & H & _).
  unfold WPoints.wsum, Morphisms.maps in H. rewrite E1, A1, Ep, Ea in H. exact (H _ _ n (Affine X Y) (Affine X' Y') OA M IA IB).
Qed.
Lemma won_iso m x y n : get_isogeny_bls12381g1 = Ret m -> 0 <= x < 4002409555221667393417789825735904156556882819939007885332058136124031650490837864442687629129015664037894272559787 -> 0 <= y < 4002409555221667393417789825735904156556882819939007885332058136124031650490837864442687629129015664037894272559787 ->
  wcheck 4002409555221667393417789825735904156556882819939007885332058136124031650490837864442687629129015664037894272559787 12190336318893619529228877361869031420615612348429846051986726275283378313155663745811710833465465981901188123677 2906670324641927570491258158026293881577086121416628140204402091718288198173574630967936031029026176254968826637280 x y n 8 16 = true -> WPoints.won (iso_e0 m) (Affine x y).
Proof.
  intros Em Rx Ry H. destruct IsogProps.bls_full as (m' & Em' & E0 & _). rewrite Em in Em'. injection Em' as <-.
  destruct (w_check_on _ _ _ _ _ _ _ _ x y n 8 16 iso_lit Rx Ry H) as (e & E & O). rewrite E0 in E. injection E as <-. exact O.
Qed.
Lemma iso_independent : (forall n, ~ multiple (chord_tangent 4002409555221667393417789825735904156556882819939007885332058136124031650490837864442687629129015664037894272559787 1 0 (12190336318893619529228877361869031420615612348429846051986726275283378313155663745811710833465465981901188123677 mod 4002409555221667393417789825735904156556882819939007885332058136124031650490837864442687629129015664037894272559787)) Infinity (Affine xA1_10177 yA1_10177) n (Affine xB1_10177 yB1_10177))
  /\ (forall n, ~ multiple (chord_tangent 4002409555221667393417789825735904156556882819939007885332058136124031650490837864442687629129015664037894272559787 1 0 (12190336318893619529228877361869031420615612348429846051986726275283378313155663745811710833465465981901188123677 mod 4002409555221667393417789825735904156556882819939007885332058136124031650490837864442687629129015664037894272559787)) Infinity (Affine xA1_859267 yA1_859267) n (Affine xB1_859267 yB1_859267))
  /\ (forall n, ~ multiple (chord_tangent 4002409555221667393417789825735904156556882819939007885332058136124031650490837864442687629129015664037894272559787 1 0 (12190336318893619529228877361869031420615612348429846051986726275283378313155663745811710833465465981901188123677 mod 4002409555221667393417789825735904156556882819939007885332058136124031650490837864442687629129015664037894272559787)) Infinity (Affine xA1_52437899 yA1_52437899) n (Affine xB1_52437899 yB1_52437899)).
Proof.
  destruct IsogProps.bls_full as (m & Em & E0 & _ & IS & Ep & _ & _ & Hp & _).
  destruct iso_lit as (e & Ee & Ep' & Ea & _ & _ & _ & Hp' & _). rewrite E0 in Ee. injection Ee as <-. cbn [w_p w_a] in *.
  assert (PI := fun x y x' y' X Y X' Y' => pull_indep _ _ _ x y x' y' X Y X' Y' m Em eq_refl Ep' Ea Hp' IS).
  assert (IM := fun x y X Y u v => IsogP.image_ok _ 14 iso11_bls12381g1 x y X Y u v Hp'). clear Hp Ep.
  split; [|split].
  - apply (PI _ _ _ _ xA_10177 yA_10177 xB_10177 yB_10177); [|exact (IM _ _ _ _ _ _ img_10177_A)|exact (IM _ _ _ _ _ _ img_10177_B)|exact (fun n => proj1 (bls_independent n))].
    apply (won_iso m _ _ 10177 Em); [split; [vm_compute; discriminate|done_vm]|split; [vm_compute; discriminate|done_vm]|exact iso_10177_A].
  - apply (PI _ _ _ _ xA_859267 yA_859267 xB_859267 yB_859267); [|exact (IM _ _ _ _ _ _ img_859267_A)|exact (IM _ _ _ _ _ _ img_859267_B)|exact (fun n => proj1 (proj2 (bls_independent n)))].
    apply (won_iso m _ _ 859267 Em); [split; [vm_compute; discriminate|done_vm]|split; [vm_compute; discriminate|done_vm]|exact iso_859267_A].
  - apply (PI _ _ _ _ xA_52437899 yA_52437899 xB_52437899 yA_52437899); [|exact (IM _ _ _ _ _ _ img_52437899_A)|exact (IM _ _ _ _ _ _ img_52437899_B)|exact (fun n => proj2 (proj2 (bls_independent n)))].
    apply (won_iso m _ _ 52437899 Em); [split; [vm_compute; discriminate|done_vm]|split; [vm_compute; discriminate|done_vm]|exact iso_52437899_A].
Qed.
(** it has as many points as BLS12-381 G1, and eleven times the shipped cofactor clears it *)
Lemma c55_BLS12381G1_11ISO : exists e, BLS12381G1_11ISO = Ret e
  /\ counted (WPoints.won e) (w_r std_BLS12381G1_11ISO * 0x396C8C005555E1568C00AAAB0000AAAB)
  /\ clears (WPoints.won e) (WPoints.wsum e) Infinity (Affine (w_gx std_BLS12381G1_11ISO) (w_gy std_BLS12381G1_11ISO)) (11 * w_h std_BLS12381G1_11ISO) (w_r std_BLS12381G1_11ISO)
  /\ exponent (WPoints.won e) (WPoints.wsum e) Infinity (11 * w_h std_BLS12381G1_11ISO * w_r std_BLS12381G1_11ISO).
Proof.
  destruct iso_independent as (I1 & I2 & I3). rewrite std_iso_lit. cbn [w_p w_a w_b w_r w_h w_gx w_gy].
  pose proof (iso_count _ _ _ _ _ _ _ _ x_T3 y_T3 x_T121 y_T121 x_T11 y_T11 xA1_10177 yA1_10177 xB1_10177 yB1_10177 xA1_859267 yA1_859267 xB1_859267 yB1_859267 xA1_52437899 yA1_52437899 xB1_52437899 yB1_52437899 8 16 iso_lit) as H.
  rewrite bls_number, iso_cofactor in H. apply H; clear H; [exact q_10177|exact q_859267|exact pr_52437899|done_vm|done_vm|done_vm|repeat constructor; vm_compute; discriminate|
    exact iso_3|exact iso_121|exact iso_11|exact iso_10177_A|exact iso_10177_B|exact iso_859267_A|exact iso_859267_B|exact iso_52437899_A|exact iso_52437899_B|exact I1|exact I2|exact I3].
Qed.
(** the shipped cofactor itself does not: a point of order 121 *)
Lemma c55_BLS12381G1_11ISO_cofactor_refuted : exists e G k P A, BLS12381G1_11ISO = Ret e /\ WCurve.get_generator e = Ret G
  /\ WCurve.new_scalar e (w_get_cofactor e) = Ret k /\ WPoints.wpoint e P A
  /\ (forall n, multiple (WPoints.wsum e) Infinity A n Infinity <-> (121 | Z.of_nat n))
  /\ exists Q, WCurve.pt_mul false P k = Ret Q
  /\ forall j R, valid_scalar (WCurve.c_r e) j -> WCurve.pt_mul false G j = Ret R -> WCurve.pt_eqb Q R = Ret false.
Proof.
  pose proof iso_lit as (e & HX & Ep & _ & _ & Er & Eh & _ & _ & (W & _ & _ & L & _) & G & EG & HG & _). cbn [w_p w_r w_h w_gx w_gy] in *.
  destruct (w_not_cleared _ _ _ _ _ _ _ _ x_T121 y_T121 x_T11 y_T11 11 15132376222941642753 8 16 iso_lit) as (e' & HX' & OA & OT & N);
    [split; [vm_compute; discriminate|done_vm]|split; [vm_compute; discriminate|done_vm]|exact q_11|discriminate|exact iso_121|exact iso_11|vm_compute; discriminate|].
  rewrite HX in HX'. injection HX' as <-. destruct (WeierProps.c32_representation e W) as [_ RP]. destruct (RP _ OA) as (P & HP).
  exists e, G, (mkScalar 15132376222941642753 52435875175126190479447740508185965837690552500527637822603658699938581184513), P, (Affine x_T121 y_T121). split; [exact HX|]. split; [exact EG|].
  split. { unfold WCurve.new_scalar, w_get_cofactor. rewrite Eh, Er. apply small_scalar. split; done_vm. }
  split; [exact HP|]. split; [exact OT|].
  destruct (WeierProps.c26_scalar_multiplication false e P _ (mkScalar 15132376222941642753 52435875175126190479447740508185965837690552500527637822603658699938581184513) W HP) as (Q & EQ & HQ); [split; [symmetry; exact Er|cbn [sk sr]; rewrite Er; split; [discriminate|done_vm]]|exact L|discriminate|].
  exists Q. split; [exact EQ|]. intros j R Vj ER.
  destruct (WeierProps.c26_scalar_multiplication false e G _ j W HG Vj L) as (R' & ER' & HR); [discriminate|]. rewrite ER in ER'. injection ER' as <-.
  destruct (w_multiple e _ (Z.to_nat (sk (mkScalar 15132376222941642753 52435875175126190479447740508185965837690552500527637822603658699938581184513))) W OA) as (C & MC).
  assert (OG : WPoints.won e (Affine 1020232295111649411126762359530270833151925872915888263107080350435116244445972822132949957555221231229957568042978 572738012940399893876716047881377207991025392386390068007901896139525257801331726850963609787517204283814804267188)) by apply HG. destruct (w_multiple e _ (Z.to_nat (sk j)) W OG) as (D & MD).
  destruct (WeierProps.c32_equality e Q R C D W (proj2 (HQ C) MC) (proj2 (HR D) MD)) as ([] & -> & Ht); [|reflexivity]. exfalso.
  rewrite (proj1 Ht eq_refl) in MC. exact (N D _ MC MD).

Qed.


Lemma prime_curves_order : forall X s, In (X, s) prime_curves -> w_shipped X s /\ w_order X s (w_r s) /\ w_h s = 1.
Proof.
  assert (F : Forall (fun c => w_shipped (fst c) (snd c) /\ w_order (fst c) (snd c) (w_r (snd c)) /\ w_h (snd c) = 1) prime_curves);
    [|intros X s H; rewrite Forall_forall in F; exact (F (X, s) H)].
  unfold prime_curves. repeat apply Forall_cons; [..|apply Forall_nil]; unfold fst, snd.
  - split; [exact InstProps.c48_P256|]. split; [exact (proj1 c55_P256)|done_vm].
  - split; [exact InstProps.c48_P384|]. split; [exact (proj1 c55_P384)|done_vm].
  - split; [exact InstProps.c48_P521|]. split; [exact (proj1 c55_P521)|done_vm].
  - split; [exact InstProps.c48_SECP256K1|]. split; [exact (proj1 c55_SECP256K1)|done_vm].
  - split; [exact InstProps.c48_SECP256K1_3ISO|]. split; [exact (proj1 c55_SECP256K1_3ISO)|done_vm].
Qed.
Lemma c55_scalar_action : forall X s e P A k l, In (X, s) prime_curves -> X = Ret e -> WPoints.wpoint e P A ->
  valid_scalar (WCurve.c_r e) k -> valid_scalar (WCurve.c_r e) l ->
  WPoints.same (bind (WCurve.pt_mul false P k) (fun Y => bind (WCurve.pt_mul false P l) (fun Z => WCurve.pt_add Y Z)))
       (bind (sc_add k l) (fun m => WCurve.pt_mul false P m))
  /\ WPoints.same (bind (WCurve.pt_mul false P k) (fun Y => WCurve.pt_mul false Y l))
       (bind (sc_mul k l) (fun m => WCurve.pt_mul false P m)).
Proof.
  intros X s e P A k l H E HP Vk Vl. destruct (prime_curves_order X s H) as ((e' & E' & _ & _ & _ & Er & _ & _ & _ & (W & _ & _ & L & _) & _) & (e2 & E2 & _ & _ & EX) & H1).
  rewrite E in E', E2. injection E' as <-. injection E2 as <-. apply (WeierProps.c26_homomorphism e P A k l W HP Vk Vl L).
  rewrite H1, Z.mul_1_l in EX. rewrite Er. apply EX. apply HP.
Qed.
(** every point is one of 0, G, .., (r - 1) G, and each of these only once *)
Lemma c55_generator : forall X s, In (X, s) prime_curves -> exists e, X = Ret e
  /\ forall A, WPoints.won e A -> exists j, (0 <= j < w_r s /\ multiple (WPoints.wsum e) Infinity (Affine (w_gx s) (w_gy s)) (Z.to_nat j) A)
     /\ forall j', 0 <= j' < w_r s -> multiple (WPoints.wsum e) Infinity (Affine (w_gx s) (w_gy s)) (Z.to_nat j') A -> j' = j.
Proof.
  intros X s H. destruct (prime_curves_order X s H) as (HS & (e & E & _ & HC & _) & H1). destruct s as [p a b r h gx gy]. cbn [w_h w_r w_gx w_gy w_p] in *. subst h.
  destruct (w_open _ _ _ _ _ _ _ _ HS) as (e' & Hp & E' & H2 & NR & _ & _ & WO & WM & G & OG & EG & OdG). rewrite E in E'. injection E' as <-.
  exists e. split; [exact E|]. intros A OA. destruct (HC A OA) as (C & MC & j & Hj & Mj).
  assert (A = C) as <-.
  { change (Z.to_nat 1) with 1%nat in MC. destruct HS as (e1 & E1 & _ & _ & _ & _ & _ & _ & _ & (W & _) & _). rewrite E in E1. injection E1 as <-.
    destruct (WeierProps.weier_open e W) as (p' & Hp' & H2' & a' & b' & ef & ea & eb & _ & _ & _ & WM' & _).
    unfold WPoints.won in OA. rewrite ef, ea, eb in OA. destruct (on_cubic_unap p' Hp' H2' F0 _ _ _ OA) as (A' & -> & O).
    apply (WM' _ _ _ O) in MC. rewrite MC. f_equal. }
  exists j. split; [split; assumption|]. intros j' Hj' Mj'. rewrite <- EG in *. apply (WM _ _ _ OG) in Mj. apply (WM _ _ _ OG) in Mj'.
  rewrite Mj in Mj'. apply (ap_inj p Hp) in Mj'. rewrite <- !mul_nmul, <- !(zmul_nat _ (popp (ZpF p Hp))), !Z2Nat.id in Mj' by lia.
  apply (ord_eq _ _ _ _ (HGi p Hp H2 a b NR) _ _ _ _ OG OdG) in Mj'. destruct Mj' as [c Hc]. clear - Hj Hj' Hc.
  destruct (Z.lt_trichotomy c 0) as [L|[->|L]]; nia.
Qed.
(** on the Montgomery curves they do not: the point (0,0) of order 2 *)
Lemma c55_scalar_action_refuted : forall X s, In (X, s) [(CURVE25519, std_CURVE25519); (CURVE448, std_CURVE448)] ->
  exists e P k l, X = Ret e /\ MPoints.mpoint e P (Affine 0 0)
  /\ valid_scalar (MCurve.c_r e) k /\ valid_scalar (MCurve.c_r e) l
  /\ bind (bind (MCurve.pt_mul false P k) (fun Y => bind (MCurve.pt_mul false P l) (fun Z => MCurve.pt_add Y Z)))
       (fun L => bind (bind (sc_add k l) (fun m => MCurve.pt_mul false P m)) (fun M => MCurve.pt_eqb L M)) = Ret false.
Proof.
  intros X s H. apply (m_no_action X s).
  - assert (F : Forall (fun c => m_shipped (fst c) (snd c)) [(CURVE25519, std_CURVE25519); (CURVE448, std_CURVE448)])
      by (apply Forall_cons; [exact InstProps.c48_CURVE25519|apply Forall_cons; [exact InstProps.c48_CURVE448|apply Forall_nil]]).
    rewrite Forall_forall in F. exact (F (X, s) H).
  - assert (F : Forall (fun c : out MCurve.Curve * montgomery => Z.odd (m_r (snd c)) = true) [(CURVE25519, std_CURVE25519); (CURVE448, std_CURVE448)])
      by (apply Forall_cons; [done_vm|apply Forall_cons; [done_vm|apply Forall_nil]]).
    rewrite Forall_forall in F. exact (F (X, s) H).
  - assert (F : Forall (fun c : out MCurve.Curve * montgomery => 1 < m_r (snd c)) [(CURVE25519, std_CURVE25519); (CURVE448, std_CURVE448)])
      by (apply Forall_cons; [done_vm|apply Forall_cons; [done_vm|apply Forall_nil]]).
    rewrite Forall_forall in F. exact (F (X, s) H).
Qed.
Open Scope out_scope.
(** (0,2) is a point of BLS12-381 G1 of order 3, a divisor of the cofactor *)
Example c55_cofactor_ex : (e <- BLS12381G1 ;; P <- WCurve.new_point e (mkFpElt 0 (w_get_field e)) (mkFpElt 2 (w_get_field e)) ;;
  k <- WCurve.new_scalar e 3 ;; Q <- WCurve.pt_mul false P k ;;
  Ret (WCurve.pt_is_zero P, WCurve.pt_is_zero Q, w_get_cofactor e mod 3)) = Ret (false, true, 0).
Proof. done_vm. Qed.
(** G + 1 G = 2 G on P-256 *)
Example c55_scalar_action_ex : (e <- P256 ;; G <- WCurve.get_generator e ;; k <- WCurve.new_scalar e 2 ;;
  A <- WCurve.pt_add G G ;; B <- WCurve.pt_mul false G k ;; t <- WCurve.pt_eqb A B ;; u <- WCurve.pt_eqb A G ;; Ret (t, u)) = Ret (true, false).
Proof. done_vm. Qed.
(** on CURVE25519 the cofactor sends (0,0) to the identity *)
Example c55_mont_ex : (e <- CURVE25519 ;; k <- MCurve.new_scalar e (m_get_cofactor e) ;;
  P <- MCurve.new_point e (mkFpElt 0 (m_get_field e)) (mkFpElt 0 (m_get_field e)) ;; Q <- MCurve.pt_mul false P k ;; Ret (MCurve.pt_is_zero P, MCurve.pt_is_zero Q)) = Ret (false, true).
Proof. done_vm. Qed.
(** on EDWARDS25519 the cofactor sends a point of order 8 to (0,1) *)
Example c55_edw_ex : (e <- EDWARDS25519 ;; k <- ECurve.new_scalar e (e_get_cofactor e) ;; l <- ECurve.new_scalar e 4 ;;
  P <- ECurve.new_point e (mkFpElt x_EDWARDS25519 (e_get_field e)) (mkFpElt y_EDWARDS25519 (e_get_field e)) ;;
  Q <- ECurve.pt_mul false P k ;; R <- ECurve.pt_mul false P l ;; I <- ECurve.identity e ;; t <- ECurve.pt_eqb Q I ;; u <- ECurve.pt_eqb R I ;; Ret (t, u)) = Ret (true, false).
Proof. done_vm. Qed.
